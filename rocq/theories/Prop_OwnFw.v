(** The firewall daemon's answer depends on the lines for the port only: C103. *)

From Coq Require Import String NArith List Lia Permutation.
From Verif Require Import M_Base M_Proto M_IpAddr M_FwProto M_ConfTypes M_Text M_Conf M_Str M_Utf8 M_Server M_Firewall
  S_Wire S_Session S_Text S_Conf
  P_Base P_Str P_Conf P_Load P_Files P_Fwd P_Rotate P_Reassign P_Own P_OwnFw P_Adding
  Prop_Conf Prop_Firewall Prop_Setup Prop_Rotate Prop_Reassign S_Files S_Firewall S_Rotate S_Reassign S_Own S_Adding.
Import ListNotations.
Local Open Scope N_scope.

(** *** C103, letmeinfwd *)

(** Two files that say the same about the control port, about nft, and about the resources
    for the port of a request.  In every state of the firewall daemon, the request has the
    same effect and the same reply with both files. *)
Theorem C103_firewall_reply_depends_on_own_lines_only :
  forall fraction file ls c file' ls' c',
  started_from fraction VarServer file ls c -> started_from fraction VarServer file' ls' c' ->
  same_control ls ls' -> same_nft ls ls' ->
  forall b a t port, all_bytes b -> asks b a t port -> same_port ls ls' port ->
  forall d now ok send_ok,
  fw_step c d (FwMessage (FwRxBuf b) now ok send_ok) = fw_step c' d (FwMessage (FwRxBuf b) now ok send_ok).
Proof.
  intros fraction file ls c file' ls' c' ST ST' SC SN b a t port HB AK SP d now ok send_ok.
  exact (own_reply _ _ _ _ _ _ _ ST ST' SC SN b a t port HB AK SP d now ok send_ok).
Qed.
Print Assumptions C103_firewall_reply_depends_on_own_lines_only.

(** So the keys make no difference to the firewall daemon, ... *)
Theorem C103_keys_do_not_matter_to_firewall :
  forall fraction file ls c file' ls' c' user key,
  started_from fraction VarServer file ls c -> started_from fraction VarServer file' ls' c' ->
  key_line_changed user key ls ls' ->
  forall b a t port, all_bytes b -> asks b a t port ->
  forall d now ok send_ok,
  fw_step c d (FwMessage (FwRxBuf b) now ok send_ok) = fw_step c' d (FwMessage (FwRxBuf b) now ok send_ok).
Proof.
  intros fraction file ls c file' ls' c' user key ST ST' CH b a t port HB AK.
  pose proof ST as (_ & _ & _ & _ & W & _). destruct (options_changed _ _ _ _ CH W) as (_ & _ & _ & HS).
  destruct (own_settings (lit "KEYS") _ _ _ ltac:(discriminate) HS) as (SC & _).
  eapply C103_firewall_reply_depends_on_own_lines_only; eauto.
  - intros o v. apply HS. left. discriminate.
  - intros id r _. apply (own_entries _ _ _ _ HS). left. discriminate.
Qed.
Print Assumptions C103_keys_do_not_matter_to_firewall.

(** ... nor does deleting the resource of another port. *)
Theorem C103_other_ports_do_not_matter_to_firewall :
  forall fraction file ls c file' ls' c' id rs,
  started_from fraction VarServer file ls c -> started_from fraction VarServer file' ls' c' ->
  resource_line_deleted id ls ls' -> entry ls "RESOURCES" resource_text id rs ->
  forall b a t port, all_bytes b -> asks b a t port -> port <> rs_port rs ->
  forall d now ok send_ok,
  fw_step c d (FwMessage (FwRxBuf b) now ok send_ok) = fw_step c' d (FwMessage (FwRxBuf b) now ok send_ok).
Proof.
  intros fraction file ls c file' ls' c' id rs ST ST' CH EN b a t port HB AK NE.
  pose proof ST as (_ & _ & _ & _ & W & _).
  destruct (edited_deleted _ _ _ CH W) as (_ & NO & _ & _ & HS).
  destruct (own_settings RES _ _ _ ltac:(discriminate) HS) as (SC & _).
  eapply C103_firewall_reply_depends_on_own_lines_only; eauto.
  - intros o v. apply HS. left. discriminate.
  - intros i r P. destruct (N.eq_dec i id) as [->|NI]; [|apply (own_entries _ _ _ _ HS); right; exact NI].
    split; intros E.
    + exfalso. apply NE. rewrite <- P. f_equal.
      destruct (started_configures _ _ _ _ _ ST) as [CF _].
      pose proof (proj2 (proj2 (proj2 (cf_resources _ _ _ CF)) id r) E) as Q1.
      pose proof (proj2 (proj2 (proj2 (cf_resources _ _ _ CF)) id rs) EN) as Q2. congruence.
    + exfalso. destruct E as (o & v & H & I & M). destruct (NO _ _ H I) as (r0 & Q & _). discriminate Q.
Qed.
Print Assumptions C103_other_ports_do_not_matter_to_firewall.

(** *** C104, letmeinfwd *)

(** With the new line, letmeinfwd may open the port of the new resource besides those it
    could open before, unless it is the control port, and no other. *)
Theorem C104_firewall_permits_one_more_port :
  forall fraction file ls c file' ls' c' id rs,
  started_from fraction VarServer file ls c -> started_from fraction VarServer file' ls' c' ->
  resource_line_added id rs ls ls' ->
  forall port, permitted_port c' port
    <-> permitted_port c port \/ (port = rs_port rs /\ ~ exists cp, control_port_is ls cp /\ cp_port cp = port).
Proof.
  intros fraction file ls c file' ls' c' id rs ST ST' AD port.
  pose proof ST as (_ & _ & _ & _ & W & _).
  destruct (added_others _ _ _ _ AD W) as (SC & _ & _ & SR).
  pose proof (own_port _ _ _ _ _ _ _ _ ST ST' SC) as EP.
  pose proof (started_configures _ _ _ _ _ ST) as [CF _].
  pose proof (started_resources _ _ _ _ _ ST) as R1. pose proof (started_resources _ _ _ _ _ ST') as R2.
  assert (CP : forall cp, control_port_is ls cp -> cp = c_port c).
  { intros cp H. eapply setting_fun; [..|exact H|exact (cf_port _ _ _ CF)].
    - intros t x y A B. apply parse_port_spec in A, B. congruence.
    - intros v w. apply has_option_fun. exact W. }
  unfold permitted_port. rewrite <- EP. split.
  - intros (NC & i & r & I & P). destruct (N.eq_dec i id) as [->|NI].
    + right. split.
      * rewrite <- P. f_equal. apply R2 in I.
        destruct (started_configures _ _ _ _ _ ST') as [CF' _].
        pose proof (proj2 (proj2 (proj2 (cf_resources _ _ _ CF')) id r) I) as Q1.
        pose proof (proj2 (proj2 (proj2 (cf_resources _ _ _ CF')) id rs) (added_entry _ _ _ _ AD W)) as Q2. congruence.
      * intros (cp & H & E). apply CP in H. subst cp. congruence.
    + left. split; [exact NC|]. exists i, r. split; [|exact P]. apply R1, (SR i NI r), R2, I.
  - intros [(NC & i & r & I & P)|(-> & NC)].
    + split; [exact NC|]. exists i, r. split; [|exact P]. apply R2. eapply added_stays; eauto. apply R1, I.
    + split; [|exists id, rs; split; [apply R2; exact (added_entry _ _ _ _ AD W)|reflexivity]].
      intros E. apply NC. exists (c_port c). split; [exact (cf_port _ _ _ CF)|congruence].
Qed.
Print Assumptions C104_firewall_permits_one_more_port.

(** Its replies to the requests for other ports stay the same. *)
Theorem C104_firewall_other_ports_unaffected :
  forall fraction file ls c file' ls' c' id rs,
  started_from fraction VarServer file ls c -> started_from fraction VarServer file' ls' c' ->
  resource_line_added id rs ls ls' ->
  forall b a t port, all_bytes b -> asks b a t port -> port <> rs_port rs ->
  forall d now ok send_ok,
  fw_step c d (FwMessage (FwRxBuf b) now ok send_ok) = fw_step c' d (FwMessage (FwRxBuf b) now ok send_ok).
Proof.
  intros fraction file ls c file' ls' c' id rs ST ST' AD b a t port HB AK NE d now ok send_ok.
  pose proof ST as (_ & _ & _ & _ & W & _). pose proof (added_entry _ _ _ _ AD W) as EN.
  symmetry. refine (C103_other_ports_do_not_matter_to_firewall _ _ _ _ _ _ _ id rs ST' ST _ EN b a t port HB AK NE d now ok send_ok).
  destruct AD as (pre & line & post & o & v & E1 & E2 & IS & OL & I & _ & NL). exists pre, line, post, o, v. auto 10.
Qed.
Print Assumptions C104_firewall_other_ports_unaffected.

(** *** The hypotheses can be met *)

(** The request to open port 22; a file in which a key was changed; and the request for port 53
    after the resource of port 22 was deleted.  Both requests are acknowledged, and only
    the first one is refused with the shorter file. *)
Definition own_b53 : list N := Eval vm_compute in match fw_serialize (fw_new_open host_a PtUdp 53) with Ok b => b | _ => [] end.
Definition own_kernel : kernel := Kernel [ex_other; ChainName INet (lit "filter") (lit "LETMEIN")]
  [Rule ex_other 3 None [MatchDport (SpTcp 80); Accept]] 5.
Definition own_state : daemon := Eval vm_compute in
  match fw_start sample_conf own_kernel true true with (_, Ok d) => d | (k, _) => Daemon k (Firewall [] false) PhDead end.
Definition own_answer (c : config) (b : list N) : option fw_message :=
  match fw_step c own_state (FwMessage (FwRxBuf b) 1000 true true) with Some (_, r) => r | None => None end.

Example C103_firewall_witness :
  started_from no_fraction VarServer (Some sample_file) (lines sample_file) sample_conf
  /\ started_from no_fraction VarServer (Some sample_changed) (lines sample_changed) (conf_of VarServer sample_changed)
  /\ key_line_changed 11 changed_key (lines sample_file) (lines sample_changed)
  /\ resource_line_deleted 1 (lines sample_file) (lines sample_less)
  /\ started_from no_fraction VarServer (Some sample_less) (lines sample_less) (conf_of VarServer sample_less)
  /\ entry (lines sample_file) "RESOURCES" resource_text 1 (ResPort 22 true false [])
  /\ asks open_a22 host_a PtTcp 22 /\ asks own_b53 host_a PtUdp 53 /\ all_bytes open_a22 /\ all_bytes own_b53
  /\ own_answer sample_conf open_a22 = Some fw_new_ack
  /\ own_answer (conf_of VarServer sample_changed) open_a22 = Some fw_new_ack
  /\ own_answer sample_conf own_b53 = Some fw_new_ack
  /\ own_answer (conf_of VarServer sample_less) own_b53 = Some fw_new_ack
  /\ own_answer (conf_of VarServer sample_less) open_a22 = Some fw_new_nack.
Proof.
  destruct C101_witness as (A & B & C & _). destruct C102_witness as (_ & _ & _ & _ & _ & _ & D & E).
  split; [exact A|]. split; [exact C|]. split; [exact B|]. split; [exact D|]. split; [exact E|].
  split.
  { destruct (started_configures _ _ _ _ _ A) as [CF _]. apply (proj1 (proj2 (proj2 (cf_resources _ _ _ CF)) _ _)).
    vm_compute. reflexivity. }
  split; [exact ex_asks|]. split.
  { exists (FwMsg FwOpen PtUdp 53 AtIpv4 [0;0;0;0;0;0;0;0;0;0;0;0;192;168;0;7]).
    repeat split; try reflexivity. apply bytes_ok_spec. reflexivity. }
  split; [apply bytes_ok_spec; reflexivity|]. split; [apply bytes_ok_spec; reflexivity|].
  vm_compute. repeat split.
Qed.

(** The line of resource 1 added to the shorter file. *)
Example C104_firewall_witness :
  started_from no_fraction VarServer (Some sample_less) (lines sample_less) (conf_of VarServer sample_less)
  /\ started_from no_fraction VarServer (Some sample_file) (lines sample_file) sample_conf
  /\ resource_line_added 1 (ResPort 22 true false []) (lines sample_less) (lines sample_file)
  /\ permitted_port sample_conf 22 /\ ~ permitted_port (conf_of VarServer sample_less) 22
  /\ permitted_port (conf_of VarServer sample_less) 53.
Proof.
  destruct C103_firewall_witness as (A & _ & _ & D & E & _).
  split; [exact E|]. split; [exact A|]. split.
  - destruct D as (pre & line & post & o & v & E1 & E2 & IS & OL & I & NL).
    exists (firstn 10 (lines sample_file)), (nth 10 (lines sample_file) []), (skipn 11 (lines sample_file)), (lit "1"), (lit " port: 22").
    split; [vm_compute; reflexivity|]. split; [vm_compute; reflexivity|]. split; [exact resources_section|]. split; [exact old_line|].
    split; [apply parse_id_spec; vm_compute; reflexivity|]. split; [apply parse_resource_spec; vm_compute; reflexivity|exact NL].
  - assert (C : c_resources (conf_of VarServer sample_less) = [(2, ResPort 53 false true [10; 11])]) by (vm_compute; reflexivity).
    assert (P : cp_port (c_port (conf_of VarServer sample_less)) = 1234) by (vm_compute; reflexivity).
    unfold permitted_port. rewrite C, P. split; [|split].
    + split; [discriminate|]. exists 1, (ResPort 22 true false []). split; [vm_compute; auto|reflexivity].
    + intros (_ & i & r & [I|[]] & Q). injection I as <- <-. discriminate Q.
    + split; [discriminate|]. exists 2, (ResPort 53 false true [10; 11]). split; [left; reflexivity|reflexivity].
Qed.
