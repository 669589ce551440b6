(** Changing or deleting the line of a resource: C102. *)

From Coq Require Import String NArith List Lia Permutation.
From Verif Require Import M_Base M_Proto M_IpAddr M_FwProto M_ConfTypes M_Text M_Conf M_Str M_Utf8 M_Server
  S_Wire S_Session S_Text S_Conf
  P_Base P_Str P_Utf8 P_Ini P_Conf P_Load P_Session P_Files P_Revoked P_Reassign Prop_Conf Prop_Session Prop_Setup Prop_Revoked
  S_Files S_Reassign.
Import ListNotations.
Local Open Scope N_scope.

(** *** C102 *)

(** The file with the new line loads exactly if no other resource has the port, whatever
    the hash order; then nothing but this resource has changed. *)
Theorem C102_file_loads_with_the_new_resource :
  forall fraction variant file ls c file' ls' id rs,
  started_from fraction variant file ls c -> resource_line_changed id rs ls ls' -> file_lines file' ls' ->
  forall order path c' r, (forall m, Permutation m (order m)) ->
  conf_load fraction order (conf_new variant) path file' = (c', r) ->
  (r = Ok tt <-> port_is_free c id rs) /\ (r = Ok tt -> same_config c' (with_resource c id rs)).
Proof.
  intros fraction variant file ls c file' ls' id rs ST CH FL' order path c' r PO L.
  pose proof ST as (_ & _ & _ & _ & W & _). pose proof (edited_changed _ _ _ _ CH W) as ED.
  assert (FIT : r = Ok tt -> port_is_free c id rs).
  { intros ->. refine (edited_fits fraction variant file ls c file' ls' c' id (Some rs) ST ED _).
    exists order, path. destruct ED as (W' & _). auto. }
  assert (LOAD : port_is_free c id rs -> r = Ok tt /\ same_config c' (with_resource c id rs)).
  { intros FR. destruct (loads_edited fraction variant file ls c file' ls' id (Some rs) ST ED FR FL' order path PO) as (c2 & L2 & _ & S).
    rewrite L in L2. injection L2 as -> ->. auto. }
  split; [split; [exact FIT|intros FR; apply LOAD; exact FR]|intros E; apply LOAD, FIT; exact E].
Qed.
Print Assumptions C102_file_loads_with_the_new_resource.

(** Without the line the file always loads, and nothing but this resource is gone. *)
Theorem C102_file_loads_without_the_resource :
  forall fraction variant file ls c file' ls' id,
  started_from fraction variant file ls c -> resource_line_deleted id ls ls' -> file_lines file' ls' ->
  forall order path, (forall m, Permutation m (order m)) ->
  exists c', conf_load fraction order (conf_new variant) path file' = (c', Ok tt)
    /\ same_config c' (without_resource c id) /\ conf_resource c' id = None.
Proof.
  intros fraction variant file ls c file' ls' id ST CH FL' order path PO.
  pose proof ST as (_ & _ & _ & _ & W & _). pose proof (edited_deleted _ _ _ CH W) as ED.
  destruct (loads_edited fraction variant file ls c file' ls' id None ST ED Logic.I FL' order path PO) as (c2 & L2 & _ & S).
  exists c2. split; [exact L2|]. split; [exact S|].
  destruct S as (_ & _ & _ & _ & _ & _ & _ & R & _). rewrite R.
  rewrite (changed_lookup c id None id), N.eqb_refl. reflexivity.
Qed.
Print Assumptions C102_file_loads_without_the_resource.

(** A session of letmeind with the new file that began with a knock for the resource
    opens at most what the new line says, and only if it lets the user in. *)
Theorem C102_opens_what_the_new_line_says :
  forall fraction sfile sls sc sfile' sls' sc' id rs,
  started_from fraction VarServer sfile sls sc -> resource_line_changed id rs sls sls' ->
  started_from fraction VarServer sfile' sls' sc' ->
  forall mac peer T tr p, ip_address peer -> srun T (server_run mac sc' peer) tr p ->
  forall d b rest user salt auth fm,
  tr = EvRecv d (RxBuf b) :: rest -> wire_layout b Knock user id salt auth -> In fm (fw_requests tr) ->
  (rs_users rs = [] \/ In user (rs_users rs))
  /\ exists t, fw_port fm = Some (t, rs_port rs) /\ covers_tcp t = rs_tcp rs /\ covers_udp t = rs_udp rs.
Proof.
  intros fraction sfile sls sc sfile' sls' sc' id rs ST CH ST' mac peer T tr p IP R d b rest user salt auth fm ET WL I.
  pose proof ST as (_ & _ & _ & _ & W & _). pose proof (edited_changed _ _ _ _ CH W) as ED.
  destruct (C08_opens_what_is_granted mac sc' peer T tr p (started_keys_sized _ _ _ _ _ ST') IP R fm I)
    as (user' & id' & r & t & d' & kb & rest' & salt' & auth' & ET' & WL' & [G1 G2 G3 G4] & _ & _ & P1 & P2 & P3).
  rewrite ET in ET'. injection ET' as <- <- <-.
  assert (user' = user /\ id' = id) as (-> & ->) by (destruct WL, WL'; split; congruence).
  apply (edited_resource _ _ _ _ _ _ _ _ _ ST ED ST') in G1. injection G1 as <-. split; [exact G3|eauto].
Qed.
Print Assumptions C102_opens_what_the_new_line_says.

(** Without the line, a session that began with a knock for the resource opens nothing. *)
Theorem C102_deleted_resource_is_not_opened :
  forall fraction sfile sls sc sfile' sls' sc' id,
  started_from fraction VarServer sfile sls sc -> resource_line_deleted id sls sls' ->
  started_from fraction VarServer sfile' sls' sc' ->
  forall mac peer T tr p, ip_address peer -> srun T (server_run mac sc' peer) tr p ->
  forall d b rest user salt auth,
  tr = EvRecv d (RxBuf b) :: rest -> wire_layout b Knock user id salt auth -> fw_requests tr = [].
Proof.
  intros fraction sfile sls sc sfile' sls' sc' id ST CH ST' mac peer T tr p IP R d b rest user salt auth ET WL.
  pose proof ST as (_ & _ & _ & _ & W & _). pose proof (edited_deleted _ _ _ CH W) as ED.
  destruct (fw_requests tr) as [|fm l] eqn:E; [reflexivity|exfalso].
  destruct (C08_opens_what_is_granted mac sc' peer T tr p (started_keys_sized _ _ _ _ _ ST') IP R fm)
    as (user' & id' & r & t & d' & kb & rest' & salt' & auth' & ET' & WL' & [G1 G2 G3 G4] & _); [rewrite E; left; reflexivity|].
  rewrite ET in ET'. injection ET' as <- <- <-.
  assert (id' = id) as -> by (destruct WL, WL'; congruence).
  apply (edited_resource _ _ _ _ _ _ _ _ _ ST ED ST') in G1. discriminate G1.
Qed.
Print Assumptions C102_deleted_resource_is_not_opened.

(** *** The hypotheses can be met *)

(** The sample file with another line for resource 1, with one whose port is that of
    resource 2, and without the line. *)
Definition res_line : text := Eval vm_compute in lit "01=port:23/users:b".
Definition clash_line : text := Eval vm_compute in lit "01 = port: 53".
Definition around (mid : list text) : list text := (firstn 10 (lines sample_file) ++ mid ++ skipn 11 (lines sample_file))%list.
Definition text_of (ls : list text) : text := concat (map (fun l => (l ++ lit NL)%list) ls).
Definition sample_moved : text := Eval vm_compute in text_of (around [res_line]).
Definition sample_clash : text := Eval vm_compute in text_of (around [clash_line]).
Definition sample_less : text := Eval vm_compute in text_of (around []).

Lemma resources_section : in_section (firstn 10 (lines sample_file)) (lit "RESOURCES").
Proof.
  exists (firstn 9 (lines sample_file)), (lit "[RESOURCES]"), []. split; [vm_compute; reflexivity|].
  split; [apply class_head; vm_compute; reflexivity|intros m n []].
Qed.
Lemma old_line : option_line (nth 10 (lines sample_file) []) (lit "1") (lit " port: 22").
Proof. apply class_opt. vm_compute. reflexivity. Qed.
Lemma only_line : no_resource_line (around []) 1.
Proof.
  intros o v rest J (pre & h & mid & l & E & _ & OL & _).
  assert (In l (around [])) as IN by (rewrite E; apply in_or_app; right; right; apply in_or_app; right; left; reflexivity).
  apply class_opt in OL. apply parse_id_spec in J. clear E. vm_compute in IN.
  repeat (destruct IN as [<-|IN]; [vm_compute in OL; first [discriminate OL|injection OL as <- <-; vm_compute in J; discriminate J]|]).
  destruct IN.
Qed.
Lemma moved_changed : forall l v rs, option_line l (lit "01") v -> resource_text v rs ->
  resource_line_changed 1 rs (lines sample_file) (around [l]).
Proof.
  intros l v rs OL R. exists (firstn 10 (lines sample_file)), (nth 10 (lines sample_file) []), l, (skipn 11 (lines sample_file)),
    (lit "1"), (lit " port: 22"), (lit "01"), v.
  split; [vm_compute; reflexivity|]. split; [reflexivity|]. split; [exact resources_section|]. split; [exact old_line|].
  split; [apply parse_id_spec; vm_compute; reflexivity|]. split; [exact OL|].
  split; [apply parse_id_spec; vm_compute; reflexivity|]. split; [exact R|exact only_line].
Qed.

Example C102_witness :
  started_from no_fraction VarServer (Some sample_file) (lines sample_file) sample_conf
  /\ resource_line_changed 1 (ResPort 23 true false [11]) (lines sample_file) (lines sample_moved)
  /\ started_from no_fraction VarServer (Some sample_moved) (lines sample_moved) (conf_of VarServer sample_moved)
  /\ resource_line_changed 1 (ResPort 53 true false []) (lines sample_file) (lines sample_clash)
  /\ file_lines (Some sample_clash) (lines sample_clash)
  /\ ~ port_is_free sample_conf 1 (ResPort 53 true false [])
  /\ resource_line_deleted 1 (lines sample_file) (lines sample_less)
  /\ started_from no_fraction VarServer (Some sample_less) (lines sample_less) (conf_of VarServer sample_less).
Proof.
  split; [exact Prop_E2e.C54_server_started|]. split; [|split; [|split; [|split; [|split; [|split]]]]].
  - replace (lines sample_moved) with (around [res_line]) by (vm_compute; reflexivity).
    apply (moved_changed _ (lit "port:23/users:b")); [apply class_opt|apply parse_resource_spec]; vm_compute; reflexivity.
  - apply started_text; vm_compute; reflexivity.
  - replace (lines sample_clash) with (around [clash_line]) by (vm_compute; reflexivity).
    apply (moved_changed _ (lit " port: 53")); [apply class_opt|apply parse_resource_spec]; vm_compute; reflexivity.
  - exists sample_clash, sample_clash. split; [reflexivity|]. split; [apply from_utf8_spec; vm_compute; reflexivity|apply lines_spec].
  - intros FR. apply (FR 2 (ResPort 53 false true [10; 11])); [discriminate|vm_compute; reflexivity|reflexivity].
  - replace (lines sample_less) with (around []) by (vm_compute; reflexivity).
    exists (firstn 10 (lines sample_file)), (nth 10 (lines sample_file) []), (skipn 11 (lines sample_file)), (lit "1"), (lit " port: 22").
    split; [vm_compute; reflexivity|]. split; [reflexivity|]. split; [exact resources_section|]. split; [exact old_line|].
    split; [apply parse_id_spec; vm_compute; reflexivity|exact only_line].
  - apply started_text; vm_compute; reflexivity.
Qed.
