(** A knock depends on its own lines of the file only: C103. *)

From Coq Require Import String NArith List Lia Permutation.
From Verif Require Import M_Base M_Proto M_IpAddr M_FwProto M_ConfTypes M_Text M_Conf M_Str M_Utf8 M_Sha3 M_Server M_Client
  S_Wire S_Session S_Client S_Text S_Conf
  P_Base P_Proto P_Str P_Utf8 P_Ini P_Conf P_Load P_Session P_Exec P_Files P_Secret P_Rotate P_Reassign P_Own
  Prop_Conf Prop_Setup Prop_Rotate Prop_Reassign S_Files S_Rotate S_Reassign S_Own.
From Verif Require Prop_E2e.
Import ListNotations.
Local Open Scope N_scope.

(** *** C103 *)

Lemma alike_ends : forall p p', ssim eq p p' -> forall r, p = SRet r <-> p' = SRet r.
Proof. intros p p' SM r. destruct SM as [x y ->| | | | | |]; split; intros Q; first [discriminate Q|exact Q]. Qed.

(** Two files of letmeind that say the same about the control port, the error policy, the
    user and the resource of a knock.  A session that began with this knock can go on
    with one file exactly as it can with the other, whatever else the files say. *)
Theorem C103_session_depends_on_own_lines_only :
  forall fraction file ls c file' ls' c' user id,
  started_from fraction VarServer file ls c -> started_from fraction VarServer file' ls' c' ->
  same_control ls ls' -> same_policy ls ls' -> same_user ls ls' user -> same_resource ls ls' id ->
  forall mac peer T tr p, begins_with_knock user id tr -> srun T (server_run mac c peer) tr p ->
  exists p', srun T (server_run mac c' peer) tr p' /\ forall r, p = SRet r <-> p' = SRet r.
Proof.
  intros fraction file ls c file' ls' c' user id ST ST' SC SP SU SR mac peer T tr p BK R.
  destruct (own_server mac c c' (own_policy _ _ _ _ _ _ _ _ ST ST' SP) (own_port _ _ _ _ _ _ _ _ ST ST' SC) peer user id T tr p
              (own_key _ _ _ _ _ _ _ _ ST ST' user SU) (own_resource _ _ _ _ _ _ _ _ ST ST' id SR) BK R) as (p' & R' & SM).
  exists p'. split; [exact R'|exact (alike_ends _ _ SM)].
Qed.
Print Assumptions C103_session_depends_on_own_lines_only.

(** Likewise the client: what a knock command does depends on nothing but what its file
    says about its user, the resources for its port and the control port. *)
Theorem C103_knock_depends_on_own_lines_only :
  forall fraction file ls c file' ls' c' given user port,
  started_from fraction VarClient file ls c -> started_from fraction VarClient file' ls' c' ->
  user_of_command ls given user -> user_of_command ls' given user ->
  same_control ls ls' -> same_user ls ls' user -> same_port ls ls' port ->
  forall mac parse_ip host server srv crypt T tr p,
  crun T (run_knock mac parse_ip c host server port given srv crypt) tr p
  <-> crun T (run_knock mac parse_ip c' host server port given srv crypt) tr p.
Proof.
  intros fraction file ls c file' ls' c' given user port ST ST' UC UC' SC SU SP mac parse_ip host server srv crypt T tr p.
  assert (U : forall fl l0 cf, started_from fraction VarClient fl l0 cf -> user_of_command l0 given user ->
            match given with Some u => u | None => c_default_user cf end = user).
  { intros fl l0 cf S [->|(-> & D)]; [reflexivity|]. destruct (started_configures _ _ _ _ _ S) as [CF V].
    destruct S as (_ & _ & _ & _ & W & _).
    eapply setting_fun; [..|exact (cf_client _ _ _ CF V)|exact D].
    - intros t x y A B. apply parse_id_spec in A, B. congruence.
    - intros v w. apply has_option_fun. exact W. }
  pose proof (own_key _ _ _ _ _ _ _ _ ST ST' user SU) as EK.
  pose proof (own_by_port _ _ _ _ _ _ _ _ ST ST' port (Some user) SP) as EB.
  assert (CP : M_Client.to_control_port server c = M_Client.to_control_port server c')
    by (unfold M_Client.to_control_port; rewrite (own_port _ _ _ _ _ _ _ _ ST ST' SC); reflexivity).
  unfold run_knock. rewrite (U _ _ _ ST UC), (U _ _ _ ST' UC'), EK, EB, CP. reflexivity.
Qed.
Print Assumptions C103_knock_depends_on_own_lines_only.

(** So a changed line of another user's key makes no difference to a session, ... *)
Theorem C103_other_keys_do_not_matter :
  forall fraction file ls c file' ls' c' other key user id,
  started_from fraction VarServer file ls c -> started_from fraction VarServer file' ls' c' ->
  key_line_changed other key ls ls' -> user <> other ->
  forall mac peer T tr, begins_with_knock user id tr ->
  ((exists p, srun T (server_run mac c peer) tr p) <-> (exists p, srun T (server_run mac c' peer) tr p)).
Proof.
  intros fraction file ls c file' ls' c' other key user id ST ST' CH NE mac peer T tr BK.
  pose proof ST as (_ & _ & _ & _ & W & _). destruct (options_changed _ _ _ _ CH W) as (_ & _ & _ & HS).
  destruct (own_settings (lit "KEYS") _ _ _ ltac:(discriminate) HS) as (SC & SP).
  pose proof (own_entries _ _ _ _ HS) as EN.
  assert (SU : same_user ls ls' user) by (intros k; apply EN; auto).
  assert (SR : same_resource ls ls' id) by (intros r; apply EN; left; discriminate).
  split; intros (p & R).
  - destruct (C103_session_depends_on_own_lines_only _ _ _ _ _ _ _ _ _ ST ST' SC SP SU SR _ _ _ _ _ BK R) as (p' & R' & _). eauto.
  - assert (SC' : same_control ls' ls) by (intros x; symmetry; apply SC).
    assert (SP' : same_policy ls' ls) by (intros x; symmetry; apply SP).
    assert (SU' : same_user ls' ls user) by (intros x; symmetry; apply SU).
    assert (SR' : same_resource ls' ls id) by (intros x; symmetry; apply SR).
    destruct (C103_session_depends_on_own_lines_only _ _ _ _ _ _ _ _ _ ST' ST SC' SP' SU' SR' _ _ _ _ _ BK R) as (p' & R' & _). eauto.
Qed.
Print Assumptions C103_other_keys_do_not_matter.

(** ... nor does a changed or deleted line of another resource. *)
Theorem C103_other_resources_do_not_matter :
  forall fraction file ls c file' ls' c' other user id,
  started_from fraction VarServer file ls c -> started_from fraction VarServer file' ls' c' ->
  resource_line_deleted other ls ls' \/ (exists rs, resource_line_changed other rs ls ls') -> id <> other ->
  forall mac peer T tr, begins_with_knock user id tr ->
  ((exists p, srun T (server_run mac c peer) tr p) <-> (exists p, srun T (server_run mac c' peer) tr p)).
Proof.
  intros fraction file ls c file' ls' c' other user id ST ST' CH NE mac peer T tr BK.
  assert (exists new, edited other new ls ls') as (new & _ & _ & _ & _ & HS).
  { destruct ST as (_ & _ & _ & _ & W & _). destruct CH as [CH|(rs & CH)];
      [exists None; apply edited_deleted; assumption|exists (Some rs); apply edited_changed; assumption]. }
  destruct (own_settings RES _ _ _ ltac:(discriminate) HS) as (SC & SP).
  pose proof (own_entries _ _ _ _ HS) as EN.
  assert (SU : same_user ls ls' user) by (intros k; apply EN; left; discriminate).
  assert (SR : same_resource ls ls' id) by (intros r; apply EN; auto).
  split; intros (p & R).
  - destruct (C103_session_depends_on_own_lines_only _ _ _ _ _ _ _ _ _ ST ST' SC SP SU SR _ _ _ _ _ BK R) as (p' & R' & _). eauto.
  - assert (SC' : same_control ls' ls) by (intros x; symmetry; apply SC).
    assert (SP' : same_policy ls' ls) by (intros x; symmetry; apply SP).
    assert (SU' : same_user ls' ls user) by (intros x; symmetry; apply SU).
    assert (SR' : same_resource ls' ls id) by (intros x; symmetry; apply SR).
    destruct (C103_session_depends_on_own_lines_only _ _ _ _ _ _ _ _ _ ST' ST SC' SP' SU' SR' _ _ _ _ _ BK R) as (p' & R' & _). eauto.
Qed.
Print Assumptions C103_other_resources_do_not_matter.

(** *** The hypotheses can be met *)

(** The complete session of user a for resource 1, with the sample file and with the one in
    which user b has another key. *)
Definition own_key_a : list N := Eval vm_compute in concat (repeat [1; 35; 69; 103] 8).
Definition own_knock : list N := Eval vm_compute in
  get [] (msg_serialize (get no_msg (generate_auth_no_challenge hmac_sha3_256
            (get no_msg (msg_new Knock 10 1 (Some ex_salt))) own_key_a))).
Definition own_message : message := Eval vm_compute in get no_msg (try_msg_deserialize own_knock).
Definition own_response : list N := Eval vm_compute in
  get [] (msg_serialize (get no_msg (generate_auth hmac_sha3_256
            (get no_msg (msg_new Response 10 1 (Some ex_salt))) own_key_a (ex_challenge 10 1)))).
Definition own_session : list answer :=
  [ARecv 1 (RxBuf own_knock); ARand (Some ex_salt); ARand (Some ex_nonce); ASend 2 TxOk;
   ARecv 3 (RxBuf own_response); AFwConnect true; AFwSend true; AFwRecv (FwRxBuf ex_ack);
   ARand (Some ex_salt); ASend 4 TxOk].

Example C103_witness :
  started_from no_fraction VarServer (Some sample_file) (lines sample_file) sample_conf
  /\ started_from no_fraction VarServer (Some sample_changed) (lines sample_changed) (conf_of VarServer sample_changed)
  /\ key_line_changed 11 changed_key (lines sample_file) (lines sample_changed)
  /\ (exists tr, srun 10 (server_run hmac_sha3_256 sample_conf ex_peer) tr (SRet (Ok tt)) /\ begins_with_knock 10 1 tr
        /\ fw_requests tr = [fw_new_open ex_peer PtTcp 22])
  /\ resource_line_deleted 1 (lines sample_file) (lines sample_less)
  /\ started_from no_fraction VarServer (Some sample_less) (lines sample_less) (conf_of VarServer sample_less).
Proof.
  destruct C101_witness as (A & B & C & _). destruct C102_witness as (_ & _ & _ & _ & _ & _ & D & E).
  split; [exact A|]. split; [exact C|]. split; [exact B|]. split; [|split; [exact D|exact E]].
  eexists. split; [apply (drive_sound _ own_session); vm_compute; reflexivity|]. split; [|reflexivity].
  eexists 1, own_knock, _, _, _. split; [reflexivity|].
  assert (all_bytes own_knock) as AB by (apply bytes_ok_spec; vm_compute; reflexivity).
  refine (decode_layout own_knock own_message AB _). vm_compute. reflexivity.
Qed.
