(** Proofs about setting up a user (C97). *)

From Coq Require Import String ZArith NArith List Bool Lia Permutation.
From Verif Require Import M_Base M_ConfTypes M_Text M_Conf M_Str S_Wire S_Text S_Conf
  P_Base P_Text P_Str P_Ini P_Gen P_Conf P_Load P_ConfLoad P_Files S_Files S_Setup.
Import ListNotations.
Local Open Scope N_scope.

Section Setup.
Variable fraction : text -> option N.
Variables (user default : N) (given : option N) (key : list N).
Hypothesis GU : user = match given with Some u => u | None => default end.
Hypothesis UB : user < 4294967296.
Hypothesis GK : generated key.
Let line := genkey_line default given key.
Let value := 32 :: concat (map fmt_byte key).

Lemma line_option : option_line line (fmt_id user) value.
Proof. destruct GK as (A & B & _). apply genkey_option; auto. Qed.
Lemma value_key : key_text value key.
Proof. destruct GK as (A & B & C & D). apply genkey_value; auto. Qed.

Lemma unknown_none : forall ls c variant file, started_from fraction variant file ls c -> unknown_user ls user ->
  conf_key c user = None.
Proof.
  intros ls c variant file ST U. destruct (started_configures _ _ _ _ _ ST) as [CF _].
  destruct (cf_keys _ _ _ CF) as (_ & _ & T). destruct (conf_key c user) as [k|] eqn:E; [|reflexivity].
  exfalso. apply T in E. exact (U k E).
Qed.

Lemma options_after : forall variant file ls c ls', started_from fraction variant file ls c -> unknown_user ls user ->
  pasted_into_keys line ls ls' ->
  forall s o v, has_option ls' s o v <-> (s = lit "KEYS" /\ o = fmt_id user /\ v = value) \/ has_option ls s o v.
Proof.
  intros variant file ls c ls' ST U (pre & post & -> & -> & IS) s o v.
  pose proof ST as (order & path & PO & FL & W & L).
  apply has_insert; [exact line_option|exact IS|exact W|].
  intros x H. destruct (started_configures _ _ _ _ _ ST) as [CF _].
  destruct (cf_keys _ _ _ CF) as (T1 & _ & _). destruct (T1 _ _ H) as (id & k & I & K).
  pose proof (id_text_fun _ _ _ I (fmt_id_text user UB)). subst id. apply (U k). exists (fmt_id user), x. auto.
Qed.

Lemma entry_kept : forall variant file ls c ls' (A : Type) s (means : text -> A -> Prop) id x,
  started_from fraction variant file ls c -> unknown_user ls user -> pasted_into_keys line ls ls' ->
  entry ls s means id x -> entry ls' s means id x.
Proof.
  intros variant file ls c ls' A s means id x ST U P (o & v & H & R). exists o, v. split; [|exact R].
  apply (options_after _ _ _ _ _ ST U P). auto.
Qed.

Lemma entry_new : forall variant file ls c ls', started_from fraction variant file ls c -> unknown_user ls user ->
  pasted_into_keys line ls ls' -> entry ls' "KEYS" key_text user key.
Proof.
  intros variant file ls c ls' ST U P. exists (fmt_id user), value. split; [|split; [apply fmt_id_text; exact UB|exact value_key]].
  apply (options_after _ _ _ _ _ ST U P). auto.
Qed.

Lemma control_kept : forall variant file ls c ls' cp, started_from fraction variant file ls c -> unknown_user ls user ->
  pasted_into_keys line ls ls' -> control_port_is ls' cp -> control_port_is ls cp.
Proof.
  intros variant file ls c ls' cp ST U P CP. pose proof (options_after _ _ _ _ _ ST U P) as HO.
  destruct CP as [(v & H & M)|(N & E)].
  - left. exists v. split; [|exact M]. apply HO in H. destruct H as [(X & _)|H]; [discriminate X|exact H].
  - right. split; [|exact E]. intros v H. apply (N v). apply HO. auto.
Qed.

Lemma loads_after : forall variant file ls c ls' file', started_from fraction variant file ls c -> unknown_user ls user ->
  pasted_into_keys line ls ls' -> file_lines file' ls' ->
  forall order path, (forall m, Permutation m (order m)) ->
  exists c', conf_load fraction order (conf_new variant) path file' = (c', Ok tt)
    /\ started_from fraction variant file' ls' c' /\ same_config c' (with_key c user key).
Proof.
  intros variant file ls c ls' file' ST U P FL' order path PO.
  destruct (started_configures _ _ _ _ _ ST) as [CF V]. pose proof (unknown_none _ _ _ _ ST U) as NK.
  destruct P as (pre & post & -> & -> & IS). destruct ST as (order0 & path0 & PO0 & FL & W & L).
  assert (W' : well_formed (pre ++ line :: post)) by (eapply wf_insert; [exact line_option|exact IS|exact W]).
  assert (CF' : configures (duration_text fraction) (pre ++ line :: post) (with_key c user key)).
  { eapply configures_with_key; eauto; [exact line_option|exact value_key]. }
  destruct (load_possible fraction order PO (conf_new variant) path file' _ _ FL' W' CF') as (c' & H); [exact V|].
  exists c'. split; [exact H|].
  assert (started_from fraction variant file' (pre ++ line :: post) c') as ST' by (exists order, path; auto).
  split; [exact ST'|]. destruct (started_configures _ _ _ _ _ ST') as [CF2 V2].
  eapply configures_fun; eauto. cbn. congruence.
Qed.

Lemma agree_new : forall cfile cls cc cls' sfile sls sc sls' port rs,
  started_from fraction VarClient cfile cls cc -> started_from fraction VarServer sfile sls sc ->
  unknown_user cls user -> unknown_user sls user ->
  pasted_into_keys line cls cls' -> pasted_into_keys line sls sls' ->
  common_resource cls sls user port rs -> files_agree cls' sls' user port rs.
Proof.
  intros cfile cls cc cls' sfile sls sc sls' port rs CL SL UC US PC PS ((id & crs & E1 & E2 & E3 & E4 & E5 & E6) & NC).
  constructor.
  - exists key. split; [apply (entry_new _ _ _ _ _ CL UC PC)|apply (entry_new _ _ _ _ _ SL US PS)].
  - exists id, crs. split; [apply (entry_kept _ _ _ _ _ _ _ _ _ _ CL UC PC E1)|]. split; [exact E2|]. split; [exact E3|].
    split; [apply (entry_kept _ _ _ _ _ _ _ _ _ _ SL US PS E4)|]. auto.
  - intros cp CP. apply NC. apply (control_kept _ _ _ _ _ _ SL US PS CP).
Qed.

Lemma agree_old : forall cfile cls cc cls' sfile sls sc sls' user' port rs,
  started_from fraction VarClient cfile cls cc -> started_from fraction VarServer sfile sls sc ->
  unknown_user cls user -> unknown_user sls user ->
  pasted_into_keys line cls cls' -> pasted_into_keys line sls sls' ->
  files_agree cls sls user' port rs -> files_agree cls' sls' user' port rs.
Proof.
  intros cfile cls cc cls' sfile sls sc sls' user' port rs CL SL UC US PC PS
    [(k & K1 & K2) (id & crs & E1 & E2 & E3 & E4 & E5 & E6) NC].
  constructor.
  - exists k. split; [apply (entry_kept _ _ _ _ _ _ _ _ _ _ CL UC PC K1)|apply (entry_kept _ _ _ _ _ _ _ _ _ _ SL US PS K2)].
  - exists id, crs. split; [apply (entry_kept _ _ _ _ _ _ _ _ _ _ CL UC PC E1)|]. split; [exact E2|]. split; [exact E3|].
    split; [apply (entry_kept _ _ _ _ _ _ _ _ _ _ SL US PS E4)|]. auto.
  - intros cp CP. apply NC. apply (control_kept _ _ _ _ _ _ SL US PS CP).
Qed.

End Setup.
