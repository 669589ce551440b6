(** The layout of the configuration file: C100. *)

From Coq Require Import String Ascii NArith List Lia Permutation Relations.
From Verif Require Import M_Base M_Proto M_ConfTypes M_Text M_Conf M_Str M_Utf8 M_Server M_Client M_Firewall
  S_Session S_Client S_Text S_Conf
  P_Base P_Str P_Utf8 P_Ini P_Files P_Secret P_Layout P_Alike Prop_Conf Prop_Setup S_Files S_Firewall S_Layout.
From Verif Require Prop_Many Prop_E2e M_Sha3 M_IpAddr.
Import ListNotations.
Local Open Scope N_scope.

(** *** C100 *)

Lemma started_alike : forall fraction variant file ls c file' ls' c', relaid ls ls' ->
  started_from fraction variant file ls c -> started_from fraction variant file' ls' c' -> same_config c c'.
Proof.
  intros fraction variant file ls c file' ls' c' RL (order & path & P & FL & _ & L) (order' & path' & P' & FL' & _ & L').
  apply (loads_alike _ _ _ _ _ _ _ _ _ _ _ _ _ _ P P' RL FL FL' L L' eq_refl).
Qed.

(** Files that differ only in comments, blank lines, white space around names and
    values, the order of options with different names and the order of sections are
    accepted or rejected alike, and the programs read the same configuration from
    them. *)
Theorem C100_layout_does_not_matter :
  forall fraction order order' variant path path' file file' ls ls' c c' r r',
  (forall m, Permutation m (order m)) -> (forall m, Permutation m (order' m)) ->
  relaid ls ls' -> file_lines file ls -> file_lines file' ls' ->
  conf_load fraction order (conf_new variant) path file = (c, r) ->
  conf_load fraction order' (conf_new variant) path' file' = (c', r') ->
  (r = Ok tt <-> r' = Ok tt) /\ (r = Ok tt -> same_config c c').
Proof.
  intros fraction order order' variant path path' file file' ls ls' c c' r r' P P' R FL FL' L L'. split; [split|].
  - intros E. apply (loads_alike _ _ _ _ _ _ _ _ _ _ _ _ _ _ P P' R FL FL' L L' E).
  - intros E. apply (loads_alike _ _ _ _ _ _ _ _ _ _ _ _ _ _ P' P (relaid_sym _ _ R) FL' FL L' L E).
  - intros E. apply (loads_alike _ _ _ _ _ _ _ _ _ _ _ _ _ _ P P' R FL FL' L L' E).
Qed.
Print Assumptions C100_layout_does_not_matter.

(** Who can knock for which port does not change either. *)
Theorem C100_knocks_stay_legitimate :
  forall fraction cfile cls cc sfile sls sc cls' sls' user port rs,
  started_from fraction VarClient cfile cls cc -> started_from fraction VarServer sfile sls sc ->
  relaid cls cls' -> relaid sls sls' ->
  files_agree cls' sls' user port rs <-> files_agree cls sls user port rs.
Proof.
  intros fraction cfile cls cc sfile sls sc cls' sls' user port rs (_ & _ & _ & _ & WC & _) (_ & _ & _ & _ & WS & _) RC RS.
  split; intros A.
  - eapply agree_relaid; [apply relaid_sym; exact RC|apply relaid_sym; exact RS| | |exact A]; eapply relaid_wf; eauto.
  - eapply agree_relaid; eauto.
Qed.
Print Assumptions C100_knocks_stay_legitimate.

(** letmeind with the one file can do what it can do with the other: the same sessions,
    with the same results; ... *)
Theorem C100_sessions_alike :
  forall fraction file ls c file' ls' c', relaid ls ls' ->
  started_from fraction VarServer file ls c -> started_from fraction VarServer file' ls' c' ->
  forall mac peer T tr p, srun T (server_run mac c peer) tr p ->
  exists p', srun T (server_run mac c' peer) tr p' /\ forall r, p = SRet r <-> p' = SRet r.
Proof.
  intros fraction file ls c file' ls' c' RL ST ST' mac peer T tr p R.
  pose proof (started_alike _ _ _ _ _ _ _ _ RL ST ST') as SC.
  destruct (ssim_run _ _ _ _ _ R _ (alike_server mac c c' SC peer)) as (p' & R' & SM).
  exists p'. split; [exact R'|]. intros r. destruct SM as [x y ->| | | | | |];
    split; intros Q; first [discriminate Q|exact Q].
Qed.
Print Assumptions C100_sessions_alike.

(** ... letmeinfwd has the same histories; ... *)
Theorem C100_firewall_histories_alike :
  forall fraction file ls c file' ls' c', relaid ls ls' ->
  started_from fraction VarServer file ls c -> started_from fraction VarServer file' ls' c' ->
  forall n d h, history c n d h <-> history c' n d h.
Proof.
  intros fraction file ls c file' ls' c' RL ST ST' n d h. pose proof (started_alike _ _ _ _ _ _ _ _ RL ST ST') as SC.
  split; intros H; [exact (alike_history _ _ _ _ _ _ _ ST ST' SC n d h H)|].
  exact (alike_history _ _ _ _ _ _ _ ST' ST (same_config_sym _ _ SC) n d h H).
Qed.
Print Assumptions C100_firewall_histories_alike.

(** ... and so has the knock command. *)
Theorem C100_knocks_alike :
  forall fraction file ls c file' ls' c', relaid ls ls' ->
  started_from fraction VarClient file ls c -> started_from fraction VarClient file' ls' c' ->
  forall mac parse_ip host server port user srv crypt T tr p,
  crun T (run_knock mac parse_ip c host server port user srv crypt) tr p
  <-> crun T (run_knock mac parse_ip c' host server port user srv crypt) tr p.
Proof.
  intros fraction file ls c file' ls' c' RL ST ST' mac parse_ip host server port user srv crypt T tr p.
  pose proof (started_alike _ _ _ _ _ _ _ _ RL ST ST') as SC.
  rewrite (alike_client _ _ _ _ _ _ _ ST ST' SC). reflexivity.
Qed.
Print Assumptions C100_knocks_alike.

Local Open Scope string_scope.
Definition CRLF : string := String "013"%char NL.
Definition tidy_file : text := lit
  ("[KEYS]" ++ NL ++ "00000001 = " ++ hex64 "01234567" ++ NL ++ "2 = " ++ hex64 "89ABCDEF" ++ NL
   ++ "[RESOURCES]" ++ NL ++ "5 = port: 22 / users: 1,2" ++ NL).
Definition untidy_file : text := lit
  ("# ports" ++ CRLF ++ "  [RESOURCES]" ++ CRLF ++ " 5=port: 22 / users: 1,2   " ++ CRLF ++ CRLF
   ++ "[KEYS] " ++ CRLF ++ "2 = " ++ hex64 "89ABCDEF" ++ CRLF ++ "00000001 = " ++ hex64 "01234567").
Local Close Scope string_scope.

Definition wK : text := lit "[KEYS]".
Definition wK' : text := lit "[KEYS] ".
Definition wR : text := lit "[RESOURCES]".
Definition wR' : text := lit "  [RESOURCES]".
Definition wc : text := lit "# ports".
Definition wk1 : text := lit ("00000001 = " ++ hex64 "01234567")%string.
Definition wk2 : text := lit ("2 = " ++ hex64 "89ABCDEF")%string.
Definition wr5 : text := lit "5 = port: 22 / users: 1,2".
Definition wr5' : text := lit " 5=port: 22 / users: 1,2   ".
Lemma w_tidy : lines tidy_file = [wK; wk1; wk2; wR; wr5].
Proof. vm_compute. reflexivity. Qed.
Lemma w_untidy : lines untidy_file = [wc; wR'; wr5'; []; wK'; wk2; wk1].
Proof. vm_compute. reflexivity. Qed.
Lemma w_K : header_line wK (lit "KEYS"). Proof. apply class_head. vm_compute. reflexivity. Qed.
Lemma w_K' : header_line wK' (lit "KEYS"). Proof. apply class_head. vm_compute. reflexivity. Qed.
Lemma w_R : header_line wR (lit "RESOURCES"). Proof. apply class_head. vm_compute. reflexivity. Qed.
Lemma w_R' : header_line wR' (lit "RESOURCES"). Proof. apply class_head. vm_compute. reflexivity. Qed.
Lemma w_k1 : option_line wk1 (lit "00000001") (lit (" " ++ hex64 "01234567")%string).
Proof. apply class_opt. vm_compute. reflexivity. Qed.
Lemma w_k2 : option_line wk2 (lit "2") (lit (" " ++ hex64 "89ABCDEF")%string).
Proof. apply class_opt. vm_compute. reflexivity. Qed.
Lemma w_r5 : option_line wr5 (lit "5") (lit " port: 22 / users: 1,2").
Proof. apply class_opt. vm_compute. reflexivity. Qed.
Lemma w_r5' : option_line wr5' (lit "5") (lit "port: 22 / users: 1,2   ").
Proof. apply class_opt. vm_compute. reflexivity. Qed.
Lemma w_value : respaced (lit " port: 22 / users: 1,2") (lit "port: 22 / users: 1,2   ").
Proof. apply respaced_iff. vm_compute. reflexivity. Qed.
Lemma w_comment : ignored_line wc. Proof. apply class_ign. vm_compute. reflexivity. Qed.
Lemma w_blank : ignored_line []. Proof. apply class_ign. vm_compute. reflexivity. Qed.
Lemma w_names : lit "00000001" <> lit "2". Proof. vm_compute. discriminate. Qed.
Lemma no_header : forall l n v, option_line l n v -> forall m, ~ header_line l m.
Proof. intros l n v O m H. apply class_opt in O. apply class_head in H. congruence. Qed.
Lemma w_relaid : relaid [wK; wk1; wk2; wR; wr5] [wc; wR'; wr5'; []; wK'; wk2; wk1].
Proof.
  apply rst_trans with [wK; wk2; wk1; wR; wr5].
  { apply rst_step. exact (le_options [wK] wk1 wk2 [wR; wr5] _ _ _ _ w_k1 w_k2 w_names). }
  apply rst_trans with [wR; wr5; wK; wk2; wk1].
  { apply rst_step. apply (le_sections [] [wK; wk2; wk1] [wR; wr5] []).
    - exists wK, (lit "KEYS"), [wk2; wk1]. split; [reflexivity|]. split; [exact w_K|].
      intros m k [<-|[<-|[]]]; [exact (no_header _ _ _ w_k2 k)|exact (no_header _ _ _ w_k1 k)].
    - exists wR, (lit "RESOURCES"), [wr5]. split; [reflexivity|]. split; [exact w_R|].
      intros m k [<-|[]]. exact (no_header _ _ _ w_r5 k).
    - left. reflexivity. }
  apply rst_trans with [wR'; wr5; wK; wk2; wk1].
  { apply rst_step. exact (le_header [] wR wR' [wr5; wK; wk2; wk1] _ w_R w_R'). }
  apply rst_trans with [wR'; wr5'; wK; wk2; wk1].
  { apply rst_step. exact (le_option [wR'] wr5 wr5' [wK; wk2; wk1] _ _ _ w_r5 w_r5' w_value). }
  apply rst_trans with [wR'; wr5'; wK'; wk2; wk1].
  { apply rst_step. exact (le_header [wR'; wr5'] wK wK' [wk2; wk1] _ w_K w_K'). }
  apply rst_trans with [wR'; wr5'; []; wK'; wk2; wk1].
  { apply rst_step. exact (le_ignored [wR'; wr5'] [] [wK'; wk2; wk1] w_blank). }
  apply rst_step. exact (le_ignored [] wc [wR'; wr5'; []; wK'; wk2; wk1] w_comment).
Qed.

Example C100_witness : relaid (lines tidy_file) (lines untidy_file)
  /\ file_lines (Some tidy_file) (lines tidy_file) /\ file_lines (Some untidy_file) (lines untidy_file)
  /\ started_from no_fraction VarServer (Some tidy_file) (lines tidy_file) (conf_of VarServer tidy_file)
  /\ started_from no_fraction VarServer (Some untidy_file) (lines untidy_file) (conf_of VarServer untidy_file)
  /\ started_from no_fraction VarClient (Some tidy_file) (lines tidy_file) (conf_of VarClient tidy_file)
  /\ started_from no_fraction VarClient (Some untidy_file) (lines untidy_file) (conf_of VarClient untidy_file)
  /\ c_resources (conf_of VarServer untidy_file) <> []
  /\ c_keys (conf_of VarServer untidy_file) <> c_keys (conf_of VarServer tidy_file).
Proof.
  split; [rewrite w_tidy, w_untidy; exact w_relaid|].
  split; [exists tidy_file, tidy_file; split; [reflexivity|]; split; [apply from_utf8_spec; vm_compute; reflexivity|apply lines_spec]|].
  split; [exists untidy_file, untidy_file; split; [reflexivity|]; split; [apply from_utf8_spec; vm_compute; reflexivity|apply lines_spec]|].
  do 4 (split; [apply started_text; vm_compute; reflexivity|]). split; vm_compute; discriminate.
Qed.

(** The sample file with a comment at the top. *)
Definition sample_noted : text := Eval vm_compute in (lit "# ports" ++ lit NL ++ sample_file)%list.
Example C100_daemons_witness : relaid (lines sample_file) (lines sample_noted)
  /\ started_from no_fraction VarServer (Some sample_file) (lines sample_file) sample_conf
  /\ started_from no_fraction VarServer (Some sample_noted) (lines sample_noted) (conf_of VarServer sample_noted)
  /\ history sample_conf Prop_Many.sample_chain Prop_E2e.sample_daemon []
  /\ exists p, srun 10 (server_run M_Sha3.hmac_sha3_256 sample_conf (M_IpAddr.V4 [10; 0; 0; 9])) [EvRecv 1 RxNone] p.
Proof.
  split.
  { replace (lines sample_noted) with (wc :: lines sample_file) by (vm_compute; reflexivity).
    apply rst_step. exact (le_ignored [] wc (lines sample_file) w_comment). }
  split; [exact Prop_E2e.C54_server_started|]. split; [apply started_text; vm_compute; reflexivity|].
  split; [exact Prop_Many.sample_history|].
  eexists. apply (sr_snoc 10 _ [] (server_run M_Sha3.hmac_sha3_256 sample_conf (M_IpAddr.V4 [10; 0; 0; 9]))); [constructor|].
  unfold server_run, recv_msg. constructor; [discriminate|exact Logic.I].
Qed.
