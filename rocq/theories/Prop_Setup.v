(** Setting up a user with gen-key: C97. *)

From Coq Require Import String NArith List Lia Permutation.
From Verif Require Import M_Base M_Proto M_IpAddr M_FwProto M_ConfTypes M_Text M_Conf M_Str M_Utf8 M_Server M_Client M_Firewall
  M_Sha3 S_Wire S_Session S_Client S_Pair S_Text S_Conf S_System S_Whole S_E2e
  P_Base P_Sha3 P_Str P_Utf8 P_Ini P_Load P_Session P_FwdProps P_E2e P_Files P_Whole P_Setup Prop_Conf Prop_Pair Prop_Whole Prop_E2e
  S_Files S_Firewall S_Setup.
Import ListNotations.
Local Open Scope N_scope.

(** *** C97 *)

(** Client and server work with the files with the lines [cls] and [sls]; neither has a key
    for [user].  [line] is what gen-key printed on the client.  It is added to the
    sections KEYS of both files.  Then every program still loads its file, whatever the
    hash order, and nothing has changed for it but the new key; ... *)
Theorem C97_files_still_load :
  forall fraction cfile cls cc cfile' cls' sfile sls sc sfile' sls' given user key line,
  started_from fraction VarClient cfile cls cc -> started_from fraction VarServer sfile sls sc ->
  unknown_user cls user -> unknown_user sls user -> generated key ->
  user = match given with Some u => u | None => c_default_user cc end -> user < 4294967296 ->
  line = genkey_line (c_default_user cc) given key ->
  pasted_into_keys line cls cls' -> pasted_into_keys line sls sls' ->
  file_lines cfile' cls' -> file_lines sfile' sls' ->
  forall order path, (forall m, Permutation m (order m)) ->
  (exists cc', conf_load fraction order (conf_new VarClient) path cfile' = (cc', Ok tt)
     /\ started_from fraction VarClient cfile' cls' cc' /\ same_config cc' (with_key cc user key))
  /\ (exists sc', conf_load fraction order (conf_new VarServer) path sfile' = (sc', Ok tt)
     /\ started_from fraction VarServer sfile' sls' sc' /\ same_config sc' (with_key sc user key)).
Proof.
  intros fraction cfile cls cc cfile' cls' sfile sls sc sfile' sls' given user key line
    CL SL UC US GK GU UB -> PC PS FC FS order path PO. split.
  - exact (loads_after fraction user (c_default_user cc) given key GU UB GK _ _ _ _ _ _ CL UC PC FC order path PO).
  - exact (loads_after fraction user (c_default_user cc) given key GU UB GK _ _ _ _ _ _ SL US PS FS order path PO).
Qed.
Print Assumptions C97_files_still_load.

(** ... what worked for other users still does; ... *)
Theorem C97_other_users_unaffected :
  forall fraction cfile cls cc cls' sfile sls sc sls' given user key line,
  started_from fraction VarClient cfile cls cc -> started_from fraction VarServer sfile sls sc ->
  unknown_user cls user -> unknown_user sls user -> generated key ->
  user = match given with Some u => u | None => c_default_user cc end -> user < 4294967296 ->
  line = genkey_line (c_default_user cc) given key ->
  pasted_into_keys line cls cls' -> pasted_into_keys line sls sls' ->
  forall user' port rs, files_agree cls sls user' port rs -> files_agree cls' sls' user' port rs.
Proof.
  intros fraction cfile cls cc cls' sfile sls sc sls' given user key line CL SL UC US GK GU UB -> PC PS user' port rs FA.
  exact (agree_old fraction user (c_default_user cc) given key GU UB GK _ _ _ _ _ _ _ _ _ _ _ CL SL UC US PC PS FA).
Qed.
Print Assumptions C97_other_users_unaffected.

(** ... and a knock with the user option given to gen-key (or none, if none was given) for
    any resource that both files have for this user opens the port (in the sense of C54). *)
Theorem C97_new_user_can_knock :
  forall mac parse_ip fraction cfile cls cc cfile' cls' cc' sfile sls sc sfile' sls' sc' fc' given user key line
         c host (ipv4 : bool) srv crypt port rs peer kport tcp udp d0 h0 n s,
  (forall x y, length (mac x y) = 32%nat /\ all_bytes (mac x y)) ->
  started_from fraction VarClient cfile cls cc -> started_from fraction VarServer sfile sls sc ->
  unknown_user cls user -> unknown_user sls user -> generated key ->
  user = match given with Some u => u | None => c_default_user cc end -> user < 4294967296 ->
  line = genkey_line (c_default_user cc) given key ->
  pasted_into_keys line cls cls' -> pasted_into_keys line sls sls' ->
  common_resource cls sls user port rs ->
  started_from fraction VarClient cfile' cls' cc' ->
  started_from fraction VarServer sfile' sls' sc' -> started_from fraction VarServer sfile' sls' fc' ->
  resolvable parse_ip host (if ipv4 then RmIpv4 else RmIpv6) srv crypt ->
  plausible_address peer -> ip_address peer -> family_fits c peer ->
  history fc' c d0 h0 -> d_phase d0 = PhRun -> has_chain (d_kernel d0) c = true ->
  full_steps fc' c n
    (Full (Pair (run_knock mac parse_ip cc' host
                   (KnockServer (addr_mode_of ipv4 (negb ipv4)) kport tcp udp) port given srv crypt)
                (server_run mac sc' peer) [] [] []) d0 h0 [] []) s ->
  clock_monotone (fu_hist s) ->
  (n <= 19)%nat
  /\ (finished fc' c h0 peer rs s \/ exists s', full_step fc' c 1 s s' /\ clock_monotone (fu_hist s'))
  /\ exists m s', full_steps fc' c m s s' /\ clock_monotone (fu_hist s') /\ finished fc' c h0 peer rs s'.
Proof.
  intros mac parse_ip fraction cfile cls cc cfile' cls' cc' sfile sls sc sfile' sls' sc' fc' given user key line
    c host ipv4 srv crypt port rs peer kport tcp udp d0 h0 n s MS CL SL UC US GK GU UB -> PC PS CR CL' SL' FL' HOST PL IA FF H PH HC R MONO.
  pose proof (agree_new fraction user (c_default_user cc) given key GU UB GK _ _ _ _ _ _ _ _ _ _ CL SL UC US PC PS CR) as FA.
  assert (user_of_command cls' given user) as UO.
  { destruct given as [u|]; [left; congruence|right]. split; [reflexivity|].
    pose proof CL' as (order & path & PO & FC & _).
    destruct (loads_after fraction user (c_default_user cc) None key GU UB GK _ _ _ _ _ _ CL UC PC FC order path PO) as (c2 & _ & ST & SC).
    destruct (started_configures _ _ _ _ _ ST) as [CF V]. pose proof (cf_client _ _ _ CF V) as D.
    destruct SC as (_ & _ & _ & _ & _ & _ & _ & _ & E & _). cbn [with_key c_default_user] in E. congruence. }
  exact (C54_knock_opens_the_port_from_files mac parse_ip fraction cfile' cls' cc' sfile' sls' sc' fc' c host ipv4 srv crypt
    given user port rs peer kport tcp udp d0 h0 n s MS CL' SL' FL' FA UO HOST PL IA FF H PH HC R MONO).
Qed.
Print Assumptions C97_new_user_can_knock.

(** *** The hypotheses can be met *)

Local Open Scope string_scope.
Definition setup_client : text := lit
  ("[KEYS]" ++ NL ++ "[RESOURCES]" ++ NL ++ "1 = port: 22" ++ NL).
Local Open Scope N_scope.
Definition setup_key : list N := concat (repeat [1; 35; 69; 250] 8).
Definition setup_line : text := Eval vm_compute in genkey_line 0 (Some 12) setup_key.

Definition conf_of (variant : conf_variant) (t : text) : config :=
  fst (conf_load no_fraction id_order (conf_new variant) (lit "f") (Some t)).

(** A text that can be loaded is a file that a program can be started from. *)
Lemma started_text : forall variant t, from_utf8 t = Some t ->
  match ini_from_file (Some t) with Ok _ => true | _ => false end = true ->
  match snd (conf_load no_fraction id_order (conf_new variant) (lit "f") (Some t)) with Ok _ => true | _ => false end = true ->
  started_from no_fraction variant (Some t) (lines t) (conf_of variant t).
Proof.
  intros variant t U IF L. exists id_order, (lit "f"). split; [exact id_order_ok|].
  split; [exists t, t; split; [reflexivity|]; split; [apply from_utf8_spec; exact U|apply lines_spec]|].
  split.
  - destruct (C40_ini_parser _ _ (lines_spec t)) as (A & _). apply A.
    unfold ini_from_file in IF. rewrite U in IF. destruct (parse_str t) as [i| |]; [eauto|discriminate IF|discriminate IF].
  - unfold conf_of. destruct (conf_load no_fraction id_order (conf_new variant) (lit "f") (Some t)) as [c [[]| |]];
      [reflexivity|discriminate L|discriminate L].
Qed.

Definition client_after : text := Eval vm_compute in
  (lit ("[KEYS]" ++ NL)%string ++ setup_line ++ lit (NL ++ "[RESOURCES]" ++ NL ++ "1 = port: 22" ++ NL)%string)%list.
(** The line is added at the end of the section. *)
Definition server_after : text := Eval vm_compute in
  (concat (map (fun l => l ++ lit NL) (firstn 9 (lines sample_file) ++ setup_line :: skipn 9 (lines sample_file))))%list.

Example C97_witness :
  started_from no_fraction VarClient (Some setup_client) (lines setup_client) (conf_of VarClient setup_client)
  /\ started_from no_fraction VarServer (Some sample_file) (lines sample_file) sample_conf
  /\ unknown_user (lines setup_client) 12 /\ unknown_user (lines sample_file) 12 /\ generated setup_key
  /\ setup_line = genkey_line (c_default_user (conf_of VarClient setup_client)) (Some 12) setup_key
  /\ pasted_into_keys setup_line (lines setup_client) (lines client_after)
  /\ pasted_into_keys setup_line (lines sample_file) (lines server_after)
  /\ common_resource (lines setup_client) (lines sample_file) 12 22 (ResPort 22 true false [])
  /\ started_from no_fraction VarClient (Some client_after) (lines client_after) (conf_of VarClient client_after)
  /\ started_from no_fraction VarServer (Some server_after) (lines server_after) (conf_of VarServer server_after)
  /\ conf_key (conf_of VarServer server_after) 12 = Some setup_key.
Proof.
  assert (started_from no_fraction VarClient (Some setup_client) (lines setup_client) (conf_of VarClient setup_client)) as SC.
  { apply started_text; vm_compute; reflexivity. }
  pose proof C54_server_started as SS.
  assert (forall variant file ls conf, started_from no_fraction variant file ls conf -> conf_key conf 12 = None -> unknown_user ls 12) as UN.
  { intros variant file ls conf ST N k E. destruct (started_configures _ _ _ _ _ ST) as [CF _].
    apply (proj2 (proj2 (cf_keys _ _ _ CF)) 12 k : _ <-> entry ls "KEYS" key_text 12 k) in E. congruence. }
  split; [exact SC|]. split; [exact SS|].
  split; [apply (UN _ _ _ _ SC); vm_compute; reflexivity|]. split; [apply (UN _ _ _ _ SS); vm_compute; reflexivity|].
  split.
  { split; [apply bytes_ok_spec; vm_compute; reflexivity|]. split; [reflexivity|]. split; vm_compute; discriminate. }
  split; [vm_compute; reflexivity|].
  assert (HK : header_line (lit "[KEYS]") (lit "KEYS")).
  { apply class_head. vm_compute. reflexivity. }
  split.
  { exists [lit "[KEYS]"], (skipn 1 (lines setup_client)). split; [vm_compute; reflexivity|]. split; [vm_compute; reflexivity|].
    exists [], (lit "[KEYS]"), []. split; [reflexivity|]. split; [exact HK|]. intros m n [].  }
  split.
  { exists (firstn 9 (lines sample_file)), (skipn 9 (lines sample_file)). split; [vm_compute; reflexivity|]. split; [vm_compute; reflexivity|].
    exists (firstn 6 (lines sample_file)), (lit "[KEYS]"), (skipn 7 (firstn 9 (lines sample_file))).
    split; [vm_compute; reflexivity|]. split; [exact HK|]. intros m n IN HL. apply class_head in HL. vm_compute in IN.
    destruct IN as [<-|[<-|[]]]; vm_compute in HL; discriminate HL. }
  split.
  { split.
    - exists 1, (ResPort 22 true false []). split.
      { apply (proj1 (started_resources _ _ _ _ _ SC 1 (ResPort 22 true false []))). vm_compute. auto. }
      split; [reflexivity|]. split; [left; reflexivity|]. split.
      { apply (proj1 (started_resources _ _ _ _ _ SS 1 (ResPort 22 true false []))). vm_compute. auto. }
      split; [reflexivity|left; reflexivity].
    - intros cp CP E. destruct (started_configures _ _ _ _ _ SS) as [CF _].
      pose proof (cf_port _ _ _ CF) as CP'. destruct sample_lines as [_ W].
      destruct CP as [(t & H & M)|(NO & ->)], CP' as [(t' & H' & M')|(NO' & _)].
      + pose proof (C40_one_value _ _ _ _ _ W H H') as <-.
        apply parse_port_spec in M. apply parse_port_spec in M'. rewrite M in M'. injection M' as ->.
        vm_compute in E. discriminate.
      + exfalso. eapply NO'; eauto.
      + exfalso. eapply NO; eauto.
      + vm_compute in E. discriminate. }
  split; [|split; [|vm_compute; reflexivity]];
    (apply started_text; vm_compute; reflexivity).
Qed.
