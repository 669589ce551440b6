(** Adding a line for a new resource: C104. *)

From Coq Require Import String NArith List Lia Permutation.
From Verif Require Import M_Base M_Proto M_IpAddr M_FwProto M_ConfTypes M_Text M_Conf M_Str M_Utf8 M_Sha3 M_Server M_Client M_Firewall
  S_Wire S_Session S_Client S_Pair S_Text S_Conf S_System S_Whole S_E2e
  P_Base P_Str P_Utf8 P_Ini P_Conf P_Load P_Session P_Files P_Revoked P_Reassign P_Own P_Adding
  Prop_Conf Prop_Session Prop_E2e Prop_Setup Prop_Revoked Prop_Reassign Prop_Own S_Files S_Firewall S_Reassign S_Own S_Adding.
From Verif Require Prop_Many.
Import ListNotations.
Local Open Scope N_scope.

(** *** C104 *)

(** The file with one more line loads exactly if no resource has the port of the new one,
    whatever the hash order; then nothing has changed but that there is one more resource. *)
Theorem C104_file_loads_with_one_more_resource :
  forall fraction variant file ls c file' ls' id rs,
  started_from fraction variant file ls c -> resource_line_added id rs ls ls' -> file_lines file' ls' ->
  forall order path c' r, (forall m, Permutation m (order m)) ->
  conf_load fraction order (conf_new variant) path file' = (c', r) ->
  (r = Ok tt <-> port_is_free c id rs) /\ (r = Ok tt -> same_config c' (with_resource c id rs)).
Proof.
  intros fraction variant file ls c file' ls' id rs ST AD FL' order path c' r PO L.
  pose proof ST as (_ & _ & _ & _ & W & _). pose proof (edited_added _ _ _ _ AD W) as ED.
  assert (FIT : r = Ok tt -> port_is_free c id rs).
  { intros ->. refine (edited_fits fraction variant file ls c file' ls' c' id (Some rs) ST ED _).
    exists order, path. destruct ED as (W' & _). auto. }
  assert (LOAD : port_is_free c id rs -> r = Ok tt /\ same_config c' (with_resource c id rs)).
  { intros FR. destruct (loads_edited fraction variant file ls c file' ls' id (Some rs) ST ED FR FL' order path PO) as (c2 & L2 & _ & S).
    rewrite L in L2. injection L2 as -> ->. auto. }
  split; [split; [exact FIT|intros FR; apply LOAD; exact FR]|intros E; apply LOAD, FIT; exact E].
Qed.
Print Assumptions C104_file_loads_with_one_more_resource.

(** What could be opened before the lines were added to both files still can; ... *)
Theorem C104_old_ports_can_still_be_opened :
  forall fraction cfile cls cc cls' sfile sls sc sls' id crs rs,
  started_from fraction VarClient cfile cls cc -> resource_line_added id crs cls cls' ->
  started_from fraction VarServer sfile sls sc -> resource_line_added id rs sls sls' ->
  forall user port old, files_agree cls sls user port old -> files_agree cls' sls' user port old.
Proof.
  intros fraction cfile cls cc cls' sfile sls sc sls' id crs rs (_ & _ & _ & _ & WC & _) AC (_ & _ & _ & _ & WS & _) AS
    user port old [(k & K1 & K2) (i & r & E1 & E2 & E3 & E4 & E5 & E6) NC].
  destruct (added_others _ _ _ _ AC WC) as (_ & _ & UC & _). destruct (added_others _ _ _ _ AS WS) as (SC & _ & US & _).
  constructor.
  - exists k. split; [apply UC; exact K1|apply US; exact K2].
  - exists i, r. split; [eapply added_stays; eauto|]. split; [exact E2|]. split; [exact E3|].
    split; [eapply added_stays; eauto|auto].
  - intros cp CP. apply NC, SC. exact CP.
Qed.
Print Assumptions C104_old_ports_can_still_be_opened.

(** ... the new port can be opened by the users that the lines let in (C54 says how), unless
    it is the control port. *)
Theorem C104_new_port_can_be_opened :
  forall fraction cfile cls cc cls' sfile sls sc sls' id crs rs user key,
  started_from fraction VarClient cfile cls cc -> resource_line_added id crs cls cls' ->
  started_from fraction VarServer sfile sls sc -> resource_line_added id rs sls sls' ->
  entry cls "KEYS" key_text user key -> entry sls "KEYS" key_text user key ->
  rs_port crs = rs_port rs -> open_to crs user -> open_to rs user ->
  (forall cp, control_port_is sls cp -> cp_port cp <> rs_port rs) ->
  files_agree cls' sls' user (rs_port rs) rs.
Proof.
  intros fraction cfile cls cc cls' sfile sls sc sls' id crs rs user key (_ & _ & _ & _ & WC & _) AC (_ & _ & _ & _ & WS & _) AS
    K1 K2 EP OC OS NC.
  destruct (added_others _ _ _ _ AC WC) as (_ & _ & UC & _). destruct (added_others _ _ _ _ AS WS) as (SC & _ & US & _).
  constructor.
  - exists key. split; [apply UC; exact K1|apply US; exact K2].
  - exists id, crs. split; [eapply added_entry; eauto|]. split; [exact EP|]. split; [exact OC|].
    split; [eapply added_entry; eauto|auto].
  - intros cp CP. apply NC, SC. exact CP.
Qed.
Print Assumptions C104_new_port_can_be_opened.

(** In terms of the whole system: with the new files, a knock for the new port, by a user that
    the lines let in, opens it (in the sense of C54). *)
Theorem C104_knock_opens_the_new_port :
  forall mac parse_ip fraction cfile cls cc cfile' cls' cc' sfile sls sc sfile' sls' sc' fc' id crs rs given user key
         c host (ipv4 : bool) srv crypt peer kport tcp udp d0 h0 n s,
  (forall x y, length (mac x y) = 32%nat /\ all_bytes (mac x y)) ->
  started_from fraction VarClient cfile cls cc -> resource_line_added id crs cls cls' ->
  started_from fraction VarServer sfile sls sc -> resource_line_added id rs sls sls' ->
  entry cls "KEYS" key_text user key -> entry sls "KEYS" key_text user key ->
  rs_port crs = rs_port rs -> open_to crs user -> open_to rs user ->
  (forall cp, control_port_is sls cp -> cp_port cp <> rs_port rs) -> user_of_command cls' given user ->
  started_from fraction VarClient cfile' cls' cc' ->
  started_from fraction VarServer sfile' sls' sc' -> started_from fraction VarServer sfile' sls' fc' ->
  resolvable parse_ip host (if ipv4 then RmIpv4 else RmIpv6) srv crypt ->
  plausible_address peer -> ip_address peer -> family_fits c peer ->
  history fc' c d0 h0 -> d_phase d0 = PhRun -> has_chain (d_kernel d0) c = true ->
  full_steps fc' c n
    (Full (Pair (run_knock mac parse_ip cc' host
                   (KnockServer (addr_mode_of ipv4 (negb ipv4)) kport tcp udp) (rs_port rs) given srv crypt)
                (server_run mac sc' peer) [] [] []) d0 h0 [] []) s ->
  clock_monotone (fu_hist s) ->
  (n <= 19)%nat
  /\ (finished fc' c h0 peer rs s \/ exists s', full_step fc' c 1 s s' /\ clock_monotone (fu_hist s'))
  /\ exists m s', full_steps fc' c m s s' /\ clock_monotone (fu_hist s') /\ finished fc' c h0 peer rs s'.
Proof.
  intros mac parse_ip fraction cfile cls cc cfile' cls' cc' sfile sls sc sfile' sls' sc' fc' id crs rs given user key
    c host ipv4 srv crypt peer kport tcp udp d0 h0 n s MS CL AC SL AS K1 K2 EP OC OS NC UO CL' SL' FL' HOST PL IA FF H PH HC R MONO.
  pose proof (C104_new_port_can_be_opened _ _ _ _ _ _ _ _ _ _ _ _ _ _ CL AC SL AS K1 K2 EP OC OS NC) as FA.
  exact (C54_knock_opens_the_port_from_files mac parse_ip fraction cfile' cls' cc' sfile' sls' sc' fc' c host ipv4 srv crypt
    given user (rs_port rs) rs peer kport tcp udp d0 h0 n s MS CL' SL' FL' FA UO HOST PL IA FF H PH HC R MONO).
Qed.
Print Assumptions C104_knock_opens_the_new_port.

(** Sessions that began with a knock for the new resource open at most what the line
    says, and only for users it lets in; and ... *)
Theorem C104_opens_what_the_line_says :
  forall fraction sfile sls sc sfile' sls' sc' id rs,
  started_from fraction VarServer sfile sls sc -> resource_line_added id rs sls sls' ->
  started_from fraction VarServer sfile' sls' sc' ->
  forall mac peer T tr p, ip_address peer -> srun T (server_run mac sc' peer) tr p ->
  forall user fm, begins_with_knock user id tr -> In fm (fw_requests tr) ->
  open_to rs user
  /\ exists t, fw_port fm = Some (t, rs_port rs) /\ covers_tcp t = rs_tcp rs /\ covers_udp t = rs_udp rs.
Proof.
  intros fraction sfile sls sc sfile' sls' sc' id rs ST AD ST' mac peer T tr p IP R user fm (d & b & rest & salt & auth & ET & WL) I.
  pose proof ST as (_ & _ & _ & _ & W & _). pose proof (edited_added _ _ _ _ AD W) as ED.
  destruct (C08_opens_what_is_granted mac sc' peer T tr p (started_keys_sized _ _ _ _ _ ST') IP R fm I)
    as (user' & id' & r & t & d' & kb & rest' & salt' & auth' & ET' & WL' & [G1 G2 G3 G4] & _ & _ & P1 & P2 & P3).
  rewrite ET in ET'. injection ET' as <- <- <-.
  assert (user' = user /\ id' = id) as (-> & ->) by (destruct WL, WL'; split; congruence).
  apply (edited_resource _ _ _ _ _ _ _ _ _ ST ED ST') in G1. injection G1 as <-. split; [exact G3|eauto].
Qed.
Print Assumptions C104_opens_what_the_line_says.

(** ... all other sessions are what they were. *)
Theorem C104_other_sessions_unaffected :
  forall fraction file ls c file' ls' c' id rs,
  started_from fraction VarServer file ls c -> resource_line_added id rs ls ls' ->
  started_from fraction VarServer file' ls' c' ->
  forall user other mac peer T tr, other <> id -> begins_with_knock user other tr ->
  ((exists p, srun T (server_run mac c peer) tr p) <-> (exists p, srun T (server_run mac c' peer) tr p)).
Proof.
  intros fraction file ls c file' ls' c' id rs ST AD ST' user other mac peer T tr NE BK.
  pose proof ST as (_ & _ & _ & _ & W & _). destruct (added_others _ _ _ _ AD W) as (SC & SP & SU & SR).
  split; intros (p & R).
  - destruct (C103_session_depends_on_own_lines_only _ _ _ _ _ _ _ _ _ ST ST' SC SP (SU user) (SR _ NE) _ _ _ _ _ BK R) as (p' & R' & _). eauto.
  - assert (SC' : same_control ls' ls) by (intros x; symmetry; apply SC).
    assert (SP' : same_policy ls' ls) by (intros x; symmetry; apply SP).
    assert (SU' : same_user ls' ls user) by (intros x; symmetry; apply SU).
    assert (SR' : same_resource ls' ls other) by (intros x; symmetry; apply SR; exact NE).
    destruct (C103_session_depends_on_own_lines_only _ _ _ _ _ _ _ _ _ ST' ST SC' SP' SU' SR' _ _ _ _ _ BK R) as (p' & R' & _). eauto.
Qed.
Print Assumptions C104_other_sessions_unaffected.

(** *** The hypotheses can be met *)

(** The sample file without the line of resource 1, and with it. *)
Example C104_witness :
  started_from no_fraction VarServer (Some sample_less) (lines sample_less) (conf_of VarServer sample_less)
  /\ resource_line_added 1 (ResPort 22 true false []) (lines sample_less) (lines sample_file)
  /\ started_from no_fraction VarServer (Some sample_file) (lines sample_file) sample_conf
  /\ port_is_free (conf_of VarServer sample_less) 1 (ResPort 22 true false [])
  /\ ~ port_is_free (conf_of VarServer sample_less) 1 (ResPort 53 true false [])
  /\ exists tr, srun 10 (server_run hmac_sha3_256 sample_conf P_Exec.ex_peer) tr (SRet (Ok tt)) /\ begins_with_knock 10 1 tr
       /\ fw_requests tr = [fw_new_open P_Exec.ex_peer PtTcp 22].
Proof.
  destruct C103_witness as (A & _ & _ & R & D & E).
  split; [exact E|]. split; [|split; [exact A|split; [|split; [|exact R]]]].
  - destruct D as (pre & line & post & o & v & E1 & E2 & IS & OL & I & NL).
    exists (firstn 10 (lines sample_file)), (nth 10 (lines sample_file) []), (skipn 11 (lines sample_file)), (lit "1"), (lit " port: 22").
    split; [vm_compute; reflexivity|]. split; [vm_compute; reflexivity|]. split; [exact resources_section|]. split; [exact old_line|].
    split; [apply parse_id_spec; vm_compute; reflexivity|]. split; [apply parse_resource_spec; vm_compute; reflexivity|exact NL].
  - intros i r NE H. change (conf_resource (conf_of VarServer sample_less) i = Some r) in H.
    assert (C : c_resources (conf_of VarServer sample_less) = [(2, ResPort 53 false true [10; 11])]) by (vm_compute; reflexivity).
    unfold conf_resource in H. rewrite C in H. cbn [nlookup] in H. destruct (i =? 2); [injection H as <-; discriminate|discriminate H].
  - intros FR. apply (FR 2 (ResPort 53 false true [10; 11])); [discriminate|vm_compute; reflexivity|reflexivity].
Qed.

(** The client's file without the line of resource 1, and with it; user a has the same key in
    both files, and the daemon of C54 serves. *)
Definition add_client : text := Eval vm_compute in
  lit ("[KEYS]" ++ NL ++ "a = " ++ hex64 "01234567" ++ NL ++ "[RESOURCES]" ++ NL)%string.
Definition add_line : text := Eval vm_compute in lit "1 = port: 22 / tcp".
Definition add_client_after : text := Eval vm_compute in (add_client ++ add_line ++ lit NL)%list.
Definition add_key : list N := Eval vm_compute in concat (repeat [1; 35; 69; 103] 8).

Example C104_knock_witness :
  started_from no_fraction VarClient (Some add_client) (lines add_client) (conf_of VarClient add_client)
  /\ resource_line_added 1 (ResPort 22 true false []) (lines add_client) (lines add_client_after)
  /\ started_from no_fraction VarClient (Some add_client_after) (lines add_client_after) (conf_of VarClient add_client_after)
  /\ entry (lines add_client) "KEYS" key_text 10 add_key /\ entry (lines sample_less) "KEYS" key_text 10 add_key
  /\ open_to (ResPort 22 true false []) 10
  /\ (forall cp, control_port_is (lines sample_less) cp -> cp_port cp <> 22)
  /\ user_of_command (lines add_client_after) (Some 10) 10
  /\ history sample_conf Prop_Many.sample_chain sample_daemon [] /\ d_phase sample_daemon = PhRun
  /\ has_chain (d_kernel sample_daemon) Prop_Many.sample_chain = true.
Proof.
  assert (SC : started_from no_fraction VarClient (Some add_client) (lines add_client) (conf_of VarClient add_client))
    by (apply started_text; vm_compute; reflexivity).
  pose proof (proj1 C104_witness) as SL.
  split; [exact SC|]. split.
  { exists (lines add_client), add_line, [], (lit "1"), (lit " port: 22 / tcp").
    split; [rewrite app_nil_r; reflexivity|]. split; [vm_compute; reflexivity|].
    split; [exists (firstn 2 (lines add_client)), (lit "[RESOURCES]"), []; split; [vm_compute; reflexivity|];
            split; [apply class_head; vm_compute; reflexivity|intros m n []]|].
    split; [apply class_opt; vm_compute; reflexivity|]. split; [apply parse_id_spec; vm_compute; reflexivity|].
    split; [apply parse_resource_spec; vm_compute; reflexivity|].
    intros o v rest J (pre & h & mid & l & E & _ & OL & _).
    assert (In l (lines add_client)) as IN by (rewrite E; apply in_or_app; right; right; apply in_or_app; right; left; reflexivity).
    apply class_opt in OL. apply parse_id_spec in J. clear E. vm_compute in IN.
    destruct IN as [<-|[<-|[<-|[]]]]; vm_compute in OL; try discriminate OL.
    injection OL as <- <-. vm_compute in J. discriminate J. }
  split; [apply started_text; vm_compute; reflexivity|].
  split; [apply (proj1 (started_keys _ _ _ _ _ SC 10 add_key)); vm_compute; auto|]. split; [apply (proj1 (started_keys _ _ _ _ _ SL 10 add_key)); vm_compute; auto|].
  split; [left; reflexivity|]. split.
  { intros cp CP. destruct (started_configures _ _ _ _ _ SL) as [CF _]. destruct SL as (_ & _ & _ & _ & W & _).
    assert (cp = c_port (conf_of VarServer sample_less)) as ->; [|vm_compute; discriminate].
    eapply setting_fun; [..|exact CP|exact (cf_port _ _ _ CF)].
    - intros t x y A B. apply parse_port_spec in A, B. congruence.
    - intros v w. apply has_option_fun. exact W. }
  split; [left; reflexivity|]. split; [exact Prop_Many.sample_history|]. split; vm_compute; reflexivity.
Qed.
