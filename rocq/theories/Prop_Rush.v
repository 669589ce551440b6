(** Property C79: a legitimate knock over TCP succeeds however its bytes are cut
    into pieces, while letmeind serves others. *)

From Coq Require Import String ZArith NArith List Bool Lia.
From Verif Require Import M_Base M_Proto M_IpAddr M_FwProto M_ConfTypes M_Server M_Client M_Firewall M_Udp M_Accept M_Text M_Conf M_Sha3
  S_Wire S_Session S_Client S_Pair S_Text S_Conf S_System S_Whole S_E2e S_Bytes S_Accept S_Rush
  P_Base P_Sha3 P_Load P_Session P_Pair P_FwdProps P_E2e P_Files P_Whole P_Bytes P_Accept P_Busy P_Rush
  Prop_Conf Prop_Pair Prop_Whole Prop_E2e Prop_Bytes Prop_Accept S_Files S_Firewall.
Import ListNotations.
Local Open Scope N_scope.

(** Client, letmeind and letmeinfwd agree about the knock, and letmeind has accepted
    and served other connections without a failure of the accept path ([ha]).
    Then in every state that can be reached, with any sizes of the pieces, any order
    of the steps, any other connections and anything undisturbing that others do to
    the firewall: the knock has taken at most 2166 steps; it is successfully over, or
    one of the three can go on, or the client's connection waits in letmeind and
    letmeind can go on with accepting; and the knock can be brought to its successful
    end. *)
Theorem C79_tcp_bytes_among_others :
  forall mac parse_ip cc sc fc c host (ipv4 : bool) srv crypt user key res_id port rs here kport tcp udp has_udp num ha acc0 d0 h0 n r,
  (forall x y, length (mac x y) = 32%nat /\ all_bytes (mac x y)) ->
  agree cc sc host parse_ip (if ipv4 then RmIpv4 else RmIpv6) srv crypt user key res_id port rs ->
  knocks_by_tcp cc tcp udp ->
  arun true has_udp (acceptor_start num) ha = Some acc0 -> Forall no_failure ha -> 1 <= num ->
  ~ In here (waiting_tcp acc0) ->
  plausible_address (sa_ip here) -> ip_address (sa_ip here) -> permitted_port fc port -> port < 2 ^ 16 ->
  family_fits c (sa_ip here) ->
  history fc c d0 h0 -> d_phase d0 = PhRun -> has_chain (d_kernel d0) c = true ->
  rush_steps mac sc fc c has_udp here n
    (Rush acc0 None (streams_start
       (run_knock mac parse_ip cc host (KnockServer (addr_mode_of ipv4 (negb ipv4)) kport tcp udp) port (Some user) srv crypt)
       no_session d0 h0)) r ->
  clock_monotone (sb_hist (ru_streams r)) ->
  (n <= 2166)%nat
  /\ (rush_finished fc c h0 here rs r
      \/ (exists r', rush_step mac sc fc c has_udp here 1 r r' /\ clock_monotone (sb_hist (ru_streams r')))
      \/ (ru_name r = None /\ In here (waiting_tcp (ru_acc r))
          /\ exists ev acc', own_step ev /\ astep true has_udp (ru_acc r) ev = Some acc'))
  /\ exists m r', rush_steps mac sc fc c has_udp here m r r' /\ clock_monotone (sb_hist (ru_streams r')) /\ rush_finished fc c h0 here rs r'.
Proof.
  intros mac parse_ip cc sc fc c host ipv4 srv crypt user key res_id port rs here kport tcp udp has_udp num ha acc0 d0 h0 n r
    MS AG BT RA NFA NUM FRESH PL IA PP PB FF H PH HC R MONO.
  set (cl := run_knock mac parse_ip cc host (KnockServer (addr_mode_of ipv4 (negb ipv4)) kport tcp udp) port (Some user) srv crypt) in *.
  set (r0 := Rush acc0 None (streams_start cl no_session d0 h0)) in *.
  assert (V0 : inv here num r0).
  { constructor.
    - unfold spot. cbn. apply pl_before; [apply knock_dials; exact BT|exact FRESH].
    - eapply clean_run; [apply clean_start|exact NFA|exact RA].
    - intros _. cbn. auto. }
  assert (HS : forall r, sb_hist (seen mac sc here r) = sb_hist (ru_streams r)).
  { intros [a [m|] s]; reflexivity. }
  assert (G : forall n r, rush_steps mac sc fc c has_udp here n r0 r -> clock_monotone (sb_hist (ru_streams r)) ->
    (n <= 2166)%nat /\ (rush_finished fc c h0 here rs r
      \/ (exists r', rush_step mac sc fc c has_udp here 1 r r' /\ clock_monotone (sb_hist (ru_streams r')))
      \/ (ru_name r = None /\ In here (waiting_tcp (ru_acc r))
          /\ (exists ev acc', own_step ev /\ astep true has_udp (ru_acc r) ev = Some acc')
          /\ exists r' m, rush_steps mac sc fc c has_udp here 0 r r' /\ ru_name r' = Some m
               /\ sb_hist (ru_streams r') = sb_hist (ru_streams r)))).
  { clear n r R MONO. intros n r R MONO.
    destruct (inv_run mac sc fc c has_udp here num NUM _ _ _ R V0) as (B & V).
    change (seen mac sc here r0) with (streams_start cl (server_run mac sc (sa_ip here)) d0 h0) in B.
    destruct (C68_any_segmentation mac parse_ip cc sc fc c host ipv4 srv crypt user key res_id port rs (sa_ip here) kport tcp udp d0 h0 n
                (seen mac sc here r) MS AG PL IA PP PB FF H PH HC B) as (L & Q & _); [rewrite HS; exact MONO|].
    split; [exact L|]. destruct Q as [Q|(s' & ST & MONO')].
    - left. destruct r as [acc [m|] s]; cbn [ru_acc ru_name ru_streams seen] in *.
      + split; [exact Q|]. exists m. split; [reflexivity|]. destruct V as [P _ _]. unfold spot in P. cbn in P. inversion P; subst. assumption.
      + destruct Q as (_ & Q & _). cbn in Q. unfold server_run, recv_msg in Q. discriminate Q.
    - right. destruct (rush_go mac sc fc c has_udp here num _ _ V ST) as [(r' & ST' & E)|(E & W)].
      + left. exists r'. split; [exact ST'|]. rewrite E. exact MONO'.
      + right. split; [exact E|]. split; [exact W|].
        destruct r as [acc name s]. cbn [ru_name ru_acc ru_streams] in *. subst name.
        destruct (rush_gets_session mac sc fc c has_udp here num NUM acc s (in_clean _ _ _ V) W) as (X & acc' & m & BB).
        split; [exact X|]. eexists _, m. split; [exact BB|]. split; reflexivity. }
  destruct (G n r R MONO) as (B & Q). split; [exact B|]. split.
  { destruct Q as [Q|[Q|(Q1 & Q2 & Q3 & _)]]; auto. }
  clear Q.
  assert (E : exists k, (n + k = 2167)%nat) by (exists (2167 - n)%nat; lia). destruct E as (k & E). clear B.
  revert n r R MONO E. induction k as [|k IH]; intros n r R MONO E; [destruct (G n r R MONO); lia|].
  assert (STEP : forall r, rush_steps mac sc fc c has_udp here n r0 r ->
    (exists r', rush_step mac sc fc c has_udp here 1 r r' /\ clock_monotone (sb_hist (ru_streams r'))) ->
    exists m r', rush_steps mac sc fc c has_udp here m r r' /\ clock_monotone (sb_hist (ru_streams r')) /\ rush_finished fc c h0 here rs r').
  { clear r R MONO. intros r R (r1 & ST & MONO').
    destruct (IH (n + 1)%nat r1 (rss_S _ _ _ _ _ _ _ _ _ _ _ R ST) MONO') as (m & r' & R' & F); [lia|].
    exists (1 + m)%nat, r'. split; [|exact F]. eapply rush_more; [|exact R']. change 1%nat with (0 + 1)%nat. econstructor; [constructor|exact ST]. }
  destruct (G n r R MONO) as (B & [Q|[Q|(Q1 & Q2 & _ & r2 & m2 & BB & ES & EH)]]).
  - exists 0%nat, r. split; [constructor|]. split; [exact MONO|exact Q].
  - apply STEP; assumption.
  - assert (R2 : rush_steps mac sc fc c has_udp here n r0 r2).
    { rewrite <- (Nat.add_0_r n). eapply rush_more; eassumption. }
    destruct (G n r2 R2) as (_ & [Q|[Q|(X & _)]]); [rewrite EH; exact MONO| | |congruence].
    + exists 0%nat, r2. split; [exact BB|]. split; [rewrite EH; exact MONO|exact Q].
    + destruct (STEP r2 R2 Q) as (m & r' & R' & F). exists m, r'. split; [|exact F].
      change m with (0 + m)%nat. eapply rush_more; eassumption.
Qed.
Print Assumptions C79_tcp_bytes_among_others.

(** The same in terms of the configuration files. *)
Theorem C79_tcp_bytes_among_others_from_files :
  forall mac parse_ip fraction cfile cls cc sfile sls sc fc c host (ipv4 : bool) srv crypt given user port rs here
         kport tcp udp has_udp num ha acc0 d0 h0 n r,
  (forall x y, length (mac x y) = 32%nat /\ all_bytes (mac x y)) ->
  started_from fraction VarClient cfile cls cc ->
  started_from fraction VarServer sfile sls sc -> started_from fraction VarServer sfile sls fc ->
  files_agree cls sls user port rs -> user_of_command cls given user ->
  resolvable parse_ip host (if ipv4 then RmIpv4 else RmIpv6) srv crypt ->
  knocks_by_tcp cc tcp udp ->
  arun true has_udp (acceptor_start num) ha = Some acc0 -> Forall no_failure ha -> 1 <= num ->
  ~ In here (waiting_tcp acc0) ->
  plausible_address (sa_ip here) -> ip_address (sa_ip here) -> family_fits c (sa_ip here) ->
  history fc c d0 h0 -> d_phase d0 = PhRun -> has_chain (d_kernel d0) c = true ->
  rush_steps mac sc fc c has_udp here n
    (Rush acc0 None (streams_start
       (run_knock mac parse_ip cc host (KnockServer (addr_mode_of ipv4 (negb ipv4)) kport tcp udp) port given srv crypt)
       no_session d0 h0)) r ->
  clock_monotone (sb_hist (ru_streams r)) ->
  (n <= 2166)%nat
  /\ (rush_finished fc c h0 here rs r
      \/ (exists r', rush_step mac sc fc c has_udp here 1 r r' /\ clock_monotone (sb_hist (ru_streams r')))
      \/ (ru_name r = None /\ In here (waiting_tcp (ru_acc r))
          /\ exists ev acc', own_step ev /\ astep true has_udp (ru_acc r) ev = Some acc'))
  /\ exists m r', rush_steps mac sc fc c has_udp here m r r' /\ clock_monotone (sb_hist (ru_streams r')) /\ rush_finished fc c h0 here rs r'.
Proof.
  intros mac parse_ip fraction cfile cls cc sfile sls sc fc c host ipv4 srv crypt given user port rs here
    kport tcp udp has_udp num ha acc0 d0 h0 n r MS CL SL FL FA UC HOST BT RA NFA NUM FRESH PL IA FF H PH HC R MONO.
  destruct (files_to_agree _ _ _ _ _ _ _ _ _ _ _ _ _ _ _ CL SL FA HOST) as (key & id & AG).
  pose proof (files_permit _ _ _ _ _ _ _ _ FL FA) as PP.
  assert (port < 2 ^ 16) as PB.
  { destruct FA as [_ (j & crs & _ & _ & _ & (o & t & _ & _ & RT) & <- & _) _]. eapply resource_text_sane. exact RT. }
  assert (run_knock mac parse_ip cc host (KnockServer (addr_mode_of ipv4 (negb ipv4)) kport tcp udp) port given srv crypt
          = run_knock mac parse_ip cc host (KnockServer (addr_mode_of ipv4 (negb ipv4)) kport tcp udp) port (Some user) srv crypt)
    as EU.
  { destruct UC as [-> | [-> D]]; [reflexivity|]. unfold run_knock. rewrite (default_user_of _ _ _ _ _ CL D). reflexivity. }
  rewrite EU in R. eapply C79_tcp_bytes_among_others; eassumption.
Qed.
Print Assumptions C79_tcp_bytes_among_others_from_files.

(** The sample client knocks while two others wait and one is being served. *)
Example C79_complete_run : forall parse_ip host srv,
  resolvable parse_ip host RmIpv4 srv (ResCrypt true true true) ->
  exists m r', rush_steps hmac_sha3_256 sample_conf sample_conf (ChainName INet (lit "filter") (lit "LETMEIN")) true
      (SockAddr sample_peer 40000 0 0) m
      (Rush busy_acc None (streams_start (run_knock hmac_sha3_256 parse_ip client_conf host
                      (KnockServer (addr_mode_of true false) None true false) 53 None srv (ResCrypt true true true))
            no_session sample_daemon [])) r'
    /\ clock_monotone (sb_hist (ru_streams r'))
    /\ rush_finished sample_conf (ChainName INet (lit "filter") (lit "LETMEIN")) [] (SockAddr sample_peer 40000 0 0)
                (ResPort 53 false true [10; 11]) r'.
Proof.
  intros parse_ip host srv HOST.
  eapply (C79_tcp_bytes_among_others_from_files hmac_sha3_256 parse_ip no_fraction _ _ client_conf _ _ sample_conf
            sample_conf (ChainName INet (lit "filter") (lit "LETMEIN")) host true srv (ResCrypt true true true)
            None 11 53 _ (SockAddr sample_peer 40000 0 0) None true false true 8
            [AeArrive (sa 1); AeTcp None; AeSelect true true; AeTask; AeTask; AeArrive (sa 2); AeUdp (Ok (sa 3)); AeTcp None; AeTask]
            busy_acc sample_daemon []).
  - exact hmac_ok.
  - exact C54_client_started.
  - exact C54_server_started.
  - exact C54_server_started.
  - exact C54_files_agree.
  - right. split; [reflexivity|].
    destruct (started_configures _ _ _ _ _ C54_client_started) as [CF V]. exact (cf_client _ _ _ CF V).
  - exact HOST.
  - left. reflexivity.
  - reflexivity.
  - repeat constructor.
  - lia.
  - intros [X|[]]. discriminate X.
  - split; exists 192; split; try discriminate; simpl; auto.
  - split; [reflexivity|]. apply bytes_ok_spec. vm_compute. reflexivity.
  - exists sample_peer. split; [|exact Logic.I]. right. split; [reflexivity|]. intros; discriminate.
  - eapply hist_start with (k := sample_kernel) (exe_ok := true) (ok := true); [|vm_compute; reflexivity].
    unfold configured_chain. repeat split; try reflexivity; discriminate.
  - reflexivity.
  - vm_compute. reflexivity.
  - constructor.
  - intros p x q y r t u E. destruct p; discriminate.
Qed.
