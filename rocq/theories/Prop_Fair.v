(** Property C80: if nobody who can go on is passed over for ever, a legitimate knock
    over TCP comes to its successful end. *)

From Coq Require Import String ZArith NArith List Bool Lia.
From Verif Require Import M_Base M_Proto M_IpAddr M_FwProto M_ConfTypes M_Server M_Client M_Firewall M_Udp M_Accept M_Text M_Conf M_Sha3
  S_Wire S_Session S_Client S_Pair S_Text S_Conf S_System S_Whole S_E2e S_Bytes S_Accept S_Rush S_Fair
  P_Base P_Sha3 P_Load P_Session P_Pair P_FwdProps P_E2e P_Files P_Whole P_Bytes P_Accept P_Busy P_Rush P_Fair
  Prop_Conf Prop_Pair Prop_Whole Prop_E2e Prop_Bytes Prop_Accept Prop_Rush S_Files S_Firewall.
Import ListNotations.
Local Open Scope N_scope.

(** Client, letmeind and letmeinfwd agree about the knock, and letmeind has accepted
    and served other connections without a failure of the accept path ([ha]).  Take
    any infinite execution: any sizes of the pieces, any order of the steps, any other
    connections without end, anything undisturbing that others do to the firewall.
    If the clock does not go backwards and the execution is fair to the knock and to
    the accepting tasks, the knock is successfully over at some time. *)
Theorem C80_tcp_knock_ends :
  forall mac parse_ip cc sc fc c host (ipv4 : bool) srv crypt user key res_id port rs here kport tcp udp has_udp num ha acc0 d0 h0 at_ own,
  (forall x y, length (mac x y) = 32%nat /\ all_bytes (mac x y)) ->
  agree cc sc host parse_ip (if ipv4 then RmIpv4 else RmIpv6) srv crypt user key res_id port rs ->
  knocks_by_tcp cc tcp udp ->
  arun true has_udp (acceptor_start num) ha = Some acc0 -> Forall no_failure ha -> 1 <= num ->
  ~ In here (waiting_tcp acc0) ->
  plausible_address (sa_ip here) -> ip_address (sa_ip here) -> permitted_port fc port -> port < 2 ^ 16 ->
  family_fits c (sa_ip here) ->
  history fc c d0 h0 -> d_phase d0 = PhRun -> has_chain (d_kernel d0) c = true ->
  execution (rush_step mac sc fc c has_udp here)
    (Rush acc0 None (streams_start
       (run_knock mac parse_ip cc host (KnockServer (addr_mode_of ipv4 (negb ipv4)) kport tcp udp) port (Some user) srv crypt)
       no_session d0 h0)) at_ own ->
  (forall k, clock_monotone (sb_hist (ru_streams (at_ k)))) ->
  knock_fair (rush_step mac sc fc c has_udp here) (fun r => sb_hist (ru_streams r)) at_ own ->
  accepts_fairly has_udp (fun k => ru_acc (at_ k)) ->
  exists k, rush_finished fc c h0 here rs (at_ k).
Proof.
  intros mac parse_ip cc sc fc c host ipv4 srv crypt user key res_id port rs here kport tcp udp has_udp num ha acc0 d0 h0 at_ own
    MS AG BT RA NFA NUM FRESH PL IA PP PB FF H PH HC EX MONO KF AF.
  assert (V0 : inv here num (Rush acc0 None (streams_start
       (run_knock mac parse_ip cc host (KnockServer (addr_mode_of ipv4 (negb ipv4)) kport tcp udp) port (Some user) srv crypt)
       no_session d0 h0))).
  { constructor.
    - unfold spot. cbn. apply pl_before; [apply knock_dials; exact BT|exact FRESH].
    - eapply clean_run; [apply clean_start|exact NFA|exact RA].
    - intros _. cbn. auto. }
  assert (G := fun k => C79_tcp_bytes_among_others mac parse_ip cc sc fc c host ipv4 srv crypt user key res_id port rs here kport tcp udp
                 has_udp num ha acc0 d0 h0 _ (at_ k) MS AG BT RA NFA NUM FRESH PL IA PP PB FF H PH HC
                 (rush_prefix mac sc fc c has_udp here _ _ _ EX k) (MONO k)).
  apply (fair_end _ _ at_ own KF 2166%nat (rush_finished fc c h0 here rs)
           (fun r => ru_name r = None /\ In here (waiting_tcp (ru_acc r)))).
  - intros k. apply (G k).
  - intros k. destruct (G k) as (_ & [Q|[Q|(Q1 & Q2 & _)]] & _); auto.
  - intros t W. eapply rush_waits_no_longer; eassumption.
Qed.
Print Assumptions C80_tcp_knock_ends.

(** The same in terms of the configuration files. *)
Theorem C80_tcp_knock_ends_from_files :
  forall mac parse_ip fraction cfile cls cc sfile sls sc fc c host (ipv4 : bool) srv crypt given user port rs here
         kport tcp udp has_udp num ha acc0 d0 h0 at_ own,
  (forall x y, length (mac x y) = 32%nat /\ all_bytes (mac x y)) ->
  started_from fraction VarClient cfile cls cc ->
  started_from fraction VarServer sfile sls sc -> started_from fraction VarServer sfile sls fc ->
  files_agree cls sls user port rs -> user_of_command cls given user ->
  resolvable parse_ip host (if ipv4 then RmIpv4 else RmIpv6) srv crypt ->
  knocks_by_tcp cc tcp udp ->
  arun true has_udp (acceptor_start num) ha = Some acc0 -> Forall no_failure ha -> 1 <= num ->
  ~ In here (waiting_tcp acc0) ->
  plausible_address (sa_ip here) -> ip_address (sa_ip here) -> family_fits c (sa_ip here) ->
  history fc c d0 h0 -> d_phase d0 = PhRun -> has_chain (d_kernel d0) c = true ->
  execution (rush_step mac sc fc c has_udp here)
    (Rush acc0 None (streams_start
       (run_knock mac parse_ip cc host (KnockServer (addr_mode_of ipv4 (negb ipv4)) kport tcp udp) port given srv crypt)
       no_session d0 h0)) at_ own ->
  (forall k, clock_monotone (sb_hist (ru_streams (at_ k)))) ->
  knock_fair (rush_step mac sc fc c has_udp here) (fun r => sb_hist (ru_streams r)) at_ own ->
  accepts_fairly has_udp (fun k => ru_acc (at_ k)) ->
  exists k, rush_finished fc c h0 here rs (at_ k).
Proof.
  intros mac parse_ip fraction cfile cls cc sfile sls sc fc c host ipv4 srv crypt given user port rs here
    kport tcp udp has_udp num ha acc0 d0 h0 at_ own MS CL SL FL FA UC HOST BT RA NFA NUM FRESH PL IA FF H PH HC EX MONO KF AF.
  destruct (files_to_agree _ _ _ _ _ _ _ _ _ _ _ _ _ _ _ CL SL FA HOST) as (key & id & AG).
  pose proof (files_permit _ _ _ _ _ _ _ _ FL FA) as PP.
  assert (port < 2 ^ 16) as PB.
  { destruct FA as [_ (j & crs & _ & _ & _ & (o & t & _ & _ & RT) & <- & _) _]. eapply resource_text_sane. exact RT. }
  assert (run_knock mac parse_ip cc host (KnockServer (addr_mode_of ipv4 (negb ipv4)) kport tcp udp) port given srv crypt
          = run_knock mac parse_ip cc host (KnockServer (addr_mode_of ipv4 (negb ipv4)) kport tcp udp) port (Some user) srv crypt)
    as EU.
  { destruct UC as [-> | [-> D]]; [reflexivity|]. unfold run_knock. rewrite (default_user_of _ _ _ _ _ CL D). reflexivity. }
  rewrite EU in EX. eapply C80_tcp_knock_ends; eassumption.
Qed.
Print Assumptions C80_tcp_knock_ends_from_files.

(** The assumptions can be met from wherever the knock may have got to: every finite
    execution can be continued to a fair one without setting the clock back. *)
Theorem C80_fair_executions_exist :
  forall mac parse_ip cc sc fc c host (ipv4 : bool) srv crypt user key res_id port rs here kport tcp udp has_udp num ha acc0 d0 h0 n r,
  (forall x y, length (mac x y) = 32%nat /\ all_bytes (mac x y)) ->
  agree cc sc host parse_ip (if ipv4 then RmIpv4 else RmIpv6) srv crypt user key res_id port rs ->
  knocks_by_tcp cc tcp udp ->
  arun true has_udp (acceptor_start num) ha = Some acc0 -> Forall no_failure ha -> 1 <= num ->
  ~ In here (waiting_tcp acc0) ->
  plausible_address (sa_ip here) -> ip_address (sa_ip here) -> permitted_port fc port -> port < 2 ^ 16 ->
  family_fits c (sa_ip here) ->
  history fc c d0 h0 -> d_phase d0 = PhRun -> has_chain (d_kernel d0) c = true ->
  rush_steps mac sc fc c has_udp here n
    (Rush acc0 None (streams_start
       (run_knock mac parse_ip cc host (KnockServer (addr_mode_of ipv4 (negb ipv4)) kport tcp udp) port (Some user) srv crypt)
       no_session d0 h0)) r ->
  clock_monotone (sb_hist (ru_streams r)) ->
  exists at_ own, execution (rush_step mac sc fc c has_udp here) r at_ own
    /\ (forall k, clock_monotone (sb_hist (ru_streams (at_ k))))
    /\ knock_fair (rush_step mac sc fc c has_udp here) (fun r => sb_hist (ru_streams r)) at_ own
    /\ accepts_fairly has_udp (fun k => ru_acc (at_ k)).
Proof.
  intros mac parse_ip cc sc fc c host ipv4 srv crypt user key res_id port rs here kport tcp udp has_udp num ha acc0 d0 h0 n r
    MS AG BT RA NFA NUM FRESH PL IA PP PB FF H PH HC R MONO.
  destruct (C79_tcp_bytes_among_others mac parse_ip cc sc fc c host ipv4 srv crypt user key res_id port rs here kport tcp udp
              has_udp num ha acc0 d0 h0 n r MS AG BT RA NFA NUM FRESH PL IA PP PB FF H PH HC R MONO)
    as (_ & _ & m1 & [acc1 name1 s1] & R1 & MONO1 & (EC & ES & _) & nm & EN & _).
  cbn [ru_streams ru_name ru_acc] in *. subst name1.
  set (cl := run_knock mac parse_ip cc host (KnockServer (addr_mode_of ipv4 (negb ipv4)) kport tcp udp) port (Some user) srv crypt) in *.
  set (r0 := Rush acc0 None (streams_start cl no_session d0 h0)) in *.
  assert (V0 : inv here num r0).
  { constructor.
    - unfold spot. cbn. apply pl_before; [apply knock_dials; exact BT|exact FRESH].
    - eapply clean_run; [apply clean_start|exact NFA|exact RA].
    - intros _. cbn. auto. }
  (* the reply of letmeinfwd is written *)
  destruct (flush fc c s1) as (m2 & s2 & R2 & ED2 & EH2 & EC2 & ES2 & ER2 & _).
  assert (F2 : rush_steps mac sc fc c has_udp here m2 (Rush acc1 (Some nm) s1) (Rush acc1 (Some nm) s2)).
  { assert (X : forall m s s', byte_steps fc c m s s' -> (exists q, sb_client s = CRet q) ->
      rush_steps mac sc fc c has_udp here m (Rush acc1 (Some nm) s) (Rush acc1 (Some nm) s') /\ exists q, sb_client s' = CRet q).
    { clear. intros m s s' B. induction B as [s|m i s s1 s2 B IH ST]; intros Q; [split; [constructor|exact Q]|].
      destruct (IH Q) as (A & q & E). split.
      - econstructor; [exact A|]. apply rs_stream; [exact ST|]. rewrite E. discriminate.
      - inversion ST; subst; cbn in E |- *; try discriminate; eauto. }
    apply (X _ _ _ R2). eauto. }
  (* everybody who waits is accepted *)
  assert (RR : rush_steps mac sc fc c has_udp here (n + (m1 + m2)) r0 (Rush acc1 (Some nm) s2)).
  { eapply rush_more; [exact R|]. eapply rush_more; eassumption. }
  destruct (inv_run mac sc fc c has_udp here num NUM _ _ _ RR V0) as (BS & V2).
  destruct (drain_all has_udp num NUM _ acc1 (in_clean _ _ _ V2) eq_refl) as (h & acc3 & OW & RUN & WZ).
  pose proof (own_rush_named mac sc fc c has_udp here num NUM h _ acc3 nm V2 eq_refl OW RUN) as R3. cbn [ru_streams] in R3.
  destruct (inv_run mac sc fc c has_udp here num NUM _ _ _ R3 V2) as (_ & V3).
  (* nothing is on the way to letmeinfwd *)
  assert (RQ : sb_request s2 = []).
  { change (seen mac sc here r0) with (streams_start cl (server_run mac sc (sa_ip here)) d0 h0) in BS.
    assert (S0 : simr (streams_start cl (server_run mac sc (sa_ip here)) d0 h0) (Full (Pair cl (server_run mac sc (sa_ip here)) [] [] []) d0 h0 [] [])).
    { apply (Sim cl None [] (server_run mac sc (sa_ip here)) None [] d0 h0 None [] [] [] [] [] cl [] (server_run mac sc (sa_ip here)) [] [] [] []);
        try constructor; cbv; lia. }
    destruct (P_Bytes.sim_steps fc c _ _ S0 _ _ BS) as (m & f & RF & S & _).
    destruct (P_E2e.sim_run mac parse_ip cc sc fc c host ipv4 srv crypt user key res_id port rs (sa_ip here) kport tcp udp MS AG PL IA PP PB FF
                d0 h0 H PH HC m f RF) as (_ & _ & _ & n' & i & _ & ST & _).
    change (seen mac sc here (Rush acc1 (Some nm) s2)) with s2 in S.
    rewrite <- ES2 in ES. clear - S ST ES.
    inversion S as [? ? ? p ? ? ? ? ? di ? ? rq ? ? ? p' ? fo ? ? ? ? ? rqs ? ? ? SR ? ? ? ? ? ? ? CQ]; subst. cbn in ES |- *. subst p.
    inversion SR; subst.
    inversion ST as [pp ? ? ? OP FW|? ? ? ? ? ? ? FW|pp ? ? ? ? ? FW|pp ? ? ? ? FW]; subst; cbn in *;
      try (inversion FW; congruence);
      symmetry in CQ; apply app_eq_nil in CQ; destruct CQ as (_ & CQ); apply app_eq_nil in CQ; apply CQ. }
  assert (RA3 : rush_steps mac sc fc c has_udp here (m1 + m2 + 0) r (Rush acc3 (Some nm) s2)).
  { eapply rush_more; [eapply rush_more; eassumption|exact R3]. }
  pose proof RA3 as TI. eapply then_idle in TI; [|exact NUM]. destruct TI as (at_ & own & len & EX & IDLE & REST).
  exists at_, own. split; [exact EX|]. split.
  { intros k. destruct (REST k) as (m & B). destruct (rush_hist mac sc fc c has_udp here _ _ _ B) as (x & E). cbn [ru_streams] in E.
    apply (monotone_prefix _ x). rewrite <- E, EH2. exact MONO1. }
  eapply (rest_fair mac sc fc c has_udp here num) with (len := len) (r := Rush acc3 (Some nm) s2).
  - exact NUM.
  - destruct EX as [E0 EN]. constructor; [reflexivity|exact EN].
  - exact IDLE.
  - intros s'. cbn [ru_streams]. rewrite <- EC2 in EC. rewrite <- ES2 in ES. eapply over; eassumption.
  - apply (in_clean _ _ _ V3).
  - exact WZ.
Qed.
Print Assumptions C80_fair_executions_exist.

(** The same in terms of the configuration files, from the start. *)
Theorem C80_fair_executions_exist_from_files :
  forall mac parse_ip fraction cfile cls cc sfile sls sc fc c host (ipv4 : bool) srv crypt given user port rs here
         kport tcp udp has_udp num ha acc0 d0 h0 n r,
  (forall x y, length (mac x y) = 32%nat /\ all_bytes (mac x y)) ->
  started_from fraction VarClient cfile cls cc ->
  started_from fraction VarServer sfile sls sc -> started_from fraction VarServer sfile sls fc ->
  files_agree cls sls user port rs -> user_of_command cls given user ->
  resolvable parse_ip host (if ipv4 then RmIpv4 else RmIpv6) srv crypt ->
  knocks_by_tcp cc tcp udp ->
  arun true has_udp (acceptor_start num) ha = Some acc0 -> Forall no_failure ha -> 1 <= num ->
  ~ In here (waiting_tcp acc0) ->
  plausible_address (sa_ip here) -> ip_address (sa_ip here) -> family_fits c (sa_ip here) ->
  history fc c d0 h0 -> d_phase d0 = PhRun -> has_chain (d_kernel d0) c = true ->
  rush_steps mac sc fc c has_udp here n
    (Rush acc0 None (streams_start
       (run_knock mac parse_ip cc host (KnockServer (addr_mode_of ipv4 (negb ipv4)) kport tcp udp) port given srv crypt)
       no_session d0 h0)) r ->
  clock_monotone (sb_hist (ru_streams r)) ->
  exists at_ own, execution (rush_step mac sc fc c has_udp here) r at_ own
    /\ (forall k, clock_monotone (sb_hist (ru_streams (at_ k))))
    /\ knock_fair (rush_step mac sc fc c has_udp here) (fun r => sb_hist (ru_streams r)) at_ own
    /\ accepts_fairly has_udp (fun k => ru_acc (at_ k)).
Proof.
  intros mac parse_ip fraction cfile cls cc sfile sls sc fc c host ipv4 srv crypt given user port rs here
    kport tcp udp has_udp num ha acc0 d0 h0 n r MS CL SL FL FA UC HOST BT RA NFA NUM FRESH PL IA FF H PH HC R MONO.
  destruct (files_to_agree _ _ _ _ _ _ _ _ _ _ _ _ _ _ _ CL SL FA HOST) as (key & id & AG).
  pose proof (files_permit _ _ _ _ _ _ _ _ FL FA) as PP.
  assert (port < 2 ^ 16) as PB.
  { destruct FA as [_ (j & crs & _ & _ & _ & (o & t & _ & _ & RT) & <- & _) _]. eapply resource_text_sane. exact RT. }
  assert (run_knock mac parse_ip cc host (KnockServer (addr_mode_of ipv4 (negb ipv4)) kport tcp udp) port given srv crypt
          = run_knock mac parse_ip cc host (KnockServer (addr_mode_of ipv4 (negb ipv4)) kport tcp udp) port (Some user) srv crypt)
    as EU.
  { destruct UC as [-> | [-> D]]; [reflexivity|]. unfold run_knock. rewrite (default_user_of _ _ _ _ _ CL D). reflexivity. }
  rewrite EU in R. eapply C80_fair_executions_exist; eassumption.
Qed.
Print Assumptions C80_fair_executions_exist_from_files.

(** The sample client knocks while two others wait and one is being served: there is
    a fair execution, and in it the knock ends. *)
Example C80_complete_run : forall parse_ip host srv,
  resolvable parse_ip host RmIpv4 srv (ResCrypt true true true) ->
  exists at_ own, execution (rush_step hmac_sha3_256 sample_conf sample_conf (ChainName INet (lit "filter") (lit "LETMEIN")) true
                               (SockAddr sample_peer 40000 0 0))
      (Rush busy_acc None (streams_start (run_knock hmac_sha3_256 parse_ip client_conf host
                      (KnockServer (addr_mode_of true false) None true false) 53 None srv (ResCrypt true true true))
            no_session sample_daemon [])) at_ own
    /\ (forall k, clock_monotone (sb_hist (ru_streams (at_ k))))
    /\ exists k, rush_finished sample_conf (ChainName INet (lit "filter") (lit "LETMEIN")) [] (SockAddr sample_peer 40000 0 0)
                (ResPort 53 false true [10; 11]) (at_ k).
Proof.
  intros parse_ip host srv HOST.
  assert (UC : user_of_command (M_Str.lines client_sample) None 11).
  { right. split; [reflexivity|].
    destruct (started_configures _ _ _ _ _ C54_client_started) as [CF V]. exact (cf_client _ _ _ CF V). }
  assert (PL : plausible_address sample_peer) by (split; exists 192; split; try discriminate; simpl; auto).
  assert (IA : ip_address sample_peer) by (split; [reflexivity|]; apply bytes_ok_spec; vm_compute; reflexivity).
  assert (FF : family_fits (ChainName INet (lit "filter") (lit "LETMEIN")) sample_peer).
  { exists sample_peer. split; [|exact Logic.I]. right. split; [reflexivity|]. intros; discriminate. }
  assert (HI : history sample_conf (ChainName INet (lit "filter") (lit "LETMEIN")) sample_daemon []).
  { eapply hist_start with (k := sample_kernel) (exe_ok := true) (ok := true); [|vm_compute; reflexivity].
    unfold configured_chain. repeat split; try reflexivity; discriminate. }
  assert (HC : has_chain (d_kernel sample_daemon) (ChainName INet (lit "filter") (lit "LETMEIN")) = true) by (vm_compute; reflexivity).
  assert (FR : ~ In (SockAddr sample_peer 40000 0 0) (waiting_tcp busy_acc)) by (intros [X|[]]; discriminate X).
  destruct (C80_fair_executions_exist_from_files hmac_sha3_256 parse_ip no_fraction _ _ client_conf _ _ sample_conf
            sample_conf (ChainName INet (lit "filter") (lit "LETMEIN")) host true srv (ResCrypt true true true)
            None 11 53 _ (SockAddr sample_peer 40000 0 0) None true false true 8
            [AeArrive (sa 1); AeTcp None; AeSelect true true; AeTask; AeTask; AeArrive (sa 2); AeUdp (Ok (sa 3)); AeTcp None; AeTask]
            busy_acc sample_daemon [] 0%nat _ hmac_ok C54_client_started C54_server_started C54_server_started C54_files_agree UC HOST
            (or_introl eq_refl) eq_refl ltac:(repeat constructor) ltac:(lia) FR PL IA FF HI eq_refl HC
            (rss_0 _ _ _ _ _ _ _)) as (at_ & own & EX & MO & KF & AF).
  { intros p x q y r t u E. destruct p; discriminate. }
  exists at_, own. split; [exact EX|]. split; [exact MO|].
  exact (C80_tcp_knock_ends_from_files hmac_sha3_256 parse_ip no_fraction _ _ client_conf _ _ sample_conf
            sample_conf (ChainName INet (lit "filter") (lit "LETMEIN")) host true srv (ResCrypt true true true)
            None 11 53 _ (SockAddr sample_peer 40000 0 0) None true false true 8
            [AeArrive (sa 1); AeTcp None; AeSelect true true; AeTask; AeTask; AeArrive (sa 2); AeUdp (Ok (sa 3)); AeTcp None; AeTask]
            busy_acc sample_daemon [] at_ own hmac_ok C54_client_started C54_server_started C54_server_started C54_files_agree UC HOST
            (or_introl eq_refl) eq_refl ltac:(repeat constructor) ltac:(lia) FR PL IA FF HI eq_refl HC EX MO KF AF).
Qed.
