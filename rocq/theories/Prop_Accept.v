(** Properties C75 and C76: connections and their sessions in letmeind, and a
    knock over TCP to a letmeind that serves others at the same time. *)

From Coq Require Import String ZArith NArith List Bool Lia ZifyBool ZifyNat ZifyN.
From Verif Require Import M_Base M_Proto M_IpAddr M_FwProto M_ConfTypes M_Server M_Client M_Firewall M_Udp M_Text M_Conf M_Sha3 M_Accept
  S_Wire S_Session S_Client S_Pair S_Text S_Conf S_System S_Whole S_E2e S_Accept
  P_Base P_Sha3 P_Load P_Session P_Client P_Pair P_FwdProps P_E2e P_Files P_Whole P_Both P_Bytes P_Daemon P_Accept P_Busy
  Prop_Conf Prop_Pair Prop_Whole Prop_E2e S_Files S_Firewall.
From Verif Require M_Daemon Prop_Daemon.
Import ListNotations.
Local Open Scope N_scope.

(** *** C75 *)

(** In every history of letmeind, with any failures: of each transport, the
    connections that arrived are those whose handler was started, in the order of
    their arrival, followed by those that wait.  The only exception is a TCP
    connection whose TCP_NODELAY cannot be set; there is at most one, and letmeind
    accepts nothing after it.  The handlers that run are those that were started,
    except those that have ended by themselves. *)
Theorem C75_every_connection_once_in_order : forall has_tcp has_udp num h s,
  arun has_tcp has_udp (acceptor_start num) h = Some s ->
  (exists dropped, tcp_arrivals h = started true s ++ dropped ++ waiting_tcp s
     /\ (length dropped <= 1)%nat
     /\ (dropped <> [] -> ac_pc s = HpEnd /\ In (AeSelect true false) h))
  /\ udp_arrivals h = started false s ++ waiting_udp s
  /\ NoDup (ac_live s)
  /\ forall c, In c (ac_live s) <-> (N.to_nat c < length (ac_started s))%nat /\ ~ In (AeFinish c) h.
Proof.
  intros ht hu num h s R. destruct (queues ht hu num h s R) as (dr & A & U & L & D).
  destruct (refine_run ht hu num h s R) as (h1 & DR & _).
  pose proof (dinv_run _ _ _ DR) as IV.
  split; [exists dr; auto|]. split; [exact U|]. split; [exact (di_nodup _ _ _ IV)|].
  intros c. apply (live_run ht hu num h s R c).
Qed.
Print Assumptions C75_every_connection_once_in_order.

(** As long as nothing fails and no signal ends letmeind: it runs, and whatever the
    handlers do, its own steps lead to a state in which no connection waits, that
    is, all handlers are started.  It takes at most five steps per connection, in
    any order, and it is never stuck before. *)
Theorem C75_waiting_connections_are_served : forall has_tcp has_udp num h s,
  arun has_tcp has_udp (acceptor_start num) h = Some s -> Forall no_failure h -> 1 <= num ->
  ac_exit s = None
  /\ (forall h' s', Forall own_step h' -> arun has_tcp has_udp s h' = Some s' ->
        (length h' <= 5 * (length (waiting_tcp s) + length (waiting_udp s)) + 1)%nat
        /\ ((waiting_tcp s' = [] /\ waiting_udp s' = [])
            \/ exists ev s2, own_step ev /\ astep has_tcp has_udp s' ev = Some s2))
  /\ exists h' s', Forall own_step h' /\ arun has_tcp has_udp s h' = Some s'
       /\ started true s' = tcp_arrivals h /\ started false s' = udp_arrivals h.
Proof.
  intros ht hu num h s R NF L.
  pose proof (clean_run ht hu num h _ _ (clean_start ht num) NF R) as C.
  split; [exact (cl_exit _ _ _ C)|]. split.
  - intros h' s' OW R'. pose proof (weight_run ht hu num h' s s' C OW R') as W. pose proof (weight_bound s) as WB.
    split; [lia|]. destruct (Nat.eq_dec (weight s') 0) as [Z|Z].
    + left. eapply weightless; [|exact Z]. eapply clean_run; [exact C| |exact R'].
      eapply Forall_impl; [|exact OW]. apply own_no_failure.
    + right. eapply not_stuck; [|exact L|exact Z]. eapply clean_run; [exact C| |exact R'].
      eapply Forall_impl; [|exact OW]. apply own_no_failure.
  - destruct (drain ht hu num _ s C L eq_refl) as (h' & s' & OW & R' & WT & WU). exists h', s'.
    split; [exact OW|]. split; [exact R'|].
    assert (RR : arun ht hu (acceptor_start num) (h ++ h') = Some s') by (rewrite arun_app, R; exact R').
    destruct (queues ht hu num _ s' RR) as (dr & A & U & _ & D). rewrite WT in A. rewrite WU in U.
    assert (dr = []) as ->.
    { destruct dr as [|x dr]; [reflexivity|]. destruct (D ltac:(discriminate)) as (_ & I). exfalso.
      apply in_app_or in I. rewrite Forall_forall in NF, OW. destruct I as [I|I]; [apply (NF _ I)|apply (OW _ I)]. }
    cbn in A. rewrite app_nil_r in A, U. rewrite arrivals_app in A. rewrite arrivals_app_udp in U.
    assert (Z : tcp_arrivals h' = [] /\ udp_arrivals h' = []).
    { clear - OW. induction OW as [|ev l O F IH]; [auto|]. destruct IH as (I1 & I2). unfold tcp_arrivals, udp_arrivals in *. cbn.
      rewrite I1, I2. destruct ev; cbn in O |- *; try contradiction; auto. }
    destruct Z as (Z1 & Z2). rewrite Z1, app_nil_r in A. rewrite Z2, app_nil_r in U. auto.
Qed.
Print Assumptions C75_waiting_connections_are_served.

(** letmeind only ends because of a signal, or because accepting failed: a system
    call of one of the two listeners, or the setting of a TCP option. *)
Theorem C75_why_it_ends : forall has_tcp has_udp num h s r,
  arun has_tcp has_udp (acceptor_start num) h = Some s -> ac_exit s = Some r ->
  (r = Ok tt /\ In AeTerm h)
  \/ exists e, r = Err e
       /\ (In AeInt h \/ In (AeTcp (Some e)) h \/ In (AeUdp (Err e)) h
           \/ (e = "Set TCP_NODELAY"%string /\ In (AeSelect true false) h)).
Proof.
  intros ht hu num h s r R X. destruct (refine_run ht hu num h s R) as (h1 & DR & T & I & MN & A & _).
  destruct (Prop_Daemon.C43_why_it_stops_partial num h1 _ r DR X) as [(-> & J)|(e & -> & J)].
  - left. auto.
  - right. exists e. split; [reflexivity|]. destruct J as [J|[J|J]]; [auto| |exfalso; eapply MN; exact J].
    right. apply A. exact J.
Qed.
Print Assumptions C75_why_it_ends.

(** Two TCP clients and a UDP peer at the same time. *)
Definition sa (n : N) : sockaddr := SockAddr (V4 [192; 0; 2; n]) 40000 0 0.
Example C75_example : exists s,
  arun true true (acceptor_start 1)
    [AeArrive (sa 1); AeArrive (sa 2); AeTcp None; AeUdp (Ok (sa 3)); AeSelect true true; AeTask; AeTcp None; AeTask; AeTask;
     AeSelect false true; AeTask; AeTask; AeFinish 0] = Some s
  /\ ac_started s = [Conn true (sa 1); Conn false (sa 3)] /\ ac_live s = [1]
  /\ waiting_tcp s = [sa 2] /\ waiting_udp s = [].
Proof. eexists. vm_compute. repeat split. Qed.
(** A connection that is dropped. *)
Example C75_dropped : exists s,
  arun true false (acceptor_start 8) [AeArrive (sa 1); AeTcp None; AeArrive (sa 2); AeSelect true false; AeChannel] = Some s
  /\ ac_started s = [] /\ waiting_tcp s = [sa 2] /\ ac_exit s = Some (Err "Set TCP_NODELAY"%string).
Proof. eexists. vm_compute. repeat split. Qed.

(** *** C76 *)

(** Client, letmeind and letmeinfwd agree about the knock (the hypotheses of C54),
    the client uses TCP, and letmeind listens there and has served and is serving any
    number of others.  Then in every state that they can reach, while other
    connections arrive, are accepted, served and ended at any time: the knock has
    taken at most 19 steps; it is successfully over, or it can go on, or its
    connection waits and letmeind can go on accepting; and it can be brought to
    its successful end. *)
Theorem C76_tcp_knock_succeeds_among_others :
  forall mac parse_ip cc sc fc c host (ipv4 : bool) srv crypt user key res_id port rs here kport tcp udp has_udp num ha acc0 d0 h0 n s,
  (forall x y, length (mac x y) = 32%nat /\ all_bytes (mac x y)) ->
  agree cc sc host parse_ip (if ipv4 then RmIpv4 else RmIpv6) srv crypt user key res_id port rs ->
  knocks_by_tcp cc tcp udp ->
  arun true has_udp (acceptor_start num) ha = Some acc0 -> Forall no_failure ha -> 1 <= num ->
  ~ In here (waiting_tcp acc0) ->
  plausible_address (sa_ip here) -> ip_address (sa_ip here) -> permitted_port fc port -> port < 2 ^ 16 ->
  family_fits c (sa_ip here) ->
  history fc c d0 h0 -> d_phase d0 = PhRun -> has_chain (d_kernel d0) c = true ->
  busy_steps mac sc fc c has_udp here n
    (Busy acc0 (run_knock mac parse_ip cc host (KnockServer (addr_mode_of ipv4 (negb ipv4)) kport tcp udp) port (Some user) srv crypt)
          None [] [] d0 h0 [] []) s ->
  clock_monotone (bu_hist s) ->
  (n <= 19)%nat
  /\ (busy_finished fc c h0 here rs s
      \/ (exists s', busy_step mac sc fc c has_udp here 1 s s' /\ clock_monotone (bu_hist s'))
      \/ (bu_session s = None /\ In here (waiting_tcp (bu_acc s))
          /\ exists ev acc', own_step ev /\ astep true has_udp (bu_acc s) ev = Some acc'))
  /\ exists m s', busy_steps mac sc fc c has_udp here m s s' /\ clock_monotone (bu_hist s') /\ busy_finished fc c h0 here rs s'.
Proof.
  intros mac parse_ip cc sc fc c host ipv4 srv crypt user key res_id port rs here kport tcp udp has_udp num ha acc0 d0 h0 n s
    MS AG BT RA NFA NUM FRESH PL IA PP PB FF H PH HC R MONO.
  set (cl := run_knock mac parse_ip cc host (KnockServer (addr_mode_of ipv4 (negb ipv4)) kport tcp udp) port (Some user) srv crypt) in *.
  set (f0 := Full (Pair cl (server_run mac sc (sa_ip here)) [] [] []) d0 h0 [] []).
  assert (S0 : bsim mac sc here num (Busy acc0 cl None [] [] d0 h0 [] []) f0).
  { apply (Bsim mac sc here num acc0 cl None [] [] d0 h0 [] [] []).
    - apply pl_before; [apply knock_dials; exact BT|exact FRESH].
    - eapply clean_run; [apply clean_start|exact NFA|exact RA]. }
  assert (G : forall n s, busy_steps mac sc fc c has_udp here n (Busy acc0 cl None [] [] d0 h0 [] []) s -> clock_monotone (bu_hist s) ->
    (n <= 19)%nat /\ (busy_finished fc c h0 here rs s
      \/ (exists s', busy_step mac sc fc c has_udp here 1 s s' /\ clock_monotone (bu_hist s'))
      \/ (bu_session s = None /\ In here (waiting_tcp (bu_acc s))
          /\ (exists ev acc', own_step ev /\ astep true has_udp (bu_acc s) ev = Some acc')
          /\ exists s' se, busy_steps mac sc fc c has_udp here 0 s s' /\ bu_session s' = Some se /\ bu_hist s' = bu_hist s))).
  { clear n s R MONO. intros n s R MONO.
    destruct (bsim_run mac sc fc c has_udp here num NUM _ _ _ R _ S0) as (f & RF & S).
    inversion S as [acc cl1 se up dn d h rq rp op P C E1 E2]. subst s f. cbn [bu_hist bu_session bu_acc] in *.
    destruct (e2e _ _ _ _ _ _ _ _ _ _ _ _ _ _ _ _ _ _ _ MS AG PL IA PP PB FF d0 h0 H PH HC n _ RF) as (B & Q); [exact MONO|].
    split; [exact B|]. destruct Q as [(QC & QV & QP)|(f' & ST & MONO')].
    - left. cbn in QC, QV. subst cl1. destruct se as [[m p]|]; cbn in QV.
      + subst p. split; [reflexivity|]. split; [|exact QP]. exists m. split; [reflexivity|]. inversion P; subst. assumption.
      + unfold server_run, recv_msg in QV. discriminate.
    - right. destruct (bsim_go mac sc fc c has_udp here num _ _ _ S ST) as [(s' & ST' & E)|(E & W)].
      + left. exists s'. split; [exact ST'|]. destruct E as [E|E]; rewrite E; [exact MONO|exact MONO'].
      + right. cbn [bu_session bu_acc] in *. subst se. split; [reflexivity|]. split; [exact W|].
        destruct (gets_session mac sc fc c has_udp here num NUM acc cl1 up dn d h rq rp P C W) as (X & acc' & se' & BB & _).
        split; [exact X|]. eexists _, se'. split; [exact BB|]. split; reflexivity. }
  destruct (G n s R MONO) as (B & Q). split; [exact B|]. split.
  { destruct Q as [Q|[Q|(Q1 & Q2 & Q3 & _)]]; auto. }
  clear Q.
  (* to the end: every second round is a step of this knock *)
  assert (E : exists k, (n + k = 20)%nat) by (exists (20 - n)%nat; lia). destruct E as (k & E). clear B.
  revert n s R MONO E. induction k as [|k IH]; intros n s R MONO E; [destruct (G n s R MONO); lia|].
  assert (STEP : forall s, busy_steps mac sc fc c has_udp here n (Busy acc0 cl None [] [] d0 h0 [] []) s ->
    (exists s', busy_step mac sc fc c has_udp here 1 s s' /\ clock_monotone (bu_hist s')) ->
    exists m s', busy_steps mac sc fc c has_udp here m s s' /\ clock_monotone (bu_hist s') /\ busy_finished fc c h0 here rs s').
  { clear s R MONO. intros s R (s1 & ST & MONO').
    destruct (IH (n + 1)%nat s1 (bss_S _ _ _ _ _ _ _ _ _ _ _ R ST) MONO') as (m & s' & R' & F); [lia|].
    exists (1 + m)%nat, s'. split; [|exact F]. eapply busy_more; [|exact R']. change 1%nat with (0 + 1)%nat. econstructor; [constructor|exact ST]. }
  destruct (G n s R MONO) as (B & [Q|[Q|(Q1 & Q2 & _ & s2 & se & BB & ES & EH)]]).
  - exists 0%nat, s. split; [constructor|]. split; [exact MONO|exact Q].
  - apply STEP; assumption.
  - assert (R2 : busy_steps mac sc fc c has_udp here n (Busy acc0 cl None [] [] d0 h0 [] []) s2).
    { rewrite <- (Nat.add_0_r n). eapply busy_more; eassumption. }
    destruct (G n s2 R2) as (_ & [Q|[Q|(X & _)]]); [rewrite EH; exact MONO| | |congruence].
    + exists 0%nat, s2. split; [exact BB|]. split; [rewrite EH; exact MONO|exact Q].
    + destruct (STEP s2 R2 Q) as (m & s' & R' & F). exists m, s'. split; [|exact F].
      change m with (0 + m)%nat. eapply busy_more; eassumption.
Qed.
Print Assumptions C76_tcp_knock_succeeds_among_others.

(** The same in terms of the configuration files. *)
Theorem C76_tcp_knock_succeeds_among_others_from_files :
  forall mac parse_ip fraction cfile cls cc sfile sls sc fc c host (ipv4 : bool) srv crypt given user port rs here
         kport tcp udp has_udp num ha acc0 d0 h0 n s,
  (forall x y, length (mac x y) = 32%nat /\ all_bytes (mac x y)) ->
  started_from fraction VarClient cfile cls cc ->
  started_from fraction VarServer sfile sls sc -> started_from fraction VarServer sfile sls fc ->
  files_agree cls sls user port rs -> user_of_command cls given user ->
  resolvable parse_ip host (if ipv4 then RmIpv4 else RmIpv6) srv crypt ->
  knocks_by_tcp cc tcp udp ->
  arun true has_udp (acceptor_start num) ha = Some acc0 -> Forall no_failure ha -> 1 <= num ->
  ~ In here (waiting_tcp acc0) ->
  plausible_address (sa_ip here) -> ip_address (sa_ip here) -> family_fits c (sa_ip here) ->
  history fc c d0 h0 -> d_phase d0 = PhRun -> has_chain (d_kernel d0) c = true ->
  busy_steps mac sc fc c has_udp here n
    (Busy acc0 (run_knock mac parse_ip cc host (KnockServer (addr_mode_of ipv4 (negb ipv4)) kport tcp udp) port given srv crypt)
          None [] [] d0 h0 [] []) s ->
  clock_monotone (bu_hist s) ->
  (n <= 19)%nat
  /\ (busy_finished fc c h0 here rs s
      \/ (exists s', busy_step mac sc fc c has_udp here 1 s s' /\ clock_monotone (bu_hist s'))
      \/ (bu_session s = None /\ In here (waiting_tcp (bu_acc s))
          /\ exists ev acc', own_step ev /\ astep true has_udp (bu_acc s) ev = Some acc'))
  /\ exists m s', busy_steps mac sc fc c has_udp here m s s' /\ clock_monotone (bu_hist s') /\ busy_finished fc c h0 here rs s'.
Proof.
  intros mac parse_ip fraction cfile cls cc sfile sls sc fc c host ipv4 srv crypt given user port rs here
    kport tcp udp has_udp num ha acc0 d0 h0 n s MS CL SL FL FA UC HOST BT RA NFA NUM FRESH PL IA FF H PH HC R MONO.
  destruct (files_to_agree _ _ _ _ _ _ _ _ _ _ _ _ _ _ _ CL SL FA HOST) as (key & id & AG).
  pose proof (files_permit _ _ _ _ _ _ _ _ FL FA) as PP.
  assert (port < 2 ^ 16) as PB.
  { destruct FA as [_ (j & crs & _ & _ & _ & (o & t & _ & _ & RT) & <- & _) _]. eapply resource_text_sane. exact RT. }
  assert (run_knock mac parse_ip cc host (KnockServer (addr_mode_of ipv4 (negb ipv4)) kport tcp udp) port given srv crypt
          = run_knock mac parse_ip cc host (KnockServer (addr_mode_of ipv4 (negb ipv4)) kport tcp udp) port (Some user) srv crypt)
    as EU.
  { destruct UC as [-> | [-> D]]; [reflexivity|]. unfold run_knock. rewrite (default_user_of _ _ _ _ _ CL D). reflexivity. }
  rewrite EU in R. eapply C76_tcp_knock_succeeds_among_others; eassumption.
Qed.
Print Assumptions C76_tcp_knock_succeeds_among_others_from_files.

(** The sample client knocks while two others wait and one is being served. *)
Definition busy_acc : acceptor := Eval vm_compute in
  match arun true true (acceptor_start 8)
          [AeArrive (sa 1); AeTcp None; AeSelect true true; AeTask; AeTask; AeArrive (sa 2); AeUdp (Ok (sa 3)); AeTcp None; AeTask] with
  | Some s => s | None => acceptor_start 0 end.
Example C76_complete_run : forall parse_ip host srv,
  resolvable parse_ip host RmIpv4 srv (ResCrypt true true true) ->
  waiting_tcp busy_acc = [sa 2] /\ waiting_udp busy_acc = [sa 3] /\ ac_live busy_acc = [0]
  /\ exists m s', busy_steps hmac_sha3_256 sample_conf sample_conf (ChainName INet (lit "filter") (lit "LETMEIN")) true
      (SockAddr sample_peer 40000 0 0) m
      (Busy busy_acc (run_knock hmac_sha3_256 parse_ip client_conf host
                      (KnockServer (addr_mode_of true false) None true false) 53 None srv (ResCrypt true true true))
            None [] [] sample_daemon [] [] []) s'
    /\ clock_monotone (bu_hist s')
    /\ busy_finished sample_conf (ChainName INet (lit "filter") (lit "LETMEIN")) [] (SockAddr sample_peer 40000 0 0)
                (ResPort 53 false true [10; 11]) s'.
Proof.
  intros parse_ip host srv HOST. do 3 (split; [reflexivity|]).
  eapply (C76_tcp_knock_succeeds_among_others_from_files hmac_sha3_256 parse_ip no_fraction _ _ client_conf _ _ sample_conf
            sample_conf (ChainName INet (lit "filter") (lit "LETMEIN")) host true srv (ResCrypt true true true)
            None 11 53 _ (SockAddr sample_peer 40000 0 0) None true false true 8
            [AeArrive (sa 1); AeTcp None; AeSelect true true; AeTask; AeTask; AeArrive (sa 2); AeUdp (Ok (sa 3)); AeTcp None; AeTask]
            busy_acc sample_daemon []).
  - exact hmac_ok.
  - exact C54_client_started.
  - exact C54_server_started.
  - exact C54_server_started.
  - exact C54_files_agree.
  - right. split; [reflexivity|].
    destruct (started_configures _ _ _ _ _ C54_client_started) as [CF V]. exact (cf_client _ _ _ CF V).
  - exact HOST.
  - left. reflexivity.
  - reflexivity.
  - repeat constructor.
  - lia.
  - intros [X|[]]. discriminate X.
  - split; exists 192; split; try discriminate; simpl; auto.
  - split; [reflexivity|]. apply bytes_ok_spec. vm_compute. reflexivity.
  - exists sample_peer. split; [|exact Logic.I]. right. split; [reflexivity|]. intros; discriminate.
  - eapply hist_start with (k := sample_kernel) (exe_ok := true) (ok := true); [|vm_compute; reflexivity].
    unfold configured_chain. repeat split; try reflexivity; discriminate.
  - reflexivity.
  - vm_compute. reflexivity.
  - constructor.
  - intros p x q y r t u E. destruct p; discriminate.
Qed.
