(** Property C77: a legitimate knock over UDP succeeds while letmeind serves others
    over both transports, if the others keep to the limits of the dispatcher. *)

From Coq Require Import String ZArith NArith List Bool Permutation Lia ZifyBool ZifyNat ZifyN.
From Verif Require Import M_Base M_Proto M_IpAddr M_FwProto M_ConfTypes M_Server M_Client M_Firewall M_Udp M_Text M_Conf M_Sha3 M_Accept
  S_Wire S_Session S_Client S_Pair S_Text S_Conf S_System S_Whole S_E2e S_Accept S_Dgram S_Crowd
  P_Base P_Sha3 P_Load P_Session P_Client P_Pair P_FwdProps P_E2e P_Files P_Whole P_Udp P_Both P_Bytes P_Dgram P_Accept P_Busy P_Crowd
  Prop_Conf Prop_Pair Prop_Whole Prop_E2e Prop_Dgram S_Files S_Firewall.
Import ListNotations.
Local Open Scope N_scope.

Lemma knock_steps_app : forall a b, knock_steps (a ++ b) = (knock_steps a + knock_steps b)%nat.
Proof. intros a b. unfold knock_steps. rewrite filter_app, app_length. reflexivity. Qed.

Lemma knock_steps_quiet : forall w, quiet w -> knock_steps w = 0%nat /\ ~ In Others w.
Proof. intros w Q. induction Q as [|a w <- Q (A & B)]; [split; auto|]. split; [exact A|]. intros [X|X]; [discriminate|auto]. Qed.

(** *** C77 *)

(** Client, letmeind and letmeinfwd agree about the knock (the hypotheses of C54)
    and the client uses UDP.  letmeind has been started with [num] permits, and
    since then others connect by TCP, send datagrams, have sessions and end them as
    they like, as long as their datagrams are not too short, at most four of a peer
    are unread and one of [num] connections is left free.  Then in every state that
    can be reached, in any order of all steps: this knock has taken at most 19
    steps; and whatever the order in which the map of connections is walked from
    now on, letmeind, the client and letmeinfwd alone, without anything that others
    do, can bring it to its successful end. *)
Theorem C77_udp_knock_succeeds_among_others :
  forall mac parse_ip cc sc fc c host (ipv4 : bool) srv crypt user key res_id port rs here kport tcp udp has_tcp num d0 h0 w s order,
  (forall x y, length (mac x y) = 32%nat /\ all_bytes (mac x y)) ->
  agree cc sc host parse_ip (if ipv4 then RmIpv4 else RmIpv6) srv crypt user key res_id port rs ->
  knocks_by_udp cc tcp udp -> 1 <= num ->
  plausible_address (sa_ip here) -> ip_address (sa_ip here) -> permitted_port fc port -> port < 2 ^ 16 ->
  family_fits c (sa_ip here) ->
  history fc c d0 h0 -> d_phase d0 = PhRun -> has_chain (d_kernel d0) c = true ->
  crowd_run mac sc fc c has_tcp num here any_order w
    (crowd_start num
       (run_knock mac parse_ip cc host (KnockServer (addr_mode_of ipv4 (negb ipv4)) kport tcp udp) port (Some user) srv crypt)
       d0 h0) s ->
  clock_monotone (cw_hist s) -> any_order order ->
  (knock_steps w <= 19)%nat
  /\ exists w' s', crowd_run mac sc fc c has_tcp num here (eq order) w' s s' /\ ~ In Others w'
       /\ clock_monotone (cw_hist s') /\ crowd_finished fc c h0 here rs s'.
Proof.
  intros mac parse_ip cc sc fc c host ipv4 srv crypt user key res_id port rs here kport tcp udp has_tcp num d0 h0 w s order
    MS AG BU NUM PL IA PP PB FF H PH HC R MONO AO.
  set (cl := run_knock mac parse_ip cc host (KnockServer (addr_mode_of ipv4 (negb ipv4)) kport tcp udp) port (Some user) srv crypt) in *.
  set (f0 := Full (Pair cl (server_run mac sc (sa_ip here)) [] [] []) d0 h0 [] []).
  pose proof (csim_start mac sc has_tcp num here NUM cl d0 h0 (knock_by_udp _ _ _ _ _ _ _ _ _ _ _ _ BU)) as S0. fold f0 in S0.
  assert (NAR : forall m f, full_steps fc c m f0 f -> narrow (fu_pair f)).
  { intros m f RF. destruct (sim_run mac parse_ip cc sc fc c host ipv4 srv crypt user key res_id port rs (sa_ip here) kport tcp udp
      MS AG PL IA PP PB FF d0 h0 H PH HC m f RF) as (_ & _ & _ & n' & j & RP & _).
    destruct (legit_knock_narrow mac parse_ip cc sc host ipv4 srv crypt user key res_id port rs (sa_ip here) kport tcp udp n' _ MS AG RP)
      as ((_ & X) & _). exact X. }
  assert (SIM : forall w s, crowd_run mac sc fc c has_tcp num here any_order w (crowd_start num cl d0 h0) s ->
    exists f, full_steps fc c (knock_steps w) f0 f /\ csim mac sc has_tcp num here s f).
  { clear w s R MONO. intros w s R. remember (crowd_start num cl d0 h0) as s0 eqn:E0.
    induction R as [s|w a s s1 s2 R IH ST].
    - subst s. exists f0. split; [constructor|exact S0].
    - destruct (IH E0 S0) as (f & RF & S). rewrite knock_steps_app.
      pose proof (csim_step mac sc fc c has_tcp num here any_order NUM (fun o X => X) _ _ _ ST f S (NAR _ _ RF)) as X.
      destruct a.
      + destruct X as (f' & ST' & S'). exists f'. split; [econstructor; [exact RF|exact ST']|exact S'].
      + exists f. cbn. rewrite Nat.add_0_r. split; assumption.
      + destruct X as (f' & ST' & S'). exists f'. cbn. split; [eapply steps_more; [exact RF|exact ST']|exact S']. }
  assert (G : forall w s, crowd_run mac sc fc c has_tcp num here any_order w (crowd_start num cl d0 h0) s -> clock_monotone (cw_hist s) ->
    (knock_steps w <= 19)%nat
    /\ (crowd_finished fc c h0 here rs s
        \/ exists w1 s', quiet w1 /\ crowd_run mac sc fc c has_tcp num here (eq order) (w1 ++ [Knock]) s s' /\ clock_monotone (cw_hist s'))).
  { clear w s R MONO. intros w s R MONO. destruct (SIM w s R) as (f & RF & S).
    assert (EH : fu_hist f = cw_hist s) by (inversion S; reflexivity).
    destruct (e2e _ _ _ _ _ _ _ _ _ _ _ _ _ _ _ _ _ _ _ MS AG PL IA PP PB FF d0 h0 H PH HC _ f RF) as (B & Q);
      [rewrite EH; exact MONO|].
    split; [exact B|]. destruct Q as [(QC & QV & QP)|(f' & ST & MONO')].
    - left. inversion S as [acc u buf cl1 se up dn d h rq rp op BU1 K ZU E1 E2]. subst s f. cbn in QC, QV. subst cl1.
      destruct se as [[[n j] p]|]; cbn in QV; [|unfold server_run, recv_msg in QV; discriminate]. subst p.
      split; [reflexivity|]. split; [|exact QP]. destruct (ck_where _ _ _ _ _ _ _ K) as (A & _ & x & B' & _).
      exists n, j, x. auto.
    - right. destruct (csim_go mac sc fc c has_tcp num here (eq order) NUM ltac:(intros o <-; exact AO) order eq_refl _ _ _ S (NAR _ _ RF) ST)
        as (w1 & s' & Q & R' & E). exists w1, s'. split; [exact Q|]. split; [exact R'|]. destruct E as [E|E]; rewrite E; assumption. }
  split; [apply (G w s R MONO)|].
  assert (E : exists k, (knock_steps w + k = 20)%nat) by (exists (20 - knock_steps w)%nat; destruct (G w s R MONO); lia).
  destruct E as (k & E). revert w s R MONO E. induction k as [|k IH]; intros w s R MONO E; destruct (G w s R MONO) as (B & Q); [lia|].
  destruct Q as [Q|(w1 & s1 & Q1 & R1 & MONO1)].
  - exists [], s. split; [constructor|]. split; [intros []|split; [exact MONO|exact Q]].
  - destruct (knock_steps_quiet w1 Q1) as (K0 & NI).
    assert (R1' : crowd_run mac sc fc c has_tcp num here any_order (w1 ++ [Knock]) s s1).
    { eapply run_weaken; [|exact R1]. intros o <-. exact AO. }
    pose proof (run_more mac sc fc c has_tcp num here any_order _ _ _ R _ _ R1') as R2.
    destruct (IH _ s1 R2 MONO1) as (w2 & s2 & RR & NI2 & F).
    { rewrite !knock_steps_app. cbn. lia. }
    exists ((w1 ++ [Knock]) ++ w2), s2. split; [eapply run_more; eassumption|]. split; [|exact F].
    intros I. apply in_app_or in I. destruct I as [I|I]; [|auto]. apply in_app_or in I. destruct I as [I|[I|[]]]; [auto|discriminate].
Qed.
Print Assumptions C77_udp_knock_succeeds_among_others.

(** The same in terms of the configuration files. *)
Theorem C77_udp_knock_succeeds_among_others_from_files :
  forall mac parse_ip fraction cfile cls cc sfile sls sc fc c host (ipv4 : bool) srv crypt given user port rs here
         kport tcp udp has_tcp num d0 h0 w s order,
  (forall x y, length (mac x y) = 32%nat /\ all_bytes (mac x y)) ->
  started_from fraction VarClient cfile cls cc ->
  started_from fraction VarServer sfile sls sc -> started_from fraction VarServer sfile sls fc ->
  files_agree cls sls user port rs -> user_of_command cls given user ->
  resolvable parse_ip host (if ipv4 then RmIpv4 else RmIpv6) srv crypt ->
  knocks_by_udp cc tcp udp -> 1 <= num ->
  plausible_address (sa_ip here) -> ip_address (sa_ip here) -> family_fits c (sa_ip here) ->
  history fc c d0 h0 -> d_phase d0 = PhRun -> has_chain (d_kernel d0) c = true ->
  crowd_run mac sc fc c has_tcp num here any_order w
    (crowd_start num
       (run_knock mac parse_ip cc host (KnockServer (addr_mode_of ipv4 (negb ipv4)) kport tcp udp) port given srv crypt)
       d0 h0) s ->
  clock_monotone (cw_hist s) -> any_order order ->
  (knock_steps w <= 19)%nat
  /\ exists w' s', crowd_run mac sc fc c has_tcp num here (eq order) w' s s' /\ ~ In Others w'
       /\ clock_monotone (cw_hist s') /\ crowd_finished fc c h0 here rs s'.
Proof.
  intros mac parse_ip fraction cfile cls cc sfile sls sc fc c host ipv4 srv crypt given user port rs here
    kport tcp udp has_tcp num d0 h0 w s order MS CL SL FL FA UC HOST BU NUM PL IA FF H PH HC R MONO AO.
  destruct (files_to_agree _ _ _ _ _ _ _ _ _ _ _ _ _ _ _ CL SL FA HOST) as (key & id & AG).
  pose proof (files_permit _ _ _ _ _ _ _ _ FL FA) as PP.
  assert (port < 2 ^ 16) as PB.
  { destruct FA as [_ (j & crs & _ & _ & _ & (o & t & _ & _ & RT) & <- & _) _]. eapply resource_text_sane. exact RT. }
  assert (run_knock mac parse_ip cc host (KnockServer (addr_mode_of ipv4 (negb ipv4)) kport tcp udp) port given srv crypt
          = run_knock mac parse_ip cc host (KnockServer (addr_mode_of ipv4 (negb ipv4)) kport tcp udp) port (Some user) srv crypt)
    as EU.
  { destruct UC as [-> | [-> D]]; [reflexivity|]. unfold run_knock. rewrite (default_user_of _ _ _ _ _ CL D). reflexivity. }
  rewrite EU in R. eapply C77_udp_knock_succeeds_among_others; eassumption.
Qed.
Print Assumptions C77_udp_knock_succeeds_among_others_from_files.

(** The sample client knocks at a letmeind with two permits.  Another peer has sent
    two datagrams: a session was started for it and has received the first one, the
    second one is still in the socket.  A TCP connection waits, too. *)
Definition other_peer : sockaddr := SockAddr (V4 [10; 0; 0; 1]) 1000 0 0.
Definition junk : list N := repeat 0 MSG_SIZE.
Definition crowd_before (cl : cprog) (d : daemon) : crowd :=
  Crowd (Acceptor [other_peer] JnWait JnWait HpDrop 1 [Conn false other_peer] [0] [] None)
        (UdpSys (M_Udp.Udp [(other_peer, UConn [] true)] 0) [(other_peer, false)] false)
        [(junk, other_peer)] cl None [] [] d [] [] [].
Lemma crowd_before_reached : forall mac sc conf c cl d, exists w,
  crowd_run mac sc conf c true 2 (SockAddr sample_peer 40000 0 0) any_order w (crowd_start 2 cl d []) (crowd_before cl d).
Proof.
  intros mac sc conf c cl d.
  assert (ROOM : forall u buf, (forall q, in_use u buf q -> q = other_peer) -> (unread u buf other_peer < 4)%nat ->
    room 2 (SockAddr sample_peer 40000 0 0) u buf junk other_peer).
  { intros u buf U L. split; [discriminate|]. split; [vm_compute; lia|]. split; [exact L|].
    intros l ND I. assert (LE : (length l <= length [other_peer])%nat).
    { apply (NoDup_incl_length ND). intros q Q. destruct (I q Q) as (_ & [->|X]); [left; reflexivity|left; symmetry; auto]. }
    cbn in LE. lia. }
  assert (USE : forall u buf q, (forall j p, nth_error (us_sess u) j = Some (p, false) -> p = other_peer) ->
    (forall p, conn_get (u_conn (us_udp u)) p <> None -> p = other_peer) ->
    Forall (fun x => snd x = other_peer) buf -> in_use u buf q -> q = other_peer).
  { intros u buf q A B F [(j & E)|X]; [eapply A; exact E|]. unfold unread in X.
    destruct (conn_get (u_conn (us_udp u)) q) as [x|] eqn:G; [apply B; congruence|]. cbn in X.
    assert (IN : exists y, In y (filter (fun x => sa_eqb (snd x) q) buf)) by (destruct (filter _ buf) as [|y]; [cbn in X; congruence|exists y; left; reflexivity]).
    destruct IN as (y & IN). apply filter_In in IN. destruct IN as (I & E). apply sa_eqb_spec in E. rewrite Forall_forall in F. rewrite <- E. auto. }
  set (u1 := UdpSys (M_Udp.Udp [(other_peer, UConn [junk] true)] 1) [(other_peer, false)] false).
  set (u2 := UdpSys (M_Udp.Udp [(other_peer, UConn [] true)] 0) [(other_peer, false)] false).
  set (st := fun acc u buf => Crowd acc u buf cl None [] [] d [] [] []).
  assert (S1 : crowd_step mac sc conf c true 2 (SockAddr sample_peer 40000 0 0) any_order Others
                 (crowd_start 2 cl d []) (st (acceptor_start 2) (udp_start []) [(junk, other_peer)])).
  { apply (cs_datagram mac sc conf c true 2 _ any_order (acceptor_start 2) (udp_start []) []). apply ROOM; [|cbn; lia].
    intros q. apply USE; [intros [|j] p E; discriminate E|cbn; congruence|constructor]. }
  assert (S2 : crowd_step mac sc conf c true 2 (SockAddr sample_peer 40000 0 0) any_order Letmeind
                 (st (acceptor_start 2) (udp_start []) [(junk, other_peer)])
                 (st (Acceptor [] JnWait (JnDone (Ok other_peer)) HpAccept 2 [] [] [] None) u1 [])).
  { apply (cs_pass mac sc conf c true 2 _ any_order _ _ _ _ _ _ _ _ _ _ _ (RdDatagram junk other_peer) [] (fun l => l) u1 (UrAccepted other_peer));
      [reflexivity|constructor|intros l; apply Permutation_refl|vm_compute; reflexivity|reflexivity]. }
  assert (TASK : forall acc ev acc', own_step ev -> astep true true acc ev = Some acc' ->
    (forall a, ac_pc acc = HpHold (Conn false a) -> a = other_peer) ->
    crowd_step mac sc conf c true 2 (SockAddr sample_peer 40000 0 0) any_order Letmeind (st acc u1 []) (st acc' u1 [])).
  { intros acc ev acc' O E A. unfold st.
    assert (EN : new_udp_session mac sc (SockAddr sample_peer 40000 0 0) acc ev None = None).
    { unfold new_udp_session. destruct (ac_pc acc) as [| |[[|] a]| |]; try reflexivity. destruct ev; try reflexivity.
      rewrite (A a eq_refl). reflexivity. }
    rewrite <- EN at 2. apply cs_task; assumption. }
  assert (S3 := TASK (Acceptor [] JnWait (JnDone (Ok other_peer)) HpAccept 2 [] [] [] None) (AeSelect false true)
                     (Acceptor [] JnWait JnWait (HpAcquire (Conn false other_peer)) 2 [] [] [] None) Logic.I eq_refl ltac:(discriminate)).
  assert (S4 := TASK (Acceptor [] JnWait JnWait (HpAcquire (Conn false other_peer)) 2 [] [] [] None) AeTask
                     (Acceptor [] JnWait JnWait (HpHold (Conn false other_peer)) 1 [] [] [] None) Logic.I eq_refl ltac:(discriminate)).
  assert (S5 := TASK (Acceptor [] JnWait JnWait (HpHold (Conn false other_peer)) 1 [] [] [] None) AeTask
                     (Acceptor [] JnWait JnWait HpDrop 1 [Conn false other_peer] [0] [] None) Logic.I eq_refl ltac:(intros a [= ->]; reflexivity)).
  assert (S6 : crowd_step mac sc conf c true 2 (SockAddr sample_peer 40000 0 0) any_order Others
                 (st (Acceptor [] JnWait JnWait HpDrop 1 [Conn false other_peer] [0] [] None) u1 [])
                 (st (Acceptor [] JnWait JnWait HpDrop 1 [Conn false other_peer] [0] [] None) u2 [])).
  { apply (cs_other_recv mac sc conf c true 2 _ any_order _ u1 [] _ _ _ _ _ _ _ _ 0%nat other_peer RdWouldBlock [] u2 (UrDatagram junk));
      [reflexivity|discriminate|constructor|vm_compute; reflexivity]. }
  assert (S7 : crowd_step mac sc conf c true 2 (SockAddr sample_peer 40000 0 0) any_order Others
                 (st (Acceptor [] JnWait JnWait HpDrop 1 [Conn false other_peer] [0] [] None) u2 [])
                 (st (Acceptor [] JnWait JnWait HpDrop 1 [Conn false other_peer] [0] [] None) u2 [(junk, other_peer)])).
  { apply (cs_datagram mac sc conf c true 2 _ any_order _ u2 []). apply ROOM; [|vm_compute; lia].
    intros q. apply USE; [| |constructor].
    - intros [|[|j]] p E; try discriminate E. injection E as <-. reflexivity.
    - intros p. cbn [u2 us_udp u_conn conn_get]. destruct (sa_eqb other_peer p) eqn:E; [|congruence]. apply sa_eqb_spec in E. auto. }
  assert (S8 : crowd_step mac sc conf c true 2 (SockAddr sample_peer 40000 0 0) any_order Others
                 (st (Acceptor [] JnWait JnWait HpDrop 1 [Conn false other_peer] [0] [] None) u2 [(junk, other_peer)])
                 (crowd_before cl d)).
  { apply (cs_connection mac sc conf c true 2 _ any_order _ u2 _ _ _ _ _ _ _ _ _ (AeArrive other_peer)); [exact Logic.I|reflexivity]. }
  exists ((((((((([] ++ [Others]) ++ [Letmeind]) ++ [Letmeind]) ++ [Letmeind]) ++ [Letmeind]) ++ [Others]) ++ [Others]) ++ [Others])).
  eapply cr_S; [|exact S8]. eapply cr_S; [|exact S7]. eapply cr_S; [|exact S6]. eapply cr_S; [|exact S5]. eapply cr_S; [|exact S4].
  eapply cr_S; [|exact S3]. eapply cr_S; [|exact S2]. eapply cr_S; [|exact S1]. apply cr_0.
Qed.
Example C77_complete_run : forall parse_ip host srv,
  resolvable parse_ip host RmIpv4 srv (ResCrypt true true true) ->
  exists w' s', crowd_run hmac_sha3_256 sample_conf sample_conf (ChainName INet (lit "filter") (lit "LETMEIN")) true 2
      (SockAddr sample_peer 40000 0 0) (eq (@rev _)) w' (crowd_before (run_knock hmac_sha3_256 parse_ip client_conf host
                      (KnockServer (addr_mode_of true false) None false true) 53 None srv (ResCrypt true true true)) sample_daemon) s'
    /\ ~ In Others w'
    /\ clock_monotone (cw_hist s')
    /\ crowd_finished sample_conf (ChainName INet (lit "filter") (lit "LETMEIN")) [] (SockAddr sample_peer 40000 0 0)
                (ResPort 53 false true [10; 11]) s'.
Proof.
  intros parse_ip host srv HOST.
  destruct (crowd_before_reached hmac_sha3_256 sample_conf sample_conf (ChainName INet (lit "filter") (lit "LETMEIN"))
              (run_knock hmac_sha3_256 parse_ip client_conf host
                      (KnockServer (addr_mode_of true false) None false true) 53 None srv (ResCrypt true true true)) sample_daemon) as (w & R).
  eapply (C77_udp_knock_succeeds_among_others_from_files hmac_sha3_256 parse_ip no_fraction _ _ client_conf _ _ sample_conf
            sample_conf (ChainName INet (lit "filter") (lit "LETMEIN")) host true srv (ResCrypt true true true)
            None 11 53 _ (SockAddr sample_peer 40000 0 0) None false true true 2 sample_daemon [] w _ (@rev _)).
  - exact hmac_ok.
  - exact C54_client_started.
  - exact C54_server_started.
  - exact C54_server_started.
  - exact C54_files_agree.
  - right. split; [reflexivity|].
    destruct (started_configures _ _ _ _ _ C54_client_started) as [CF V]. exact (cf_client _ _ _ CF V).
  - exact HOST.
  - split; [reflexivity|left; reflexivity].
  - lia.
  - split; exists 192; split; try discriminate; simpl; auto.
  - split; [reflexivity|]. apply bytes_ok_spec. vm_compute. reflexivity.
  - exists sample_peer. split; [|exact Logic.I]. right. split; [reflexivity|]. intros; discriminate.
  - eapply hist_start with (k := sample_kernel) (exe_ok := true) (ok := true); [|vm_compute; reflexivity].
    unfold configured_chain. repeat split; try reflexivity; discriminate.
  - reflexivity.
  - vm_compute. reflexivity.
  - exact R.
  - intros p x q y r t u E. destruct p; discriminate.
  - intros l. symmetry. apply Permutation_rev.
Qed.
