(** Property C72: a legitimate knock over UDP succeeds, whatever the order in which
    the tasks of the dispatchers run, while nobody else knocks over UDP. *)

From Coq Require Import String ZArith NArith List Bool Lia.
From Verif Require Import M_Base M_Proto M_IpAddr M_FwProto M_ConfTypes M_Server M_Client M_Firewall M_Udp M_Wake M_Text M_Conf M_Sha3
  S_Wire S_Session S_Client S_Pair S_Text S_Conf S_System S_Whole S_E2e S_Wake S_Dgram
  P_Base P_Sha3 P_Load P_Session P_Client P_Pair P_FwdProps P_E2e P_Files P_Whole P_Both P_Bytes P_Dgram
  Prop_Conf Prop_Pair Prop_Whole Prop_E2e Prop_Wake S_Files S_Firewall.
Import ListNotations.
Local Open Scope N_scope.

(** *** Such a client connects by UDP *)

Lemma talks_by_udp : forall p, talks p -> by_udp p.
Proof. intros p T. induction T; constructor; auto. Qed.

Lemma ask_by_udp : forall e s m k n, (forall r, by_udp (k r)) -> by_udp n -> by_udp (ask e s m k n).
Proof. intros e s m k n K X. unfold ask. destruct e; [|exact X]. constructor. intros [l|]; [apply K|exact X]. Qed.

Lemma sequence_by_udp : forall mac parse_ip q mode, cp_tcp (kq_port q) = false -> by_udp (knock_sequence mac parse_ip q mode).
Proof.
  intros mac parse_ip q mode E. unfold knock_sequence, client_new.
  match goal with |- by_udp (resolve _ _ _ ?k) => assert (K : forall r, by_udp (k r)); [|revert K; generalize k; intros kk K] end.
  { intros [a|e|]; [|constructor..]. rewrite E. destruct (negb (cp_udp (kq_port q))); [constructor|].
    constructor. intros [|]; [|constructor]. apply talks_by_udp, (talks_body mac q). }
  unfold resolve. destruct (parse_ip (kq_addr q)) as [a|].
  - cbn [rc_mode]. destruct mode; [destruct (negb (is_ipv6 a))|destruct (negb (is_ipv4 a))]; apply K.
  - cbv zeta. repeat (apply ask_by_udp; [exact K|]). apply K.
Qed.

Lemma knock_by_udp : forall mac parse_ip cc host (ipv4 : bool) kport tcp udp port user srv crypt,
  knocks_by_udp cc tcp udp ->
  by_udp (run_knock mac parse_ip cc host (KnockServer (addr_mode_of ipv4 (negb ipv4)) kport tcp udp) port user srv crypt).
Proof.
  intros mac parse_ip cc host ipv4 kport tcp udp port user srv crypt (-> & U). unfold run_knock.
  destruct (conf_key _ _); [|constructor]. destruct (resource_id_by_port _ _ _); [|constructor].
  assert (E : cp_tcp (M_Client.to_control_port (KnockServer (addr_mode_of ipv4 (negb ipv4)) kport false udp) cc) = false).
  { unfold M_Client.to_control_port. destruct kport, udp, (c_port cc) as [cp t u]; cbn in *; destruct U as [U|U]; try discriminate U; subst; reflexivity. }
  destruct ipv4; apply sequence_by_udp; exact E.
Qed.

(** *** C72 *)

(** Client, letmeind and letmeinfwd agree about the knock (the hypotheses of C54),
    the client uses UDP, and letmeind, which may have served any number of
    connections before, has no other UDP connection now.  Then in every state that
    they can reach, in any order of the steps of all tasks, with any wake-ups and
    anything undisturbing that others do to the firewall in between: they have taken
    at most 642 steps; the knock is successfully over and letmeind is as idle as
    before, or someone can go on; and it can be brought to that end. *)
Theorem C72_udp_knock_succeeds :
  forall mac parse_ip cc sc fc c host (ipv4 : bool) srv crypt user key res_id port rs here there kport tcp udp max i sd0 d0 h0 n s,
  (forall x y, length (mac x y) = 32%nat /\ all_bytes (mac x y)) ->
  agree cc sc host parse_ip (if ipv4 then RmIpv4 else RmIpv6) srv crypt user key res_id port rs ->
  knocks_by_udp cc tcp udp -> 1 <= max -> idle_disp sd0 i ->
  plausible_address (sa_ip here) -> ip_address (sa_ip here) -> permitted_port fc port -> port < 2 ^ 16 ->
  family_fits c (sa_ip here) ->
  history fc c d0 h0 -> d_phase d0 = PhRun -> has_chain (d_kernel d0) c = true ->
  dgram_steps mac sc fc c max here there i n
    (dgrams_start
       (run_knock mac parse_ip cc host (KnockServer (addr_mode_of ipv4 (negb ipv4)) kport tcp udp) port (Some user) srv crypt)
       there sd0 d0 h0) s ->
  clock_monotone (dg_hist s) ->
  (n <= 642)%nat
  /\ (dgrams_finished fc c h0 here rs sd0 i s
      \/ exists s', dgram_step mac sc fc c max here there i 1 s s' /\ clock_monotone (dg_hist s'))
  /\ exists m s', dgram_steps mac sc fc c max here there i m s s' /\ clock_monotone (dg_hist s') /\ dgrams_finished fc c h0 here rs sd0 i s'.
Proof.
  intros mac parse_ip cc sc fc c host ipv4 srv crypt user key res_id port rs here there kport tcp udp max i sd0 d0 h0 n s
    MS AG BU MAX QU PL IA PP PB FF H PH HC R MONO.
  set (cl := run_knock mac parse_ip cc host (KnockServer (addr_mode_of ipv4 (negb ipv4)) kport tcp udp) port (Some user) srv crypt) in *.
  destruct QU as (QD & QT & QS & QL & QB & QR & QK).
  set (os := us_sess (wk_sys sd0)) in *.
  set (f0 := Full (Pair cl (server_run mac sc (sa_ip here)) [] [] []) d0 h0 [] []).
  assert (S0 : exists w0, dsim mac sc here there i os (dgrams_start cl there sd0 d0 h0) f0 w0 /\ (w0 <= 15)%nat).
  { destruct sd0 as [[u se de] buf rdy aw rw ap ph lk]. cbn in QD, QT, QB, QR, QK, os. subst.
    eexists. split.
    - eapply (Dsim mac sc here there (length os) os cl (client_disp there) None _ d0 h0 [] [] [] [] [] [] [] 2%nat _ _).
      + apply knock_by_udp. exact BU.
      + apply (Cst there cl [] ApIdle false false false RpIdle []); auto.
      + apply (Sa here (length os) os rdy aw rw ap []); [intros X; contradiction|reflexivity].
      + constructor.
      + constructor.
      + reflexivity.
    - cbn. destruct rdy, aw, rw, ap; cbn; lia. }
  destruct S0 as (w0 & S0 & W0).
  (* what the simulation says about every reachable state *)
  assert (SIM : forall n s, dgram_steps mac sc fc c max here there i n (dgrams_start cl there sd0 d0 h0) s ->
    exists m f w, full_steps fc c m f0 f /\ dsim mac sc here there i os s f w /\ narrow (fu_pair f) /\ (n + w <= w0 + 33 * m)%nat).
  { assert (NAR : forall m f, full_steps fc c m f0 f -> narrow (fu_pair f)).
    { intros m f RF. destruct (sim_run mac parse_ip cc sc fc c host ipv4 srv crypt user key res_id port rs (sa_ip here) kport tcp udp
        MS AG PL IA PP PB FF d0 h0 H PH HC m f RF) as (_ & _ & _ & n' & j & RP & _).
      destruct (legit_knock_narrow mac parse_ip cc sc host ipv4 srv crypt user key res_id port rs (sa_ip here) kport tcp udp n' _ MS AG RP)
        as ((_ & X) & _). exact X. }
    clear n s R MONO. intros n s R. remember (dgrams_start cl there sd0 d0 h0) as s0 eqn:E0.
    induction R as [s|n j s s1 s2 R IH ST].
    - subst s. exists 0%nat, f0, w0. split; [constructor|]. split; [exact S0|]. split; [apply (NAR 0%nat); constructor|lia].
    - destruct (IH E0 S0) as (m & f & w & RF & S & NA & L).
      destruct (dsim_step mac sc fc c max here there i os MAX QL _ _ _ ST _ _ S NA) as (k & f' & w' & RF' & S' & L').
      assert (RF2 : full_steps fc c (m + k) f0 f') by (eapply steps_more; eassumption).
      exists (m + k)%nat, f', w'. split; [exact RF2|]. split; [exact S'|]. split; [eapply NAR; exact RF2|lia]. }
  assert (G : forall n s, dgram_steps mac sc fc c max here there i n (dgrams_start cl there sd0 d0 h0) s -> clock_monotone (dg_hist s) ->
    (n <= 642)%nat /\ (dgrams_finished fc c h0 here rs sd0 i s
      \/ exists s', dgram_step mac sc fc c max here there i 1 s s' /\ clock_monotone (dg_hist s'))).
  { clear n s R MONO. intros n s R MONO. destruct (SIM n s R) as (m & f & w & RF & S & NA & L).
    assert (EH : fu_hist f = dg_hist s) by (inversion S; reflexivity).
    destruct (e2e _ _ _ _ _ _ _ _ _ _ _ _ _ _ _ _ _ _ _ MS AG PL IA PP PB FF d0 h0 H PH HC m f RF) as (B & Q);
      [rewrite EH; exact MONO|].
    split; [lia|]. destruct Q as [(QC & QV & QP)|(f' & ST & MONO')].
    - inversion S as [cl' cd p sd d h rq rp up dn op cm sm wc ws w1 BU' C D ZU ZD EW E1 E2 E3]. subst s f w1. clear S.
      cbn in QC, QV. destruct NA as (_ & NE). cbn in NE. specialize (NE _ QV). apply app_eq_nil in NE. destruct NE as (-> & ->).
      subst cl'. assert (p = Some (SRet (Ok tt))) as -> by (apply (in_session_some mac sc here p); [symmetry; exact QV|discriminate]).
      destruct (s_go_close mac sc max here i os MAX QL _ _ _ QS D) as [(sd' & r & E & NR)|(QQ & ES)].
      + right. eexists. split; [eapply ds_close; eassumption|exact MONO].
      + left. split; [reflexivity|]. split; [reflexivity|]. split; [exact QP|]. split; [exact QQ|exact ES].
    - right. destruct (dsim_go mac sc fc c max here there i os MAX QL s f w f' S NA ST) as (s' & ST' & [E|E]); exists s'; rewrite E; auto. }
  destruct (G n s R MONO) as (B & Q). split; [exact B|]. split; [exact Q|]. clear Q.
  assert (E : exists k, (n + k = 643)%nat) by (exists (643 - n)%nat; lia). destruct E as (k & E). clear B.
  revert n s R MONO E. induction k as [|k IH]; intros n s R MONO E; destruct (G n s R MONO) as (B & Q).
  - lia.
  - destruct Q as [Q|(s1 & ST & MONO')].
    + exists 0%nat, s. split; [constructor|]. split; [exact MONO|exact Q].
    + destruct (IH (n + 1)%nat s1 (dss_S _ _ _ _ _ _ _ _ _ _ _ _ _ R ST) MONO') as (m & s' & R' & F); [lia|].
      exists (1 + m)%nat, s'. split; [|exact F]. clear - ST R'.
      induction R' as [s1|m j s1 s2 s3 R' IH ST2].
      * change (1 + 0)%nat with (0 + 1)%nat. econstructor; [constructor|exact ST].
      * replace (1 + (m + j))%nat with (1 + m + j)%nat by lia. econstructor; [apply IH; exact ST|exact ST2].
Qed.
Print Assumptions C72_udp_knock_succeeds.

(** The same in terms of the configuration files. *)
Theorem C72_udp_knock_succeeds_from_files :
  forall mac parse_ip fraction cfile cls cc sfile sls sc fc c host (ipv4 : bool) srv crypt given user port rs here there
         kport tcp udp max i sd0 d0 h0 n s,
  (forall x y, length (mac x y) = 32%nat /\ all_bytes (mac x y)) ->
  started_from fraction VarClient cfile cls cc ->
  started_from fraction VarServer sfile sls sc -> started_from fraction VarServer sfile sls fc ->
  files_agree cls sls user port rs -> user_of_command cls given user ->
  resolvable parse_ip host (if ipv4 then RmIpv4 else RmIpv6) srv crypt ->
  knocks_by_udp cc tcp udp -> 1 <= max -> idle_disp sd0 i ->
  plausible_address (sa_ip here) -> ip_address (sa_ip here) -> family_fits c (sa_ip here) ->
  history fc c d0 h0 -> d_phase d0 = PhRun -> has_chain (d_kernel d0) c = true ->
  dgram_steps mac sc fc c max here there i n
    (dgrams_start
       (run_knock mac parse_ip cc host (KnockServer (addr_mode_of ipv4 (negb ipv4)) kport tcp udp) port given srv crypt)
       there sd0 d0 h0) s ->
  clock_monotone (dg_hist s) ->
  (n <= 642)%nat
  /\ (dgrams_finished fc c h0 here rs sd0 i s
      \/ exists s', dgram_step mac sc fc c max here there i 1 s s' /\ clock_monotone (dg_hist s'))
  /\ exists m s', dgram_steps mac sc fc c max here there i m s s' /\ clock_monotone (dg_hist s') /\ dgrams_finished fc c h0 here rs sd0 i s'.
Proof.
  intros mac parse_ip fraction cfile cls cc sfile sls sc fc c host ipv4 srv crypt given user port rs here there
    kport tcp udp max i sd0 d0 h0 n s MS CL SL FL FA UC HOST BU MAX QU PL IA FF H PH HC R MONO.
  destruct (files_to_agree _ _ _ _ _ _ _ _ _ _ _ _ _ _ _ CL SL FA HOST) as (key & id & AG).
  pose proof (files_permit _ _ _ _ _ _ _ _ FL FA) as PP.
  assert (port < 2 ^ 16) as PB.
  { destruct FA as [_ (j & crs & _ & _ & _ & (o & t & _ & _ & RT) & <- & _) _]. eapply resource_text_sane. exact RT. }
  assert (run_knock mac parse_ip cc host (KnockServer (addr_mode_of ipv4 (negb ipv4)) kport tcp udp) port given srv crypt
          = run_knock mac parse_ip cc host (KnockServer (addr_mode_of ipv4 (negb ipv4)) kport tcp udp) port (Some user) srv crypt)
    as EU.
  { destruct UC as [-> | [-> D]]; [reflexivity|]. unfold run_knock. rewrite (default_user_of _ _ _ _ _ CL D). reflexivity. }
  rewrite EU in R. eapply C72_udp_knock_succeeds; eassumption.
Qed.
Print Assumptions C72_udp_knock_succeeds_from_files.

(** letmeind is idle when it starts, and again after it has served a connection;
    a wake-up and the readiness of the earlier traffic are still pending then. *)
Example C72_idle : idle_disp wake_start 0
  /\ exists h s, wake_run 8 wake_start h s /\ idle_disp s 1 /\ wk_aw s = true /\ wk_rdy s = true /\ wk_accept s = ApIdle.
Proof.
  split; [repeat split; intros x []|].
  set (evs := [from 1; accept false; WvCall 0; WvRecv 0 true; WvCall 0; from 1; WvRecv 0 false; WvClose 0]).
  destruct (wrun 8 wake_start evs) as [[s h]|] eqn:E; [|vm_compute in E; discriminate E]. exists h, s.
  assert (R1 : wake_run 8 wake_start h s).
  { eapply (wrun_sound 8 evs wake_start [] wake_start); [constructor| |exact E]. repeat (constructor; [cbn; auto|]). constructor. }
  split; [exact R1|]. vm_compute in E. injection E as <- <-.
  repeat split. intros x [<-|[]]. reflexivity.
Qed.

(** The sample client knocks at the sample server over UDP. *)
Example C72_complete_run : forall parse_ip host srv there sd0 i,
  resolvable parse_ip host RmIpv4 srv (ResCrypt true true true) -> idle_disp sd0 i ->
  exists m s', dgram_steps hmac_sha3_256 sample_conf sample_conf (ChainName INet (lit "filter") (lit "LETMEIN")) 8
      (SockAddr sample_peer 40000 0 0) there i m
      (dgrams_start (run_knock hmac_sha3_256 parse_ip client_conf host
                      (KnockServer (addr_mode_of true false) None false true) 53 None srv (ResCrypt true true true))
                    there sd0 sample_daemon []) s'
    /\ clock_monotone (dg_hist s')
    /\ dgrams_finished sample_conf (ChainName INet (lit "filter") (lit "LETMEIN")) [] (SockAddr sample_peer 40000 0 0)
                (ResPort 53 false true [10; 11]) sd0 i s'.
Proof.
  intros parse_ip host srv there sd0 i HOST ID.
  eapply (C72_udp_knock_succeeds_from_files hmac_sha3_256 parse_ip no_fraction _ _ client_conf _ _ sample_conf
            sample_conf (ChainName INet (lit "filter") (lit "LETMEIN")) host true srv (ResCrypt true true true)
            None 11 53 _ (SockAddr sample_peer 40000 0 0) there None false true 8 i sd0 sample_daemon []).
  - exact hmac_ok.
  - exact C54_client_started.
  - exact C54_server_started.
  - exact C54_server_started.
  - exact C54_files_agree.
  - right. split; [reflexivity|].
    destruct (started_configures _ _ _ _ _ C54_client_started) as [CF V]. exact (cf_client _ _ _ CF V).
  - exact HOST.
  - split; [reflexivity|left; reflexivity].
  - lia.
  - exact ID.
  - split; exists 192; split; try discriminate; simpl; auto.
  - split; [reflexivity|]. apply bytes_ok_spec. vm_compute. reflexivity.
  - exists sample_peer. split; [|exact Logic.I]. right. split; [reflexivity|]. intros; discriminate.
  - eapply hist_start with (k := sample_kernel) (exe_ok := true) (ok := true); [|vm_compute; reflexivity].
    unfold configured_chain. repeat split; try reflexivity; discriminate.
  - reflexivity.
  - vm_compute. reflexivity.
  - constructor.
  - intros p x q y r t u E. destruct p; discriminate.
Qed.
