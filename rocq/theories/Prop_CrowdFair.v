(** Property C82: if nobody who can go on is passed over for ever, a legitimate knock
    over UDP comes to its successful end. *)

From Coq Require Import String ZArith NArith List Bool Permutation Lia.
From Verif Require Import M_Base M_Proto M_IpAddr M_FwProto M_ConfTypes M_Server M_Client M_Firewall M_Udp M_Text M_Conf M_Sha3 M_Accept
  S_Wire S_Session S_Client S_Pair S_Text S_Conf S_System S_Whole S_E2e S_Bytes S_Accept S_Dgram S_Crowd S_Fair S_CrowdFair
  P_Base P_Sha3 P_Load P_Session P_Client P_Pair P_FwdProps P_E2e P_Files P_Whole P_Udp P_Both P_Bytes P_Dgram P_Accept P_Busy P_Crowd P_Fair P_CrowdFair
  Prop_Conf Prop_Pair Prop_Whole Prop_E2e Prop_Dgram Prop_Crowd S_Files S_Firewall.
Import ListNotations.
Local Open Scope N_scope.

(** The channels behind every state that can be reached. *)
Lemma crowd_seen :
  forall mac parse_ip cc sc fc c host (ipv4 : bool) srv crypt user key res_id port rs here kport tcp udp has_tcp num d0 h0 w s,
  (forall x y, length (mac x y) = 32%nat /\ all_bytes (mac x y)) ->
  agree cc sc host parse_ip (if ipv4 then RmIpv4 else RmIpv6) srv crypt user key res_id port rs ->
  knocks_by_udp cc tcp udp -> 1 <= num ->
  plausible_address (sa_ip here) -> ip_address (sa_ip here) -> permitted_port fc port -> port < 2 ^ 16 ->
  family_fits c (sa_ip here) ->
  history fc c d0 h0 -> d_phase d0 = PhRun -> has_chain (d_kernel d0) c = true ->
  crowd_run mac sc fc c has_tcp num here any_order w
    (crowd_start num
       (run_knock mac parse_ip cc host (KnockServer (addr_mode_of ipv4 (negb ipv4)) kport tcp udp) port (Some user) srv crypt)
       d0 h0) s ->
  exists f, csim mac sc has_tcp num here s f /\ narrow (fu_pair f)
    /\ (clock_monotone (cw_hist s) -> (knock_steps w <= 19)%nat
          /\ (finished fc c h0 (sa_ip here) rs f \/ exists f', full_step fc c 1 f f' /\ clock_monotone (fu_hist f')))
    /\ (forall r, pr_server (fu_pair f) = SRet r -> fu_request f = []).
Proof.
  intros mac parse_ip cc sc fc c host ipv4 srv crypt user key res_id port rs here kport tcp udp has_tcp num d0 h0 w s
    MS AG BU NUM PL IA PP PB FF H PH HC R.
  set (cl := run_knock mac parse_ip cc host (KnockServer (addr_mode_of ipv4 (negb ipv4)) kport tcp udp) port (Some user) srv crypt) in *.
  set (f0 := Full (Pair cl (server_run mac sc (sa_ip here)) [] [] []) d0 h0 [] []).
  pose proof (csim_start mac sc has_tcp num here NUM cl d0 h0 (knock_by_udp _ _ _ _ _ _ _ _ _ _ _ _ BU)) as S0. fold f0 in S0.
  assert (SR : forall m f, full_steps fc c m f0 f -> _) by
    (exact (fun m f => sim_run mac parse_ip cc sc fc c host ipv4 srv crypt user key res_id port rs (sa_ip here) kport tcp udp
      MS AG PL IA PP PB FF d0 h0 H PH HC m f)).
  assert (NAR : forall m f, full_steps fc c m f0 f -> narrow (fu_pair f)).
  { intros m f RF. destruct (SR m f RF) as (_ & _ & _ & n' & j & RP & _).
    destruct (legit_knock_narrow mac parse_ip cc sc host ipv4 srv crypt user key res_id port rs (sa_ip here) kport tcp udp n' _ MS AG RP)
      as ((_ & X) & _). exact X. }
  assert (SIM : exists f, full_steps fc c (knock_steps w) f0 f /\ csim mac sc has_tcp num here s f).
  { remember (crowd_start num cl d0 h0) as s0 eqn:E0. induction R as [s|w a s s1 s2 R IH ST].
    - subst s. exists f0. split; [constructor|exact S0].
    - destruct (IH E0 S0) as (f & RF & S). rewrite knock_steps_app.
      pose proof (csim_step mac sc fc c has_tcp num here any_order NUM (fun o X => X) _ _ _ ST f S (NAR _ _ RF)) as X.
      destruct a.
      + destruct X as (f' & ST' & S'). exists f'. split; [econstructor; [exact RF|exact ST']|exact S'].
      + exists f. cbn. rewrite Nat.add_0_r. split; assumption.
      + destruct X as (f' & ST' & S'). exists f'. cbn. split; [eapply steps_more; [exact RF|exact ST']|exact S']. }
  destruct SIM as (f & RF & S). exists f. split; [exact S|]. split; [exact (NAR _ _ RF)|]. split.
  - intros MONO. assert (EH : fu_hist f = cw_hist s) by (inversion S; reflexivity).
    apply (e2e _ _ _ _ _ _ _ _ _ _ _ _ _ _ _ _ _ _ _ MS AG PL IA PP PB FF d0 h0 H PH HC _ f RF). rewrite EH. exact MONO.
  - intros r ES. destruct (SR _ _ RF) as (_ & _ & _ & n' & j & _ & ST & _).
    inversion ST as [pp ? ? ? OP FW|pp ? ? ? ? ? OP FW|pp ? ? ? ? OP FW|pp ? ? ? OP FW]; subst; cbn in *; try reflexivity.
    rewrite ES in FW. inversion FW; congruence.
Qed.

(** *** C82 *)

(** Client, letmeind and letmeinfwd agree about the knock, and the state [s] has been
    reached by a knock over UDP in which others kept to the limits of the dispatcher
    (as in C77).  Take any infinite execution from there: any order of the steps, any
    datagrams and connections of others without end, anything undisturbing that others
    do to the firewall.  If the clock does not go backwards and the execution is fair
    to the knock, the network, the socket and the accepting tasks, the knock is
    successfully over at some time. *)
Theorem C82_udp_knock_ends :
  forall mac parse_ip cc sc fc c host (ipv4 : bool) srv crypt user key res_id port rs here kport tcp udp has_tcp num d0 h0 w s at_ own,
  (forall x y, length (mac x y) = 32%nat /\ all_bytes (mac x y)) ->
  agree cc sc host parse_ip (if ipv4 then RmIpv4 else RmIpv6) srv crypt user key res_id port rs ->
  knocks_by_udp cc tcp udp -> 1 <= num ->
  plausible_address (sa_ip here) -> ip_address (sa_ip here) -> permitted_port fc port -> port < 2 ^ 16 ->
  family_fits c (sa_ip here) ->
  history fc c d0 h0 -> d_phase d0 = PhRun -> has_chain (d_kernel d0) c = true ->
  crowd_run mac sc fc c has_tcp num here any_order w
    (crowd_start num
       (run_knock mac parse_ip cc host (KnockServer (addr_mode_of ipv4 (negb ipv4)) kport tcp udp) port (Some user) srv crypt)
       d0 h0) s ->
  execution (crowd_one mac sc fc c has_tcp num here) s at_ own ->
  (forall k, clock_monotone (cw_hist (at_ k))) ->
  knock_fair (crowd_one mac sc fc c has_tcp num here) cw_hist at_ own ->
  serves_fairly has_tcp here (crowd_one mac sc fc c has_tcp num here) at_ ->
  exists k, crowd_finished fc c h0 here rs (at_ k).
Proof.
  intros mac parse_ip cc sc fc c host ipv4 srv crypt user key res_id port rs here kport tcp udp has_tcp num d0 h0 w s at_ own
    MS AG BU NUM PL IA PP PB FF H PH HC R EX MONO KF SF.
  assert (RK : forall k, exists wk, crowd_run mac sc fc c has_tcp num here any_order wk
    (crowd_start num
       (run_knock mac parse_ip cc host (KnockServer (addr_mode_of ipv4 (negb ipv4)) kport tcp udp) port (Some user) srv crypt)
       d0 h0) (at_ k) /\ (done own k <= knock_steps wk)%nat).
  { intros k. destruct (crowd_prefix mac sc fc c has_tcp num here NUM _ _ _ EX k) as (w1 & R1 & N1).
    exists (w ++ w1). split; [eapply run_more; eassumption|]. rewrite knock_steps_app. lia. }
  assert (SEEN := fun wk k => crowd_seen mac parse_ip cc sc fc c host ipv4 srv crypt user key res_id port rs here kport tcp udp has_tcp num d0 h0 wk (at_ k)
                     MS AG BU NUM PL IA PP PB FF H PH HC).
  apply (fair_end_waits (crowd_one mac sc fc c has_tcp num here) cw_hist at_ own KF 19%nat (crowd_finished fc c h0 here rs)
           (awaits mac sc has_tcp num here) (ready mac sc has_tcp num here)).
  - intros k. destruct (RK k) as (wk & Rk & L). destruct (SEEN wk k Rk) as (f & _ & _ & X & _). destruct (X (MONO k)) as (B & _). lia.
  - intros k. destruct (RK k) as (wk & Rk & _). destruct (SEEN wk k Rk) as (f & S & NA & X & _).
    destruct (X (MONO k)) as (_ & [(QC & QV & QP)|(f' & ST & M')]).
    + left. inversion S as [acc u buf cl1 se up dn d h rq rp op BU1 K ZU E1 E2]. subst f. cbn in QC, QV. subst cl1.
      destruct se as [[[n j] p]|]; cbn in QV; [|unfold server_run, recv_msg in QV; discriminate]. subst p.
      split; [reflexivity|]. split; [|exact QP]. destruct (ck_where _ _ _ _ _ _ _ K) as (A & _ & x & B' & _).
      exists n, j, x. auto.
    + right. destruct (csim_now mac sc fc c has_tcp num here (at_ k) f f' S NA ST) as [(s' & SK & E)|AW]; [|right; exact AW].
      left. exists s'. split; [exists Knock; split; [exact SK|reflexivity]|]. destruct E as [E|E]; rewrite E; [apply MONO|exact M'].
  - intros t AW. apply (awaited_comes mac sc fc c has_tcp num here NUM at_ own (ex_next _ _ _ _ EX) SF t t). split; [lia|exact AW].
  - intros k RD. destruct (ex_next _ _ _ _ EX k) as [(a & ST & O)|(_ & E)]; [|right; rewrite E; exact RD].
    destruct a; [auto| |]; right; eapply ready_stays; try exact ST; try exact RD; try exact NUM; discriminate.
  - intros k RD. destruct (ready_go mac sc fc c has_tcp num here NUM _ RD) as (s' & ST & E). exists s'.
    split; [exists Knock; split; [exact ST|reflexivity]|]. rewrite E. apply MONO.
Qed.
Print Assumptions C82_udp_knock_ends.

(** The same in terms of the configuration files. *)
Theorem C82_udp_knock_ends_from_files :
  forall mac parse_ip fraction cfile cls cc sfile sls sc fc c host (ipv4 : bool) srv crypt given user port rs here
         kport tcp udp has_tcp num d0 h0 w s at_ own,
  (forall x y, length (mac x y) = 32%nat /\ all_bytes (mac x y)) ->
  started_from fraction VarClient cfile cls cc ->
  started_from fraction VarServer sfile sls sc -> started_from fraction VarServer sfile sls fc ->
  files_agree cls sls user port rs -> user_of_command cls given user ->
  resolvable parse_ip host (if ipv4 then RmIpv4 else RmIpv6) srv crypt ->
  knocks_by_udp cc tcp udp -> 1 <= num ->
  plausible_address (sa_ip here) -> ip_address (sa_ip here) -> family_fits c (sa_ip here) ->
  history fc c d0 h0 -> d_phase d0 = PhRun -> has_chain (d_kernel d0) c = true ->
  crowd_run mac sc fc c has_tcp num here any_order w
    (crowd_start num
       (run_knock mac parse_ip cc host (KnockServer (addr_mode_of ipv4 (negb ipv4)) kport tcp udp) port given srv crypt)
       d0 h0) s ->
  execution (crowd_one mac sc fc c has_tcp num here) s at_ own ->
  (forall k, clock_monotone (cw_hist (at_ k))) ->
  knock_fair (crowd_one mac sc fc c has_tcp num here) cw_hist at_ own ->
  serves_fairly has_tcp here (crowd_one mac sc fc c has_tcp num here) at_ ->
  exists k, crowd_finished fc c h0 here rs (at_ k).
Proof.
  intros mac parse_ip fraction cfile cls cc sfile sls sc fc c host ipv4 srv crypt given user port rs here
    kport tcp udp has_tcp num d0 h0 w s at_ own MS CL SL FL FA UC HOST BU NUM PL IA FF H PH HC R EX MONO KF SF.
  destruct (files_to_agree _ _ _ _ _ _ _ _ _ _ _ _ _ _ _ CL SL FA HOST) as (key & id & AG).
  pose proof (files_permit _ _ _ _ _ _ _ _ FL FA) as PP.
  assert (port < 2 ^ 16) as PB.
  { destruct FA as [_ (j & crs & _ & _ & _ & (o & t & _ & _ & RT) & <- & _) _]. eapply resource_text_sane. exact RT. }
  assert (run_knock mac parse_ip cc host (KnockServer (addr_mode_of ipv4 (negb ipv4)) kport tcp udp) port given srv crypt
          = run_knock mac parse_ip cc host (KnockServer (addr_mode_of ipv4 (negb ipv4)) kport tcp udp) port (Some user) srv crypt)
    as EU.
  { destruct UC as [-> | [-> D]]; [reflexivity|]. unfold run_knock. rewrite (default_user_of _ _ _ _ _ CL D). reflexivity. }
  rewrite EU in R. eapply C82_udp_knock_ends; eassumption.
Qed.
Print Assumptions C82_udp_knock_ends_from_files.

(** The assumptions can be met from wherever the knock may have got to: every finite
    execution can be continued to a fair one without setting the clock back. *)
Theorem C82_fair_executions_exist :
  forall mac parse_ip cc sc fc c host (ipv4 : bool) srv crypt user key res_id port rs here kport tcp udp has_tcp num d0 h0 w s,
  (forall x y, length (mac x y) = 32%nat /\ all_bytes (mac x y)) ->
  agree cc sc host parse_ip (if ipv4 then RmIpv4 else RmIpv6) srv crypt user key res_id port rs ->
  knocks_by_udp cc tcp udp -> 1 <= num ->
  plausible_address (sa_ip here) -> ip_address (sa_ip here) -> permitted_port fc port -> port < 2 ^ 16 ->
  family_fits c (sa_ip here) ->
  history fc c d0 h0 -> d_phase d0 = PhRun -> has_chain (d_kernel d0) c = true ->
  crowd_run mac sc fc c has_tcp num here any_order w
    (crowd_start num
       (run_knock mac parse_ip cc host (KnockServer (addr_mode_of ipv4 (negb ipv4)) kport tcp udp) port (Some user) srv crypt)
       d0 h0) s ->
  clock_monotone (cw_hist s) ->
  exists at_ own, execution (crowd_one mac sc fc c has_tcp num here) s at_ own
    /\ (forall k, clock_monotone (cw_hist (at_ k)))
    /\ knock_fair (crowd_one mac sc fc c has_tcp num here) cw_hist at_ own
    /\ serves_fairly has_tcp here (crowd_one mac sc fc c has_tcp num here) at_.
Proof.
  intros mac parse_ip cc sc fc c host ipv4 srv crypt user key res_id port rs here kport tcp udp has_tcp num d0 h0 w s
    MS AG BU NUM PL IA PP PB FF H PH HC R MONO.
  destruct (C77_udp_knock_succeeds_among_others mac parse_ip cc sc fc c host ipv4 srv crypt user key res_id port rs here kport tcp udp has_tcp num
              d0 h0 w s (fun l => l) MS AG BU NUM PL IA PP PB FF H PH HC R MONO (fun l => Permutation_refl l))
    as (_ & w1 & s1 & R1 & _ & MONO1 & FIN).
  assert (R1' : crowd_run mac sc fc c has_tcp num here any_order w1 s s1).
  { eapply run_weaken; [|exact R1]. intros o <- l. apply Permutation_refl. }
  pose proof (run_more mac sc fc c has_tcp num here any_order _ _ _ R _ _ R1') as RR.
  destruct (crowd_seen mac parse_ip cc sc fc c host ipv4 srv crypt user key res_id port rs here kport tcp udp has_tcp num d0 h0 _ s1
              MS AG BU NUM PL IA PP PB FF H PH HC RR) as (f & S & NA & _ & RQ).
  destruct (settle mac sc fc c has_tcp num here NUM _ s1 f S NA eq_refl) as (w2 & s2 & Q2 & R2 & S2 & W2 & B2 & H2).
  pose proof (run_more mac sc fc c has_tcp num here any_order _ _ _ R1' _ _ R2) as RT.
  destruct (crowd_idle mac sc fc c has_tcp num here NUM _ _ _ RT) as (at_ & own & len & EX & IDLE & REST).
  exists at_, own. split; [exact EX|]. split.
  { intros k. destruct (REST k) as (w' & B). destruct (crowd_hist mac sc fc c has_tcp num here _ _ _ B) as (x & E).
    apply (monotone_prefix _ x). rewrite <- E, H2. exact MONO1. }
  destruct FIN as (EC & (n & j & x & ES & _) & _).
  assert (PC : pr_client (fu_pair f) = CRet (Ok tt)) by (inversion S; subst; cbn in *; assumption).
  assert (PS : pr_server (fu_pair f) = SRet (Ok tt)) by (inversion S; subst; cbn in *; subst; reflexivity).
  eapply (at_rest mac sc fc c has_tcp num here NUM s2 f (Ok tt) (Ok tt) at_ own len); eauto.
  destruct EX as [E0 EN]. constructor; [reflexivity|exact EN].
Qed.
Print Assumptions C82_fair_executions_exist.

(** The sample client knocks at the letmeind of C77's example, which serves another
    peer and has a connection waiting: there is a fair execution, and in it the knock ends. *)
Example C82_complete_run : forall parse_ip host srv,
  resolvable parse_ip host RmIpv4 srv (ResCrypt true true true) ->
  exists at_ own, execution (crowd_one hmac_sha3_256 sample_conf sample_conf (ChainName INet (lit "filter") (lit "LETMEIN")) true 2
                               (SockAddr sample_peer 40000 0 0))
      (crowd_before (run_knock hmac_sha3_256 parse_ip client_conf host
                      (KnockServer (addr_mode_of true false) None false true) 53 None srv (ResCrypt true true true)) sample_daemon) at_ own
    /\ (forall k, clock_monotone (cw_hist (at_ k)))
    /\ exists k, crowd_finished sample_conf (ChainName INet (lit "filter") (lit "LETMEIN")) [] (SockAddr sample_peer 40000 0 0)
                (ResPort 53 false true [10; 11]) (at_ k).
Proof.
  intros parse_ip host srv HOST.
  assert (UC : user_of_command (M_Str.lines client_sample) None 11).
  { right. split; [reflexivity|].
    destruct (started_configures _ _ _ _ _ C54_client_started) as [CF V]. exact (cf_client _ _ _ CF V). }
  assert (PL : plausible_address sample_peer) by (split; exists 192; split; try discriminate; simpl; auto).
  assert (IA : ip_address sample_peer) by (split; [reflexivity|]; apply bytes_ok_spec; vm_compute; reflexivity).
  assert (FF : family_fits (ChainName INet (lit "filter") (lit "LETMEIN")) sample_peer).
  { exists sample_peer. split; [|exact Logic.I]. right. split; [reflexivity|]. intros; discriminate. }
  assert (HI : history sample_conf (ChainName INet (lit "filter") (lit "LETMEIN")) sample_daemon []).
  { eapply hist_start with (k := sample_kernel) (exe_ok := true) (ok := true); [|vm_compute; reflexivity].
    unfold configured_chain. repeat split; try reflexivity; discriminate. }
  assert (HC : has_chain (d_kernel sample_daemon) (ChainName INet (lit "filter") (lit "LETMEIN")) = true) by (vm_compute; reflexivity).
  assert (BU : knocks_by_udp client_conf false true) by (split; [reflexivity|left; reflexivity]).
  destruct (crowd_before_reached hmac_sha3_256 sample_conf sample_conf (ChainName INet (lit "filter") (lit "LETMEIN"))
              (run_knock hmac_sha3_256 parse_ip client_conf host
                      (KnockServer (addr_mode_of true false) None false true) 53 None srv (ResCrypt true true true)) sample_daemon) as (w & R).
  pose proof (files_permit _ _ _ _ _ _ _ _ C54_server_started C54_files_agree) as PP.
  destruct (files_to_agree _ _ _ _ _ _ _ _ _ _ _ _ _ _ _ C54_client_started C54_server_started C54_files_agree HOST) as (key & id & AG).
  assert (EU : run_knock hmac_sha3_256 parse_ip client_conf host (KnockServer (addr_mode_of true false) None false true) 53 None srv (ResCrypt true true true)
          = run_knock hmac_sha3_256 parse_ip client_conf host (KnockServer (addr_mode_of true (negb true)) None false true) 53 (Some 11) srv (ResCrypt true true true)).
  { destruct UC as [X|[_ D]]; [discriminate X|]. unfold run_knock. rewrite (default_user_of _ _ _ _ _ C54_client_started D). reflexivity. }
  assert (R' := R). rewrite EU in R'.
  destruct (C82_fair_executions_exist hmac_sha3_256 parse_ip client_conf sample_conf
            sample_conf (ChainName INet (lit "filter") (lit "LETMEIN")) host true srv (ResCrypt true true true)
            11 key id 53 _ (SockAddr sample_peer 40000 0 0) None false true true 2 sample_daemon [] w _
            hmac_ok AG BU ltac:(lia) PL IA PP ltac:(lia) FF HI eq_refl HC R') as (at_ & own & EX & MO & KF & AF).
  { intros p x q y r t u E. destruct p; discriminate. }
  exists at_, own. rewrite EU. split; [exact EX|]. split; [exact MO|].
  exact (C82_udp_knock_ends hmac_sha3_256 parse_ip client_conf sample_conf
            sample_conf (ChainName INet (lit "filter") (lit "LETMEIN")) host true srv (ResCrypt true true true)
            11 key id 53 _ (SockAddr sample_peer 40000 0 0) None false true true 2 sample_daemon [] w _ at_ own
            hmac_ok AG BU ltac:(lia) PL IA PP ltac:(lia) FF HI eq_refl HC R' EX MO KF AF).
Qed.
