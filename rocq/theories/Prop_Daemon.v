(** Theorems about the main programs of the daemons: C41, C42 (handlers), C43
    and C53. *)

From Coq Require Import String ZArith NArith List Bool Lia ZifyBool ZifyNat ZifyN.
From Verif Require Import M_Base M_IpAddr M_ConfTypes M_Text M_Udp M_Start M_Daemon S_Text S_Start S_Udp
  P_Base P_Udp P_UdpProps P_Start P_Daemon.
Import ListNotations.
Local Open Scope N_scope.

(** ** C41: number of simultaneous sessions *)

(** Refuted: with any limit, any number of handlers runs at the same time, after
    a history that contains nothing but incoming connections. *)
Theorem C41_limit_refuted : forall num k, 1 <= num ->
  exists h d, (forall ev, In ev h -> ev = EvAccept (Ok tt) \/ ev = EvTask)
    /\ drun (daemon_start num) h = Some d
    /\ NoDup (dm_live d) /\ length (dm_live d) = k.
Proof.
  intros num k L. destruct (serve_run k (daemon_start num) eq_refl eq_refl L) as (d & R & _ & _ & _ & LL).
  exists (serve k), d. split; [apply serve_events|]. split; [exact R|].
  split; [apply (di_nodup _ _ _ (dinv_run _ _ _ R))|]. rewrite LL. simpl. lia.
Qed.
Print Assumptions C41_limit_refuted.

(** What holds: handlers only run for connections that were accepted, at most one
    for each, and with the limit 0 there are none. *)
Theorem C41_one_handler_per_connection_partial : forall num h d,
  drun (daemon_start num) h = Some d ->
  NoDup (dm_live d) /\ N.of_nat (length (dm_live d)) <= accepts h
  /\ (num = 0 -> dm_live d = []).
Proof.
  intros num h d R. pose proof (dinv_run _ _ _ R) as I. split; [apply I|]. split.
  - rewrite <- (di_next _ _ _ I).
    assert (length (dm_live d) <= length (map N.of_nat (seq 0 (N.to_nat (dm_next d)))))%nat.
    { apply NoDup_incl_length; [apply I|]. intros c J. apply (di_live _ _ _ I) in J.
      apply in_map_iff. exists (N.to_nat c). split; [lia|]. apply in_seq. lia. }
    rewrite map_length, seq_length in H. lia.
  - intros ->. clear I. revert d R. induction h as [|ev h IH] using rev_ind; intros d R.
    + injection R as <-. reflexivity.
    + rewrite drun_app in R. destruct (drun (daemon_start 0) h) as [d1|] eqn:E; [|discriminate].
      specialize (IH d1 eq_refl). pose proof (dinv_run _ _ _ E) as I. pose proof (di_permits _ _ _ I) as P.
      simpl in R. destruct (dstep d1 ev) as [d2|] eqn:ST; [|discriminate]. injection R as <-.
      unfold dstep in ST. destruct (dm_exit d1); [discriminate|]. destruct ev as [r| |c r|r| | | |].
      * destruct (dm_pc d1), r; try discriminate; injection ST as <-; exact IH.
      * destruct (dm_pc d1); try discriminate; try lia. rewrite P in ST. discriminate.
      * rewrite IH in ST. discriminate.
      * destruct r; try discriminate; injection ST as <-; exact IH.
      * injection ST as <-; exact IH.
      * injection ST as <-; exact IH.
      * injection ST as <-; exact IH.
      * destruct (dm_chan d1); [discriminate|]. injection ST as <-; exact IH.
Qed.
Print Assumptions C41_one_handler_per_connection_partial.

(** The UDP sessions are limited by a different mechanism: without queue
    overflow, at most [max] UDP sessions are open. *)
Theorem C41_udp_sessions_limited_partial : forall max s h,
  udp_history max [] s h -> no_overflow (session_peer [] h) h ->
  forall sids, NoDup sids ->
  (forall sid, In sid sids -> session_peer [] h sid <> None /\ ~ closes h sid) ->
  N.of_nat (length sids) <= max.
Proof.
  intros max s h H NO sids ND OPEN.
  pose proof (no_panic max [] s h H NO) as D.
  pose proof (alive_inv max [] s h H D _ (self_extends [] h)) as I.
  pose proof (one_session max s h H _ (self_extends [] h) NO) as [OT OU].
  assert (SESS : forall k, In k sids -> exists p, nth_error (us_sess s) k = Some (p, false)).
  { intros k K. destruct (OPEN k K) as (SP & NC). destruct (session_peer [] h k) as [p|] eqn:SK; [|congruence].
    unfold session_peer in SK. rewrite <- (ui_sess _ _ _ _ _ I), nth_error_map in SK.
    destruct (nth_error (us_sess s) k) as [[q c]|] eqn:E; [|discriminate].
    destruct c; [|eauto]. exfalso. apply NC. eapply (closed_history max s h H D k q true E). reflexivity. }
  pose (peer := fun k => match nth_error (us_sess s) k with Some (p, _) => p | None => SockAddr (V4 []) 0 0 0 end).
  assert (LE : (length (map peer sids) <= length (keys (u_conn (us_udp s))))%nat).
  { apply NoDup_incl_length.
    - assert (INJ : forall a b, In a sids -> In b sids -> peer a = peer b -> a = b).
      { intros a b A B Q. destruct (SESS a A) as (p & E). destruct (SESS b B) as (q & F).
        unfold peer in Q. rewrite E, F in Q. subst q. eapply OU; eauto. }
      clear - ND INJ. induction ND as [|x l NI ND IH]; simpl; constructor.
      + intros M. apply in_map_iff in M. destruct M as (y & E & J). apply NI.
        rewrite (INJ x y); simpl; auto.
      + apply IH. intros a b A B. apply INJ; simpl; auto.
    - intros p J. apply in_map_iff in J. destruct J as (k & <- & K). destruct (SESS k K) as (p & E).
      unfold peer. rewrite E. destruct (OT _ _ E) as (c & G & _).
      destruct (in_dec sa_dec p (keys (u_conn (us_udp s)))) as [Y|N]; [exact Y|].
      apply get_none_keys in N. congruence. }
  rewrite !map_length in LE.
  pose proof (ui_max _ _ _ _ _ I) as M. unfold len in M. lia.
Qed.
Print Assumptions C41_udp_sessions_limited_partial.

Example C41_example : exists d,
  drun (daemon_start 1) (serve 3) = Some d /\ dm_live d = [0; 1; 2] /\ dm_permits d = 1.
Proof. eexists. vm_compute. repeat split. Qed.

(** ** C42: only checked connections get a handler *)

(** [served h i]: what the [i]-th accept that succeeded returned.  A letmeinfwd
    in which each accept is the peer check only runs handlers of peers that
    passed it. *)
Inductive fw_run (ids : N * N) : list devent -> list (option (list byte) * cred) -> Prop :=
| fr_nil : fw_run ids [] []
| fr_accept : forall h l pidfile stream c, fw_run ids h l ->
    fw_accept false ids pidfile stream = Ok c ->
    fw_run ids (h ++ [EvAccept (Ok tt)]) (l ++ [(pidfile, c)])
| fr_reject : forall h l pidfile stream e, fw_run ids h l ->
    fw_accept false ids pidfile stream = Err e ->
    fw_run ids (h ++ [EvAccept (Err e)]) l
| fr_other : forall h l ev, fw_run ids h l -> (forall r, ev <> EvAccept r) -> fw_run ids (h ++ [ev]) l.

Theorem C42_handled_connections : forall num passwd group ids h l d,
  read_etc_passwd false passwd group = Ok ids ->
  fw_run ids h l -> drun (daemon_start num) h = Some d ->
  forall c, In c (dm_live d) ->
  exists pidfile cr pid, nth_error l (N.to_nat c) = Some (pidfile, cr)
    /\ cr_pid cr = Some pid /\ pid_file_says pidfile pid
    /\ account passwd (lit "letmeind") (cr_uid cr) /\ account group (lit "letmeind") (cr_gid cr).
Proof.
  intros num passwd group ids h l d RP FR R c I.
  pose proof (dinv_run _ _ _ R) as IV. apply (di_live _ _ _ IV) in I. rewrite (di_next _ _ _ IV) in I.
  apply read_etc_passwd_spec in RP. destruct RP as (U & G). clear - FR I U G.
  revert c I. induction FR as [|h l pf st cr FR IH A|h l pf st e FR IH A|h l ev FR IH NA]; intros c I.
  - simpl in I. lia.
  - assert (LEN : N.of_nat (length l) = accepts h).
    { clear - FR. induction FR; simpl; auto; rewrite accepts_app, ?app_length; simpl; try lia.
      destruct ev as [r| | | | | | |]; simpl; try lia. exfalso. eapply H; reflexivity. }
    rewrite accepts_app in I. simpl in I. destruct (N.eq_dec c (accepts h)) as [->|N].
    + exists pf, cr. apply fw_accept_spec in A. destruct A as (_ & pid & P & F & EU & EG).
      exists pid. split.
      * rewrite <- LEN, Nnat.Nat2N.id, nth_error_app2, PeanoNat.Nat.sub_diag by lia. reflexivity.
      * rewrite EU, EG. auto.
    + destruct (IH c) as (pf' & cr' & pid & E & R); [lia|]. exists pf', cr', pid. split; [|exact R].
      rewrite nth_error_app1; [exact E|]. apply nth_error_Some. congruence.
  - apply IH. rewrite accepts_app in I. simpl in I. lia.
  - apply IH. rewrite accepts_app in I. destruct ev as [r| | | | | | |]; simpl in I; try lia. exfalso. eapply NA; reflexivity.
Qed.
Print Assumptions C42_handled_connections.

(** ** C43: rejected connections do not stop the daemons *)

(** Refuted for letmeind: clients that merely connect make the process reach
    its limit of file descriptors; then accept fails and the daemon exits. *)
Theorem C43_keeps_serving_refuted : forall num limit, 1 <= num ->
  exists h d0 d e,
    (forall ev, In ev h -> ev = EvAccept (Ok tt) \/ ev = EvTask)
    /\ drun (daemon_start num) h = Some d0 /\ length (open_conns d0) = limit
    /\ drun (daemon_start num) (h ++ [EvAccept (Err e); EvChannel]) = Some d
    /\ dm_exit d = Some (Err e).
Proof.
  intros num limit L. destruct (serve_run limit (daemon_start num) eq_refl eq_refl L) as (d & R & X & P & _ & LL).
  pose proof (dinv_run _ _ _ R) as IV.
  assert (CH : dm_chan d = []).
  { destruct (dm_chan d) as [|e l] eqn:C; [reflexivity|]. exfalso.
    destruct (di_chan _ _ _ IV e) as [J|J]; [rewrite C; left; reflexivity|apply serve_events in J|apply serve_events in J];
      destruct J; discriminate. }
  exists (serve limit), d. eexists. exists "Too many open files"%string. split; [apply serve_events|]. split; [exact R|].
  split; [unfold open_conns; rewrite P, LL; simpl; lia|].
  rewrite drun_app, R. simpl. unfold dstep at 1. rewrite X, P. unfold dstep. simpl. rewrite CH. simpl.
  split; reflexivity.
Qed.
Print Assumptions C43_keeps_serving_refuted.

(** Refuted for letmeinfwd: one rejected connection stops it. *)
Theorem C43_rejection_harmless_refuted : forall num ids pidfile c e,
  fw_accept false ids pidfile (Ok c) = Err e ->
  exists h d, fw_run ids h [] /\ (forall ev, In ev h -> ev = EvAccept (Err e) \/ ev = EvChannel)
    /\ drun (daemon_start num) h = Some d /\ dm_exit d = Some (Err e)
    /\ forall shutdown, shutdown <> Panic -> letmeinfwd_end d shutdown = Some (Err e).
Proof.
  intros num ids pidfile c e A. exists ([EvAccept (Err e)] ++ [EvChannel]). eexists.
  split; [apply fr_other; [|discriminate]; change (fw_run ids ([] ++ [EvAccept (Err e)]) []); econstructor; [constructor|exact A]|].
  split; [intros ev [<-|[<-|[]]]; auto|].
  split; [reflexivity|]. split; [reflexivity|].
  intros [u|x|] NP; [reflexivity|reflexivity|congruence].
Qed.
Print Assumptions C43_rejection_harmless_refuted.
(** There are such connections: a process of letmeind's user and group that is
    not letmeind, and letmeind itself after its PID file was removed. *)
Example C43_rejections :
  (exists e, fw_accept false (999, 997) (Some (pidfile_content 4711)) (Ok (Cred (Some 4712%Z) 999 997)) = Err e)
  /\ (exists e, fw_accept false (999, 997) None (Ok (Cred (Some 4711%Z) 999 997)) = Err e).
Proof. split; eexists; vm_compute; reflexivity. Qed.

(** What holds: a daemon only stops because of a signal, or after accept or (in
    letmeinfwd) the maintenance of the rules has failed.  In particular no
    session, however it ends, stops it. *)
Theorem C43_why_it_stops_partial : forall num h d r,
  drun (daemon_start num) h = Some d -> dm_exit d = Some r ->
  (r = Ok tt /\ In EvTerm h)
  \/ (exists e, r = Err e /\ (In EvInt h \/ In (EvAccept (Err e)) h \/ In (EvMaintain (Err e)) h)).
Proof.
  intros num h d r R X. destruct (exit_reason _ _ _ _ R X) as (h0 & ev & -> & [(-> & ->)|[(-> & ->)|(-> & e & -> & J)]]).
  - left. split; [reflexivity|]. apply in_or_app. right. left. reflexivity.
  - right. eexists. split; [reflexivity|]. left. apply in_or_app. right. left. reflexivity.
  - right. exists e. split; [reflexivity|]. right. destruct J; [left|right]; apply in_or_app; auto.
Qed.
Print Assumptions C43_why_it_stops_partial.

(** Without a signal and without failing accept or maintenance, the daemon serves
    the next connection after at most three steps of its accept task, whatever
    happened in the sessions and however many of them are stuck. *)
Theorem C43_keeps_serving_partial : forall num h d,
  drun (daemon_start num) h = Some d -> 1 <= num ->
  ~ In EvTerm h -> ~ In EvInt h ->
  (forall e, ~ In (EvAccept (Err e)) h) -> (forall e, ~ In (EvMaintain (Err e)) h) ->
  dm_exit d = None
  /\ exists k d1 d2, (k <= 3)%nat /\ drun d (repeat EvTask k) = Some d1
       /\ drun d1 [EvAccept (Ok tt); EvTask; EvTask; EvTask] = Some d2
       /\ In (dm_next d1) (dm_live d2) /\ incl (dm_live d) (dm_live d2).
Proof.
  intros num h d R L NT NI NA NM.
  assert (X : dm_exit d = None).
  { destruct (dm_exit d) as [r|] eqn:X; [|reflexivity]. exfalso.
    destruct (C43_why_it_stops_partial _ _ _ _ R X) as [(_ & J)|(e & _ & [J|[J|J]])]; [tauto|tauto|eapply NA; eauto|eapply NM; eauto]. }
  split; [exact X|]. eapply can_serve; eauto.
  intros P. destruct (di_end _ _ _ (dinv_run _ _ _ R) P) as (e & J). eapply NA; eauto.
Qed.
Print Assumptions C43_keeps_serving_partial.

Example C43_example : exists d,
  drun (daemon_start 2) (serve 3 ++ [EvFinish 1 (Err "Authentication failed"); EvHup; EvFinish 0 (Ok tt); EvAccept (Ok tt)]) = Some d
  /\ dm_live d = [2] /\ open_conns d = [2; 3] /\ dm_exit d = None.
Proof. eexists. vm_compute. repeat split. Qed.

(** ** C53: orderly end *)

(** What happens to other connections does not end the handler of a connection: it
    runs until it finishes itself, as long as the main loop runs. *)
Theorem C43_handlers_independent : forall d h d' c,
  drun d h = Some d' -> In c (dm_live d) -> (forall r, ~ In (EvFinish c r) h) -> In c (dm_live d').
Proof.
  intros d h. revert d. induction h as [|ev h IH]; intros d d' c R L N.
  - injection R as <-. exact L.
  - cbn [drun] in R. destruct (dstep d ev) as [d1|] eqn:S; [|discriminate].
    apply (IH d1); [exact R| |intros r I; apply (N r); right; exact I].
    unfold dstep in S. destruct (dm_exit d); [discriminate|]. destruct ev as [r| |x r|r| | | |].
    + destruct (dm_pc d), r; try discriminate; injection S as <-; exact L.
    + destruct (dm_pc d); try discriminate; [destruct (dm_permits d =? 0); [discriminate|]| |]; injection S as <-; cbn [dm_live];
        try exact L; apply in_or_app; left; exact L.
    + destruct (existsb (N.eqb x) (dm_live d)); [|discriminate]. injection S as <-. cbn [dm_live]. unfold remove_conn.
      apply filter_In. split; [exact L|]. destruct (N.eqb_spec c x) as [->|]; [|reflexivity].
      exfalso. apply (N r). left. reflexivity.
    + destruct r; try discriminate; injection S as <-; exact L.
    + injection S as <-. exact L.
    + injection S as <-. exact L.
    + injection S as <-. exact L.
    + destruct (dm_chan d); [discriminate|]. injection S as <-. exact L.
Qed.
Print Assumptions C43_handlers_independent.
Example C43_handlers_independent_example : exists d d',
  drun (daemon_start 2) [EvAccept (Ok tt); EvTask; EvTask; EvTask; EvAccept (Ok tt); EvTask; EvTask] = Some d
  /\ drun d [EvFinish 0 (Err "Connection broken"); EvHup; EvTask; EvAccept (Err "x")] = Some d'
  /\ dm_live d = [0; 1] /\ dm_live d' = [1].
Proof. eexists _, _. vm_compute. repeat split. Qed.

(** Refuted for letmeind: SIGTERM while a session is open aborts the process. *)
Theorem C53_orderly_end_refuted : forall num, 1 <= num ->
  exists h d, drun (daemon_start num) (h ++ [EvTerm]) = Some d
    /\ (forall ev, In ev h -> ev = EvAccept (Ok tt) \/ ev = EvTask)
    /\ letmeind_end d = Some Panic.
Proof.
  intros num L. destruct (serve_run 1 (daemon_start num) eq_refl eq_refl L) as (d & R & X & P & _ & LL).
  exists (serve 1). rewrite drun_app, R. simpl drun. unfold dstep. rewrite X. eexists. split; [reflexivity|].
  split; [apply serve_events|]. unfold letmeind_end, open_conns. simpl. rewrite P.
  destruct (dm_live d); [discriminate|reflexivity].
Qed.
Print Assumptions C53_orderly_end_refuted.

(** It ends orderly exactly if no connection is open: with success after SIGTERM,
    otherwise with an error. *)
Theorem C53_letmeind_end_partial : forall num h d,
  drun (daemon_start num) h = Some d -> dm_exit d <> None ->
  (letmeind_end d <> Some Panic <-> open_conns d = [])
  /\ (open_conns d = [] -> letmeind_end d = Some (Ok tt) <-> exists h0, h = h0 ++ [EvTerm]).
Proof.
  intros num h d R X. destruct (dm_exit d) as [r|] eqn:EX; [|congruence].
  destruct (exit_reason _ _ _ _ R EX) as (h0 & ev & E & C). unfold letmeind_end. rewrite EX.
  assert (NP : r <> Panic) by (destruct C as [(_ & ->)|[(_ & ->)|(_ & e & -> & _)]]; discriminate).
  split.
  - destruct (open_conns d); split; intros; congruence.
  - intros ->. split.
    + intros [= ->]. destruct C as [(-> & _)|[(_ & Q)|(_ & e & Q & _)]]; [eauto|discriminate|discriminate].
    + intros (h1 & E1). rewrite E in E1. apply app_inj_tail in E1. destruct E1 as (_ & ->).
      destruct C as [(_ & ->)|[(Q & _)|(Q & _)]]; [reflexivity|discriminate|discriminate].
Qed.
Print Assumptions C53_letmeind_end_partial.

(** letmeinfwd removes its rules whenever it ends, and reports success exactly if
    it was ended by SIGTERM and the rules were removed.  Only the removal itself
    could make the end a panic. *)
Theorem C53_letmeinfwd_end : forall num h d shutdown,
  drun (daemon_start num) h = Some d -> dm_exit d <> None ->
  letmeinfwd_end d shutdown <> None
  /\ (letmeinfwd_end d shutdown = Some (Ok tt) <-> (exists h0, h = h0 ++ [EvTerm]) /\ exists u, shutdown = Ok u)
  /\ (letmeinfwd_end d shutdown = Some Panic <-> shutdown = Panic).
Proof.
  intros num h d s R X. destruct (dm_exit d) as [r|] eqn:EX; [|congruence].
  destruct (exit_reason _ _ _ _ R EX) as (h0 & ev & E & C). unfold letmeinfwd_end. rewrite EX.
  split; [destruct s, r; discriminate|].
  assert (NP : r <> Panic) by (destruct C as [(_ & ->)|[(_ & ->)|(_ & e & -> & _)]]; discriminate).
  split; [|destruct s, r; split; intros; congruence]. destruct s as [u|x|].
  - split.
    + intros [= ->]. split; [|eauto]. destruct C as [(-> & _)|[(_ & Q)|(_ & e & Q & _)]]; [eauto|discriminate|discriminate].
    + intros ((h1 & E1) & _). rewrite E in E1. apply app_inj_tail in E1. destruct E1 as (_ & ->).
      destruct C as [(_ & ->)|[(Q & _)|(Q & _)]]; [reflexivity|discriminate|discriminate].
  - split; [|intros (_ & u & Q); discriminate]. destruct r; discriminate.
  - split; [discriminate|intros (_ & u & Q); discriminate].
Qed.
Print Assumptions C53_letmeinfwd_end.
