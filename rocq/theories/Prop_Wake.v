(** Properties of the waiting of the UDP tasks of letmeind: C66, C67. *)

From Coq Require Import String ZArith NArith List Bool Lia ZifyBool ZifyNat ZifyN Permutation.
From Verif Require Import M_Base M_Proto M_IpAddr M_Udp M_Wake S_Udp S_Wake P_Udp P_Wake.
Import ListNotations.
Local Open Scope N_scope.

(** *** Running a schedule *)
Fixpoint wrun (max : N) (s : wake) (evs : list wake_event) : option (wake * whist) :=
  match evs with
  | [] => Some (s, [])
  | ev :: r =>
      match wake_step max s ev with
      | None => None
      | Some (s1, x) => match wrun max s1 r with None => None | Some (s2, h) => Some (s2, (ev, x) :: h) end
      end
  end.
Lemma wrun_sound : forall max evs s0 h0 s s' h, wake_run max s0 h0 s ->
  Forall wevent_ok evs -> wrun max s evs = Some (s', h) -> wake_run max s0 (h0 ++ h) s'.
Proof.
  intros max. induction evs as [|ev evs IH]; intros s0 h0 s s' h R OK H; cbn in H.
  - injection H as <- <-. rewrite app_nil_r. exact R.
  - destruct (wake_step max s ev) as [[s1 x]|] eqn:ST; [|discriminate].
    destruct (wrun max s1 evs) as [[s2 h2]|] eqn:W; [|discriminate]. injection H as <- <-. inversion OK. subst.
    change ((ev, x) :: h2) with ([(ev, x)] ++ h2). rewrite app_assoc. eapply IH; [|eassumption..]. econstructor; eauto.
Qed.
Lemma wrun_app : forall max evs s1 s2 h1 ev s3 r, wrun max s1 evs = Some (s2, h1) -> wake_step max s2 ev = Some (s3, r) ->
  wrun max s1 (evs ++ [ev]) = Some (s3, h1 ++ [(ev, r)]).
Proof.
  intros max. induction evs as [|e evs IH]; intros s1 s2 h1 ev s3 r H ST; cbn in *.
  - injection H as <- <-. rewrite ST. reflexivity.
  - destruct (wake_step max s1 e) as [[s' x]|]; [|discriminate].
    destruct (wrun max s' evs) as [[s'' h']|] eqn:W; [|discriminate]. injection H as <- <-.
    rewrite (IH _ _ _ _ _ _ W ST). reflexivity.
Qed.
Lemma wrun_complete : forall max s h s', wake_run max s h s' -> wrun max s (map fst h) = Some (s', h).
Proof.
  intros max s h s' R. induction R as [|h s1 ev s2 r R IH OK ST]; [reflexivity|].
  rewrite map_app. eapply wrun_app; eauto.
Qed.

Definition peer (n : N) := SockAddr (V4 [192; 0; 2; n]) 40000 0 0.
Definition dgram (n : N) : list byte := repeat n 56.
Definition from (n : N) := WvArrive (ItDatagram (dgram n) (peer n)).
Definition short := WvArrive (ItDatagram [0] (peer 9)).
Definition accept (by_watch : bool) := WvAccept by_watch (fun l => l).

(** *** C66 *)

Lemma woken : forall max s0 h s i p b q n, winv max s0 ->
  receiving s0 i p -> undelivered s0 p (b :: q) -> ahead s0 i n ->
  wake_run max s0 h s -> Forall calm h -> (forall r, ~ In (WvCancel i, r) h) ->
  (forall by_watch e, ~ In (WvRecv i by_watch, UrFail e) h) ->
  (exists h1 by_watch h2, h = h1 ++ (WvRecv i by_watch, UrDatagram b) :: h2 /\ (wakes h1 <= n)%nat)
  \/ (receiving s i p /\ (wakes h <= n)%nat /\ exists j s' r, wake_step max s (WvRecv j true) = Some (s', r)).
Proof.
  intros max s0 h s i p b q n I0 RC UD AH R C NC NW.
  assert (G : (exists h1 by_watch h2, h = h1 ++ (WvRecv i by_watch, UrDatagram b) :: h2 /\ (wakes h1 <= n)%nat)
    \/ (receiving s i p /\ (exists q', undelivered s p (b :: q')) /\ exists m, ahead s i m /\ (m + wakes h <= n)%nat)).
  { induction R as [|h s1 ev s2 r R IH OK ST].
    - right. split; [exact RC|]. split; [exists q; exact UD|]. exists n. split; [exact AH|]. cbn. lia.
    - apply Forall_app in C. destruct C as (C1 & C2). inversion C2 as [|? ? C3 _].
      destruct IH as [(h1 & bw & h2 & -> & W)|(RC1 & (q1 & UD1) & m & AH1 & W)].
      + exact C1.
      + intros r' X. eapply NC, in_or_app. left. exact X.
      + intros bw e X. eapply NW, in_or_app. left. exact X.
      + left. exists h1, bw, (h2 ++ [(ev, r)]). rewrite <- app_assoc. auto.
      + assert (I1 : winv max s1) by (eapply winv_run; [exact R|exact I0|exact C1]).
        assert (NE : ev <> WvCancel i) by (intros ->; eapply NC, in_or_app; right; left; reflexivity).
        assert (NF : forall bw e, (ev, r) <> (WvRecv i bw, UrFail e)) by (intros bw e X; eapply (NW bw e), in_or_app; right; left; exact X).
        destruct (wait_step _ _ _ _ _ _ _ _ _ _ I1 RC1 UD1 AH1 OK ST C3 NE NF) as [(bw & -> & ->)|(RC2 & UD2 & m' & AH2 & L)].
        * left. exists h, bw, []. split; [reflexivity|lia].
        * right. split; [exact RC2|]. split; [exact UD2|]. exists m'. split; [exact AH2|].
          unfold wakes in *. rewrite filter_app, app_length. cbn [filter fst]. destruct ev; cbn [length] in *; lia. }
  destruct G as [G|(RC1 & (q1 & UD1) & m & AH1 & W)]; [left; exact G|right].
  split; [exact RC1|]. split; [lia|].
  assert (I1 : winv max s) by (eapply winv_run; [exact R|exact I0|exact C]). eapply can_go_on; eauto.
Qed.

(** As long as no receive fails that was woken by the daemon's own notification, and
    the receive in question does not fail itself: a receive that waits for a datagram that the
    daemon already has waits for at most as many wake-ups of others as there are
    receives in front of it, then gets the oldest one of its peer, and until then
    there is always a receive that can go on at once, whatever arrives or does not
    arrive at the socket. *)
Theorem C66_receive_is_woken_partial : forall max h0 s0 h s i p b q n,
  wake_run max wake_start h0 s0 -> Forall calm h0 ->
  receiving s0 i p -> undelivered s0 p (b :: q) -> ahead s0 i n ->
  wake_run max s0 h s -> Forall calm h -> (forall r, ~ In (WvCancel i, r) h) ->
  (forall by_watch e, ~ In (WvRecv i by_watch, UrFail e) h) ->
  (exists h1 by_watch h2, h = h1 ++ (WvRecv i by_watch, UrDatagram b) :: h2 /\ (wakes h1 <= n)%nat)
  \/ (receiving s i p /\ (wakes h <= n)%nat /\ exists j s' r, wake_step max s (WvRecv j true) = Some (s', r)).
Proof.
  intros max h0 s0 h s i p b q n R0 C0. apply woken. eapply winv_run; [exact R0|apply winv_start|exact C0].
Qed.
Print Assumptions C66_receive_is_woken_partial.

(** Two sessions wait; a datagram of each has been read; the second one is behind
    the first, whose receive fails at a datagram that is too short. *)
Example C66_example : exists h0 s0 h s n, wake_run 8 wake_start h0 s0 /\ Forall calm h0
  /\ receiving s0 1 (peer 2) /\ undelivered s0 (peer 2) [dgram 2] /\ ahead s0 1 n /\ n = 1%nat
  /\ wake_run 8 s0 h s /\ Forall calm h
  /\ (exists e, In (WvRecv 0 false, UrFail e) h) /\ In (WvRecv 1 true, UrDatagram (dgram 2)) h.
Proof.
  set (evs := [from 1; accept false; WvSpawn; from 2; accept false; WvSpawn; WvCall 0; WvCall 1]).
  set (evs2 := [short; WvRecv 0 false; WvRecv 1 true]).
  destruct (wrun 8 wake_start evs) as [[s0 h0]|] eqn:E; [|vm_compute in E; discriminate E].
  destruct (wrun 8 s0 evs2) as [[s h]|] eqn:E2; [|vm_compute in E; injection E as <- _; vm_compute in E2; discriminate E2].
  exists h0, s0, h, s, 1%nat.
  assert (R1 : wake_run 8 wake_start h0 s0).
  { eapply (wrun_sound 8 evs wake_start [] wake_start); [constructor| |exact E]. repeat (constructor; [cbn; auto|]). constructor. }
  assert (R2 : wake_run 8 s0 h s).
  { eapply (wrun_sound 8 evs2 s0 [] s0); [constructor| |exact E2]. repeat (constructor; [cbn; auto|]). constructor. }
  split; [exact R1|]. vm_compute in E. injection E as <- <-. vm_compute in E2. injection E2 as <- <-.
  split; [repeat (constructor; [cbn; auto|]); constructor|].
  split; [split; reflexivity|]. split; [eexists; split; reflexivity|].
  split; [exists [0%nat], []; split; [reflexivity|]; split; [intros [X|[]]; discriminate X|reflexivity]|].
  split; [reflexivity|]. split; [exact R2|]. split; [repeat (constructor; [cbn; first [exact Logic.I|discriminate]|]); constructor|].
  split; [eexists; right; left; reflexivity|]. right. right. left. reflexivity.
Qed.

(** A state in which no task of the dispatcher can go on before something arrives. *)
Definition asleep (s : wake) : Prop :=
  wk_buf s = [] /\ wk_rdy s = false /\ wk_rw s = false /\ wk_aw s = false /\ wk_accept s = ApWait.
Lemma asleep_stays : forall max s h s', asleep s -> wake_run max s h s' -> (forall x, In x h -> ~ arrival x) ->
  asleep s' /\ forall ev r, In (ev, r) h ->
    (forall p, r <> UrAccepted p) /\ (forall b, r <> UrDatagram b).
Proof.
  intros max s h s' A R NA. induction R as [|h s1 ev s2 r R IH OK ST]; [split; [exact A|intros ? ? []]|].
  destruct IH as (A1 & IH); [intros x X; apply NA, in_or_app; auto|].
  assert (NE : ~ arrival (ev, r)) by (apply NA, in_or_app; right; left; reflexivity).
  assert (GO : asleep s2 /\ (forall p, r <> UrAccepted p) /\ (forall b, r <> UrDatagram b)).
  { destruct A1 as (E1 & E2 & E3 & E4 & E5). unfold wake_step in ST. destruct (us_dead (wk_sys s1)); [discriminate|].
    destruct ev as [it| |bw order| |sid|sid bw|sid|sid|sid]; rewrite ?E5 in ST; try discriminate.
    - exfalso. apply NE. exact Logic.I.
    - rewrite E2, E4 in ST. destruct bw; discriminate.
    - destruct (nth_error (wk_recv s1) sid) as [[]|]; try discriminate.
      destruct (nth_error (us_sess (wk_sys s1)) sid) as [[p []]|]; try discriminate. injection ST as <- <-.
      split; [repeat split; assumption|split; discriminate].
    - rewrite E2, E3 in ST. destruct (wk_lock s1) as [|i rest]; [discriminate|]. destruct (Nat.eqb i sid), bw; discriminate.
    - destruct (nth_error (wk_recv s1) sid) as [[]|]; try discriminate. injection ST as <- <-.
      split; [repeat split; assumption|split; discriminate].
    - destruct (nth_error (wk_recv s1) sid) as [[]|]; try discriminate; injection ST as <- <-;
        (split; [repeat split; assumption|split; discriminate]).
    - destruct (nth_error (wk_recv s1) sid) as [[]|]; try discriminate. unfold udp_step in ST.
      destruct (us_dead (wk_sys s1)); [discriminate|].
      destruct (nth_error (us_sess (wk_sys s1)) sid) as [[p []]|]; try discriminate.
      + injection ST as <- <-. split; [repeat split; assumption|split; discriminate].
      + unfold disconnect in ST. destruct (u_nr (us_udp (wk_sys s1)) <? _); [injection ST as <- <-; split; [repeat split; assumption|split; discriminate]|].
        destruct (conn_remove _ _); [destruct (_ =? 0)|]; injection ST as <- <-; (split; [repeat split; assumption|split; discriminate]). }
  split; [apply GO|]. intros ev' r' X. apply in_app_or in X. destruct X as [X|[X|[]]]; [exact (IH _ _ X)|]. injection X as <- <-. apply GO.
Qed.

(** A state in which the accepting task cannot go on before something arrives. *)
Definition blocked (s : wake) : Prop :=
  wk_buf s = [] /\ wk_rdy s = false /\ wk_aw s = false /\ wk_accept s = ApWait.
Lemma blocked_stays : forall max s h s', blocked s -> wake_run max s h s' -> (forall x, In x h -> ~ arrival x) ->
  blocked s' /\ forall ev r, In (ev, r) h -> forall p, r <> UrAccepted p.
Proof.
  intros max s h s' A R NA. induction R as [|h s1 ev s2 r R IH OK ST]; [split; [exact A|intros ? ? []]|].
  destruct IH as (A1 & IH); [intros x X; apply NA, in_or_app; auto|].
  assert (NE : ~ arrival (ev, r)) by (apply NA, in_or_app; right; left; reflexivity).
  assert (GO : blocked s2 /\ (forall p, r <> UrAccepted p)).
  { destruct A1 as (E1 & E2 & E4 & E5). unfold wake_step in ST. destruct (us_dead (wk_sys s1)); [discriminate|].
    destruct ev as [it| |bw order| |sid|sid bw|sid|sid|sid]; rewrite ?E5 in ST; try discriminate.
    - exfalso. apply NE. exact Logic.I.
    - rewrite E2, E4 in ST. destruct bw; discriminate.
    - destruct (nth_error (wk_recv s1) sid) as [[]|]; try discriminate.
      destruct (nth_error (us_sess (wk_sys s1)) sid) as [[p []]|]; try discriminate. injection ST as <- <-.
      split; [repeat split; assumption|discriminate].
    - destruct (wk_lock s1) as [|i rest]; [discriminate|]. destruct (Nat.eqb i sid && _); [|discriminate].
      rewrite E1 in ST. cbn [sock_try_read] in ST. cbn [news] in ST. rewrite !orb_false_r in ST. unfold udp_step in ST.
      destruct (us_dead (wk_sys s1)); [discriminate|].
      destruct (nth_error (us_sess (wk_sys s1)) sid) as [[p []]|]; try discriminate.
      + injection ST as <- <-. split; [repeat split; assumption|discriminate].
      + unfold try_recv_from in ST. cbn [try_recv] in ST.
        destruct (conn_get (u_conn (us_udp (wk_sys s1))) p) as [[[|b q] a]|]; [|destruct (u_nr (us_udp (wk_sys s1)) =? 0)|];
          injection ST as <- <-; (split; [repeat split; assumption|discriminate]).
    - destruct (nth_error (wk_recv s1) sid) as [[]|]; try discriminate. injection ST as <- <-.
      split; [repeat split; assumption|discriminate].
    - destruct (nth_error (wk_recv s1) sid) as [[]|]; try discriminate; injection ST as <- <-;
        (split; [repeat split; assumption|discriminate]).
    - destruct (nth_error (wk_recv s1) sid) as [[]|]; try discriminate. unfold udp_step in ST.
      destruct (us_dead (wk_sys s1)); [discriminate|].
      destruct (nth_error (us_sess (wk_sys s1)) sid) as [[p []]|]; try discriminate.
      + injection ST as <- <-. split; [repeat split; assumption|discriminate].
      + unfold disconnect in ST. destruct (u_nr (us_udp (wk_sys s1)) <? _); [injection ST as <- <-; split; [repeat split; assumption|discriminate]|].
        destruct (conn_remove _ _); [destruct (_ =? 0)|]; injection ST as <- <-; (split; [repeat split; assumption|discriminate]). }
  split; [apply GO|]. intros ev' r' X. apply in_app_or in X. destruct X as [X|[X|[]]]; [exact (IH _ _ X)|]. injection X as <- <-. apply GO.
Qed.

(** A session is accepted and gets its first datagram. *)
Definition opened (i : nat) (n : N) : list wake_event :=
  [from n; accept false; WvSpawn; WvCall i; WvRecv i true].

(** False in general: a datagram of the wrong size makes the woken receive of one
    session fail, which loses the wake-up of the others.  Here the sessions 3 and 4
    wait, the daemon has a datagram for each of them, and unless something else
    arrives neither gets it. *)
Definition lost_schedule : list wake_event :=
  opened 0 1 ++ opened 1 2 ++ opened 2 3 ++ opened 3 4
  ++ [accept true;                                (* nothing to accept: sleeps for 10 ms *)
      WvCall 0; WvCall 1; WvCall 2; WvCall 3;
      from 5; from 4; short;
      WvRecv 0 false;                             (* session 0 reads the datagram of 192.0.2.5, *)
      WvRecv 1 false;                             (* session 1 that of 192.0.2.4 *)
      WvRecv 2 true;                              (* and session 2 the short one *)
      WvAcceptTimer; accept true; WvSpawn;        (* 192.0.2.5 is accepted as session 4 *)
      WvCall 4].
Theorem C66_receive_is_woken_refuted :
  exists h0 s0, wake_run 8 wake_start h0 s0
  /\ receiving s0 3 (peer 4) /\ undelivered s0 (peer 4) [dgram 4]
  /\ receiving s0 4 (peer 5) /\ undelivered s0 (peer 5) [dgram 5]
  /\ forall h s, wake_run 8 s0 h s -> (forall x, In x h -> ~ arrival x) -> forall ev b, ~ In (ev, UrDatagram b) h.
Proof.
  destruct (wrun 8 wake_start lost_schedule) as [[s0 h0]|] eqn:E; [|vm_compute in E; discriminate E].
  exists h0, s0.
  assert (R1 : wake_run 8 wake_start h0 s0).
  { eapply (wrun_sound 8 lost_schedule wake_start [] wake_start); [constructor| |exact E]. repeat (constructor; [cbn; auto|]). constructor. }
  split; [exact R1|]. vm_compute in E. injection E as <- <-.
  split; [split; reflexivity|]. split; [eexists; split; reflexivity|].
  split; [split; reflexivity|]. split; [eexists; split; reflexivity|].
  intros h s R NA ev b X. eapply asleep_stays in R; [|repeat split|exact NA].
  destruct R as (_ & R). destruct (R _ _ X) as (_ & Y). eapply Y. reflexivity.
Qed.
Print Assumptions C66_receive_is_woken_refuted.

(** The loss does not last: whatever failed before (short of an overflow), from
    the next look of any task at the queues that neither fails nor accepts a new
    peer, every receive that waits for a datagram that the daemon has is woken as
    above. *)
Theorem C66_next_pass_repairs : forall max h0 ev r0 s0 h s i p b q n,
  wake_run max wake_start (h0 ++ [(ev, r0)]) s0 -> Forall steady h0 -> pass (ev, r0) ->
  receiving s0 i p -> undelivered s0 p (b :: q) -> ahead s0 i n ->
  wake_run max s0 h s -> Forall calm h -> (forall r, ~ In (WvCancel i, r) h) ->
  (forall by_watch e, ~ In (WvRecv i by_watch, UrFail e) h) ->
  (exists h1 by_watch h2, h = h1 ++ (WvRecv i by_watch, UrDatagram b) :: h2 /\ (wakes h1 <= n)%nat)
  \/ (receiving s i p /\ (wakes h <= n)%nat /\ exists j s' r, wake_step max s (WvRecv j true) = Some (s', r)).
Proof.
  intros max h0 ev r0 s0 h s i p b q n R0 C0 P. apply woken.
  inversion R0 as [E|h' s1 ev' s2 r' R1 OK ST E]; [destruct h0; discriminate E|].
  apply app_inj_tail in E. destruct E as (-> & E). injection E as -> ->. subst s2.
  eapply pass_winv; [eapply noted_winv_run; eassumption|exact OK|exact ST|exact P].
Qed.
Print Assumptions C66_next_pass_repairs.

(** After the lost wake-ups of [lost_schedule] a third datagram arrives, from a
    known peer.  The accept task takes it from the socket, and then the sessions 3
    and 4 get theirs. *)
Example C66_repaired : exists h0 ev r0 s0 h s,
  wake_run 8 wake_start (h0 ++ [(ev, r0)]) s0 /\ Forall steady h0 /\ pass (ev, r0)
  /\ receiving s0 3 (peer 4) /\ undelivered s0 (peer 4) [dgram 4] /\ ahead s0 3 0
  /\ wake_run 8 s0 h s /\ Forall calm h
  /\ In (WvRecv 3 true, UrDatagram (dgram 4)) h /\ In (WvRecv 4 true, UrDatagram (dgram 5)) h.
Proof.
  set (evs := lost_schedule ++ [from 1; accept false]).
  set (evs2 := [WvRecv 3 true; WvRecv 4 true]).
  destruct (wrun 8 wake_start evs) as [[s0 h0]|] eqn:E; [|vm_compute in E; discriminate E].
  destruct (wrun 8 s0 evs2) as [[s h]|] eqn:E2; [|vm_compute in E; injection E as <- _; vm_compute in E2; discriminate E2].
  assert (R1 : wake_run 8 wake_start h0 s0).
  { eapply (wrun_sound 8 evs wake_start [] wake_start); [constructor| |exact E]. repeat (constructor; [cbn; auto|]). constructor. }
  assert (R2 : wake_run 8 s0 h s).
  { eapply (wrun_sound 8 evs2 s0 [] s0); [constructor| |exact E2]. repeat (constructor; [cbn; auto|]). constructor. }
  exists (removelast h0), (accept false), UrIdle, s0, h, s.
  vm_compute in E. injection E as <- <-. vm_compute in E2. injection E2 as <- <-.
  split; [exact R1|]. split; [repeat (constructor; [cbn; first [exact Logic.I|discriminate]|]); constructor|].
  split; [exact Logic.I|]. split; [split; reflexivity|]. split; [eexists; split; reflexivity|].
  split; [exists [], [4%nat]; split; [reflexivity|]; split; [intros []|reflexivity]|].
  split; [exact R2|]. split; [repeat (constructor; [cbn; auto|]); constructor|].
  split; [left|right; left]; reflexivity.
Qed.

(** *** C67 *)

(** At most one connection is unaccepted in each state of the history. *)
Definition one_at_a_time (max : N) (h : whist) : Prop :=
  forall h1 h2 s, h = h1 ++ h2 -> wake_run max wake_start h1 s ->
  forall p q, unaccepted s p -> unaccepted s q -> p = q.
Definition accept_ok (x : wake_event * udp_result) : Prop :=
  match x with (WvAccept _ _, UrFail _) => False | _ => True end.

(** As long as no accept fails, no receive fails that was woken by the daemon's own
    notification, and at most one new peer at a time is waiting: while
    the daemon has a datagram of a peer that it has not accepted, the accepting
    task does not sleep for longer than its 10 ms: it can go on at once, whatever
    arrives or does not arrive at the socket, and then it accepts a peer unless
    what it reads from the socket makes it fail. *)
Theorem C67_accept_is_woken_partial : forall max h s p,
  wake_run max wake_start h s -> Forall calm h -> Forall accept_ok h -> one_at_a_time max h -> unaccepted s p ->
  match wk_accept s with
  | ApIdle => exists s', wake_step max s WvSpawn = Some (s', UrDone)
  | ApSleep => exists s', wake_step max s WvAcceptTimer = Some (s', UrDone)
  | ApWait => forall order, (forall l, Permutation (order l) l) ->
      (exists s' r, wake_step max s (WvAccept true order) = Some (s', r))
      /\ forall by_watch s' r, wake_step max s (WvAccept by_watch order) = Some (s', r) ->
         (exists q, r = UrAccepted q) \/ (exists e, r = UrFail e) \/ r = UrPanic
  end.
Proof.
  intros max h s p R C AO ONE (c & G & A).
  assert (I : winv max s) by (eapply winv_run; [exact R|apply winv_start|exact C]).
  assert (AW : wk_aw s = true).
  { clear I. revert p c G A. induction R as [|h s1 ev s2 r R IH OK ST].
    - intros p c G. discriminate G.
    - apply Forall_app in C. destruct C as (C1 & C2). inversion C2 as [|? ? C3 _].
      apply Forall_app in AO. destruct AO as (AO1 & AO2). inversion AO2 as [|? ? AO3 _].
      assert (I1 : winv max s1) by (eapply winv_run; [exact R|apply winv_start|exact C1]).
      assert (ONE1 : one_at_a_time max h).
      { intros h1 h2 s' E. eapply ONE. rewrite E, <- app_assoc. reflexivity. }
      specialize (IH C1 AO1 ONE1).
      assert (ONES : forall p q, unaccepted s1 p -> unaccepted s1 q -> p = q) by (eapply (ONE h _ s1 eq_refl); exact R).
      intros p c G A. unfold wake_step in ST. rewrite (wi_dead _ _ I1) in ST.
      destruct ev as [it| |bw order| |sid|sid bw|sid|sid|sid].
      + injection ST as <- <-. eapply IH; eauto.
      + destruct (wk_accept s1); try discriminate. injection ST as <- <-. eapply IH; eauto.
      + destruct (wk_accept s1); try discriminate. destruct (if bw then wk_aw s1 else wk_rdy s1); [|discriminate].
        destruct (sock_try_read (wk_buf s1) (wk_rdy s1)) as [[rd buf] rdy].
        destruct (udp_step max (wk_sys s1) (UeAccept rd order)) as [[sys r0]|] eqn:U; [|discriminate].
        assert (RR : r0 = r) by (destruct r0; injection ST as _ <-; reflexivity). subst r0.
        assert (NP : r <> UrPanic) by (intros ->; destruct C3). assert (NO : r <> UrFail OVERFLOW) by (intros ->; apply C3; reflexivity).
        destruct (accept_cases _ _ _ _ _ _ (wi_dead _ _ I1) (wi_t _ _ I1) OK U NP NO) as (D & st1 & GR & CS).
        destruct GR as (_ & _ & GN & _).
        destruct CS as [(-> & SU & SS & ALL)|[(p' & c' & -> & G' & A' & SU & SS)|(e & -> & SU & SS)]]; [| |destruct AO3]; injection ST as <-.
        * cbn [wk_sys] in G. rewrite SU in G. rewrite (ALL _ _ G) in A. discriminate.
        * cbn [wk_aw wk_sys] in *. rewrite SU in G. cbn [u_conn] in G. destruct (sa_dec p' p) as [-> |N].
          -- rewrite get_set_same in G. injection G as <-. discriminate A.
          -- rewrite get_set_other in G by exact N.
             destruct (GN _ _ G A) as [(c0 & G0 & A0)|NW]; [|rewrite NW; apply orb_true_r].
             destruct (GN _ _ G' A') as [(c1 & G1 & A1)|NW]; [|rewrite NW; apply orb_true_r].
             exfalso. apply N. apply ONES; eexists; eauto.
      + destruct (wk_accept s1); try discriminate. injection ST as <- <-. eapply IH; eauto.
      + destruct (nth_error (wk_recv s1) sid) as [[]|] eqn:PH; try discriminate.
        destruct (nth_error (us_sess (wk_sys s1)) sid) as [[p' []]|] eqn:O'; try discriminate. injection ST as <- <-. eapply IH; eauto.
      + destruct (fail_or_not r) as [(e & ->)|NF].
        { destruct (calm_recv _ _ _ C3) as (-> & NO).
          assert (ST0 : wake_step max s1 (WvRecv sid false) = Some (s2, UrFail e)) by (unfold wake_step; rewrite (wi_dead _ _ I1); exact ST).
          destruct (recv_fail _ _ _ _ _ _ I1 ST0 NO) as (rest & buf & rdy & n & LK & ->). cbn [wk_sys wk_aw] in *.
          rewrite (IH _ _ G A). reflexivity. }
        destruct (wk_lock s1) as [|i0 rest] eqn:LK; [discriminate|]. destruct (Nat.eqb_spec i0 sid) as [-> |]; [|discriminate]. cbn [andb] in ST.
        destruct (if bw then wk_rw s1 else wk_rdy s1); [|discriminate].
        destruct (sock_try_read (wk_buf s1) (wk_rdy s1)) as [[rd buf] rdy].
        destruct (udp_step max (wk_sys s1) (UeRecv sid rd)) as [[sys r0]|] eqn:U; [|discriminate].
        assert (RR : r0 = r) by (destruct r0; injection ST as _ <-; reflexivity). subst r0.
        assert (NP : r <> UrPanic) by (intros ->; destruct bw; destruct C3).
        assert (PW : nth_error (wk_recv s1) sid = Some RpWait) by (apply (wi_lock _ _ I1); rewrite LK; left; reflexivity).
        destruct (wi_busy _ _ I1 _ _ PW ltac:(discriminate)) as (p' & O').
        destruct (recv_cases _ _ _ _ _ _ _ (wi_dead _ _ I1) (wi_t _ _ I1) O' U NP NF) as (D & SS & st1 & c' & GR & G' & A' & CS).
        destruct GR as (_ & _ & GN & _).
        assert (G1 : exists c1, conn_get (u_conn st1) p = Some c1 /\ uc_accepted c1 = false).
        { destruct CS as [(-> & SU & _)|(b' & q' & -> & X & SU)]; injection ST as <-; cbn [wk_sys] in G; rewrite SU in G; [eauto|].
          cbn [u_conn] in G. destruct (sa_dec p' p) as [-> |N]; [rewrite get_set_same in G; injection G as <-; discriminate A|].
          rewrite get_set_other in G by exact N. eauto. }
        destruct G1 as (c1 & G1 & A1).
        assert (OLD : wk_aw s1 || news max (us_udp (wk_sys s1)) rd = true).
        { destruct (GN _ _ G1 A1) as [(c0 & G0 & A0)|NW]; [|rewrite NW; apply orb_true_r]. rewrite (IH _ _ G0 A0). reflexivity. }
        destruct CS as [(-> & SU & _)|(b' & q' & -> & X & SU)]; injection ST as <-; exact OLD.
      + destruct (nth_error (wk_recv s1) sid) as [[]|] eqn:PH; try discriminate. injection ST as <- <-. eapply IH; eauto.
      + destruct (nth_error (wk_recv s1) sid) as [[]|]; try discriminate; injection ST as <- _; eapply IH; eauto.
      + destruct (nth_error (wk_recv s1) sid) as [[]|] eqn:PH; try discriminate.
        destruct (udp_step max (wk_sys s1) (UeClose sid)) as [[sys r0]|] eqn:U; [|discriminate]. injection ST as <- <-.
        assert (NP : r0 <> UrPanic) by (intros ->; destruct C3).
        destruct (close_cases _ _ _ _ _ (wi_dead _ _ I1) (wi_t _ _ I1) U NP) as (D & [-> |(p' & O' & SU & SS)]); [eapply IH; eauto|].
        cbn [wk_sys wk_aw] in *. rewrite SU in G. cbn [u_conn] in G.
        destruct (sa_dec p' p) as [-> |N]; [rewrite get_remove_same in G; discriminate|].
        rewrite get_remove_other in G by exact N. eapply IH; eauto. }
  destruct (wk_accept s) eqn:PH.
  - eexists. unfold wake_step. rewrite (wi_dead _ _ I), PH. reflexivity.
  - intros order OK. split.
    + unfold wake_step. rewrite (wi_dead _ _ I), PH, AW. destruct (sock_try_read (wk_buf s) (wk_rdy s)) as [[rd buf] rdy].
      unfold udp_step. rewrite (wi_dead _ _ I). destruct (try_accept max (us_udp (wk_sys s)) rd order) as [st r].
      destruct r; eexists _, _; reflexivity.
    + intros bw s' r ST. unfold wake_step in ST. rewrite (wi_dead _ _ I), PH in ST.
      destruct (if bw then wk_aw s else wk_rdy s); [|discriminate].
      destruct (sock_try_read (wk_buf s) (wk_rdy s)) as [[rd buf] rdy].
      destruct (udp_step max (wk_sys s) (UeAccept rd order)) as [[sys r0]|] eqn:U; [|discriminate].
      assert (RR : r0 = r) by (destruct r0; injection ST as _ <-; reflexivity). subst r0.
      assert (DEC : r = UrPanic \/ r = UrFail OVERFLOW \/ (r <> UrPanic /\ r <> UrFail OVERFLOW)).
      { destruct r; try (right; right; split; discriminate); [|left; reflexivity].
        destruct (string_dec e OVERFLOW) as [-> |N]; [right; left; reflexivity|right; right; split; congruence]. }
      destruct DEC as [-> |[-> |(NP & NO)]]; [auto|eauto|].
      destruct (accept_cases _ _ _ _ _ _ (wi_dead _ _ I) (wi_t _ _ I) OK U NP NO) as (D & st1 & GR & CS).
      destruct GR as (_ & GR & _). destruct (GR _ _ G) as (c1 & q1 & G1 & A1 & _).
      destruct CS as [(-> & SU & SS & ALL)|[(p' & c' & -> & _)|(e & -> & _)]]; [|eauto..].
      rewrite (ALL _ _ G1) in A1. congruence.
  - eexists. unfold wake_step. rewrite (wi_dead _ _ I), PH. reflexivity.
Qed.
Print Assumptions C67_accept_is_woken_partial.

(** A new peer whose datagram was read by the receive of another session. *)
Example C67_example : exists h s, wake_run 8 wake_start h s /\ Forall calm h /\ Forall accept_ok h
  /\ one_at_a_time 8 h /\ unaccepted s (peer 2) /\ wk_accept s = ApWait /\ wk_buf s = [].
Proof.
  set (evs := opened 0 1 ++ [WvCall 0; from 2; WvRecv 0 false]).
  destruct (wrun 8 wake_start evs) as [[s h]|] eqn:E; [|vm_compute in E; discriminate E]. exists h, s.
  assert (R1 : wake_run 8 wake_start h s).
  { eapply (wrun_sound 8 evs wake_start [] wake_start); [constructor| |exact E]. repeat (constructor; [cbn; auto|]). constructor. }
  split; [exact R1|]. vm_compute in E. injection E as <- <-.
  split; [repeat (constructor; [cbn; auto|]); constructor|]. split; [repeat (constructor; [cbn; auto|]); constructor|].
  split; [|split; [eexists; split; reflexivity|split; reflexivity]].
  intros h1 h2 s E R p q UP UQ. apply wrun_complete in R.
  do 9 (destruct h1 as [|x h1];
    [vm_compute in R; injection R as <-; destruct UP as (c & GP & AP), UQ as (d & GQ & AQ);
     cbn [wk_sys us_udp u_conn conn_get] in GP, GQ;
     repeat match goal with
            | H : (if ?t then _ else _) = _ |- _ => destruct t eqn:?
            | H : Some _ = Some _ |- _ => injection H as <-
            end; try discriminate;
     repeat match goal with H : sa_eqb _ _ = true |- _ => apply sa_eqb_spec in H end; congruence
    |try discriminate E; injection E as <- E]).
Qed.

(** False in general, even if nothing ever fails: two peers knock while the
    accepting task sleeps, the receives of two sessions read their datagrams, the
    two notifications become one, and the second peer is not accepted unless
    something else arrives. *)
Definition forgotten_schedule : list wake_event :=
  opened 0 1 ++ opened 1 2
  ++ [accept true;                                (* nothing to accept: sleeps for 10 ms *)
      WvCall 0; WvCall 1;
      from 3; from 4;
      WvRecv 0 false; WvRecv 1 false;             (* the sessions read the two datagrams *)
      WvAcceptTimer; accept true; WvSpawn].       (* 192.0.2.3 is accepted *)
Theorem C67_accept_is_woken_refuted :
  exists h0 s0, wake_run 8 wake_start h0 s0 /\ Forall unfailing h0
  /\ unaccepted s0 (peer 4) /\ wk_accept s0 = ApWait
  /\ forall h s, wake_run 8 s0 h s -> (forall x, In x h -> ~ arrival x) -> forall ev p, ~ In (ev, UrAccepted p) h.
Proof.
  destruct (wrun 8 wake_start forgotten_schedule) as [[s0 h0]|] eqn:E; [|vm_compute in E; discriminate E].
  exists h0, s0.
  assert (R1 : wake_run 8 wake_start h0 s0).
  { eapply (wrun_sound 8 forgotten_schedule wake_start [] wake_start); [constructor| |exact E]. repeat (constructor; [cbn; auto|]). constructor. }
  split; [exact R1|]. vm_compute in E. injection E as <- <-.
  split; [repeat (constructor; [cbn; auto|]); constructor|].
  split; [eexists; split; reflexivity|]. split; [reflexivity|].
  intros h s R NA ev p X. eapply blocked_stays in R; [|repeat split|exact NA].
  destruct R as (_ & R). eapply (R _ _ X). reflexivity.
Qed.
Print Assumptions C67_accept_is_woken_refuted.

(** Nothing stays in the receive buffer of the socket because the accept task does
    not notice: whatever happened before, while something waits there the accept
    task can go on without waiting for an arrival, and once it is in its [select]
    the next thing it does is to take the first item out. *)
Theorem C67_socket_is_read : forall max h s it rest,
  wake_run max wake_start h s -> us_dead (wk_sys s) = false -> wk_buf s = it :: rest ->
  match wk_accept s with
  | ApIdle => exists s', wake_step max s WvSpawn = Some (s', UrDone) /\ wk_accept s' = ApWait /\ wk_buf s' = it :: rest
  | ApSleep => exists s', wake_step max s WvAcceptTimer = Some (s', UrDone) /\ wk_accept s' = ApWait /\ wk_buf s' = it :: rest
  | ApWait => (forall order, exists s' r, wake_step max s (WvAccept false order) = Some (s', r))
      /\ forall by_watch order s' r, wake_step max s (WvAccept by_watch order) = Some (s', r) -> wk_buf s' = rest
  end.
Proof.
  intros max h s it rest R D B.
  assert (G : forall h s, wake_run max wake_start h s -> wk_buf s <> [] -> wk_rdy s = true).
  { clear. intros h s R. induction R as [|h s1 ev s2 r R IH OK ST]; [intros X; exfalso; apply X; reflexivity|]. intros NE.
    assert (RD : forall sys sleep aw rw ac ph lk rd buf rdy, sock_try_read (wk_buf s1) (wk_rdy s1) = (rd, buf, rdy) ->
      wk_buf (Wake sys buf rdy aw rw ac ph lk) <> [] -> (sleep : unit) = tt -> rdy = true).
    { intros sys sl aw rw ac ph lk rd buf rdy E X _. cbn in X. unfold sock_try_read in E.
      destruct (wk_buf s1) as [|[d p|] r1] eqn:EB; injection E as <- <- <-; [congruence| |]; apply IH; discriminate. }
    unfold wake_step in ST. destruct (us_dead (wk_sys s1)); [discriminate|].
    destruct ev; try (destruct (sock_try_read (wk_buf s1) (wk_rdy s1)) as [[rd buf] rdy] eqn:E);
      repeat match type of ST with context [match ?x with _ => _ end] => destruct x eqn:?; try discriminate ST end;
      injection ST as <- <-; cbn in *; subst; try reflexivity; try (apply IH; exact NE);
      eapply (RD (wk_sys s1) tt false false ApIdle [] []); eauto. }
  assert (RDY : wk_rdy s = true) by (eapply G; [exact R|rewrite B; discriminate]).
  destruct (wk_accept s) eqn:A.
  - eexists. unfold wake_step. rewrite D, A. split; [reflexivity|]. split; [reflexivity|exact B].
  - split.
    + intros order. unfold wake_step. rewrite D, A, RDY. destruct (sock_try_read (wk_buf s) true) as [[rd buf] rdy].
      unfold udp_step. rewrite D. destruct (try_accept max (us_udp (wk_sys s)) rd order) as [st r].
      destruct r; eexists; eexists; reflexivity.
    + intros bw order s' r ST. unfold wake_step in ST. rewrite D, A in ST. destruct (if bw then wk_aw s else wk_rdy s); [|discriminate].
      rewrite B in ST. cbn [sock_try_read] in ST. destruct it; destruct (udp_step _ _ _) as [[sys x]|]; try discriminate;
        destruct x; injection ST as <- <-; reflexivity.
  - eexists. unfold wake_step. rewrite D, A. split; [reflexivity|]. split; [reflexivity|exact B].
Qed.
Print Assumptions C67_socket_is_read.

(** Two datagrams wait while the accept task runs and takes one of them. *)
Example C67_two_waiting : exists h s, wake_run 8 wake_start h s /\ us_dead (wk_sys s) = false
  /\ wk_buf s = [ItDatagram (dgram 2) (peer 2)] /\ wk_accept s = ApWait.
Proof.
  set (evs := [from 1; from 2; accept false; WvSpawn]).
  destruct (wrun 8 wake_start evs) as [[s h]|] eqn:E; [|vm_compute in E; discriminate E]. exists h, s.
  split.
  - eapply (wrun_sound 8 evs wake_start [] wake_start); [constructor| |exact E]. repeat (constructor; [cbn; auto|]). constructor.
  - vm_compute in E. injection E as <- <-. repeat split.
Qed.
