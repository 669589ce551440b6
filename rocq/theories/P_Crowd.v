(** A knock over UDP among others: the dispatcher while everybody keeps to the
    limits, and the simulation by the channels of S_E2e.v. *)

From Coq Require Import String ZArith NArith List Bool Permutation Lia ZifyBool ZifyNat ZifyN.
From Verif Require Import M_Base M_Proto M_IpAddr M_FwProto M_ConfTypes M_Server M_Client M_Firewall M_Udp M_Accept
  S_Wire S_Session S_Client S_Pair S_Firewall S_E2e S_Accept S_Dgram S_Crowd
  P_Base P_Udp P_Pair P_Both P_Bytes P_Dgram P_Accept P_Busy.
Import ListNotations.
Local Open Scope N_scope.

Section Disp.
Variable max : N.
Variable here : sockaddr.
Hypothesis MAX : 1 <= max.

(** The datagrams of [p] that nobody has received, oldest first. *)
Definition pending (u : udp_sys) (buf : list (list N * sockaddr)) (p : sockaddr) : list (list N) :=
  match conn_get (u_conn (us_udp u)) p with Some x => uc_queue x | None => [] end
  ++ map (fun x => firstn MSG_SIZE (fst x)) (filter (fun x => sa_eqb (snd x) p) buf).

Lemma unread_pending : forall u buf p, unread u buf p = length (pending u buf p).
Proof.
  intros u buf p. unfold unread, pending. rewrite app_length, map_length. destruct (conn_get _ p); reflexivity.
Qed.

Record dok (u : udp_sys) (buf : list (list N * sockaddr)) : Prop := {
  do_dead : us_dead u = false;
  do_nodup : NoDup (keys (u_conn (us_udp u)));
  do_nr : u_nr (us_udp u) = N.of_nat (total (u_conn (us_udp u)));
  do_len : forall b p, In (b, p) buf -> (MSG_SIZE <= length b)%nat;
  do_four : forall p, (length (pending u buf p) <= 4)%nat;
  do_peers : forall l, NoDup l -> (forall q, In q l -> q <> here /\ in_use u buf q) -> N.of_nat (length l) < max;
  do_acc : forall p x, conn_get (u_conn (us_udp u)) p = Some x -> uc_accepted x = true ->
             exists j, nth_error (us_sess u) j = Some (p, false);
  do_open : forall j p, nth_error (us_sess u) j = Some (p, false) ->
              exists x, conn_get (u_conn (us_udp u)) p = Some x /\ uc_accepted x = true;
  do_one : forall i j p, nth_error (us_sess u) i = Some (p, false) -> nth_error (us_sess u) j = Some (p, false) -> i = j;
  do_new : forall p x, conn_get (u_conn (us_udp u)) p = Some x -> uc_accepted x = false -> uc_queue x <> []
}.

Lemma dok_start : dok (udp_start []) [].
Proof.
  constructor; cbn; auto; try discriminate; try contradiction; try lia.
  - constructor.
  - intros l ND H. destruct l as [|q l]; [cbn; lia|]. destruct (H q (or_introl eq_refl)) as (_ & [(j & E)|E]); [destruct j; discriminate|contradiction].
  - intros j p E. destruct j; discriminate.
  - intros i j p E. destruct i; discriminate.
Qed.

Lemma nodup_split : forall (l : list sockaddr), NoDup l ->
  (length l <= length (filter (fun q => negb (sa_eqb q here)) l) + 1)%nat.
Proof.
  induction l as [|q l IH]; intros ND; [cbn; lia|]. inversion ND; subst. cbn [filter].
  destruct (sa_eqb q here) eqn:E; cbn [negb length]; [|specialize (IH ltac:(assumption)); lia].
  apply sa_eqb_spec in E. subst q.
  assert (F : filter (fun q => negb (sa_eqb q here)) l = l).
  { assert (N : ~ In here l) by assumption. clear - N. induction l as [|q l IH]; [reflexivity|]. cbn.
    rewrite sa_eqb_neq by (intros ->; apply N; left; reflexivity). cbn. f_equal. apply IH. intros I. apply N. right. exact I. }
  rewrite F. lia.
Qed.

(** Peers with a connection are in use. *)
Lemma keys_in_use : forall u buf q, dok u buf -> In q (keys (u_conn (us_udp u))) -> in_use u buf q.
Proof.
  intros u buf q D I. destruct (conn_get (u_conn (us_udp u)) q) as [x|] eqn:G.
  - destruct (uc_accepted x) eqn:A; [left; eapply do_acc; eauto|right]. pose proof (do_new _ _ D _ _ G A) as N.
    unfold unread. rewrite G. destruct (uc_queue x); [congruence|]. cbn. lia.
  - exfalso. apply get_none_keys in G. auto.
Qed.

Lemma keys_bound : forall u buf l, dok u buf -> NoDup l -> (forall q, In q l -> in_use u buf q) -> N.of_nat (length l) <= max.
Proof.
  intros u buf l D ND H. pose proof (nodup_split l ND) as S.
  pose proof (do_peers _ _ D (filter (fun q => negb (sa_eqb q here)) l) (NoDup_filter _ ND)) as P.
  assert (Q : N.of_nat (length (filter (fun q => negb (sa_eqb q here)) l)) < max); [|lia].
  apply P. intros q I. apply filter_In in I. destruct I as (I & E). split; [|auto].
  intros ->. rewrite sa_eqb_refl in E. discriminate.
Qed.

Lemma keys_length : forall m : list (sockaddr * uconn), length (keys m) = length m.
Proof. intros m. apply map_length. Qed.

(** Reading the oldest datagram. *)
Definition kept (u : udp) (b : list N) (p : sockaddr) : udp :=
  let x := match conn_get (u_conn u) p with Some x => x | None => UConn [] false end in
  M_Udp.Udp (conn_set (u_conn u) p (UConn (uc_queue x ++ [firstn MSG_SIZE b]) (uc_accepted x))) (u_nr u + 1).

Lemma pending_kept : forall u buf b p q,
  pending (UdpSys (kept (us_udp u) b p) (us_sess u) false) buf q = pending u ((b, p) :: buf) q.
Proof.
  intros u buf b p q. unfold pending, kept. cbn [us_udp u_conn filter snd].
  destruct (sa_eqb p q) eqn:E.
  - apply sa_eqb_spec in E. subst q. rewrite get_set_same. cbn [uc_queue map fst]. rewrite <- app_assoc.
    destruct (conn_get _ p); reflexivity.
  - rewrite get_set_other; [reflexivity|]. intros ->. rewrite sa_eqb_refl in E. discriminate.
Qed.

Lemma in_use_pending : forall u buf u' buf' q, us_sess u = us_sess u' -> pending u buf q = pending u' buf' q ->
  in_use u buf q -> in_use u' buf' q.
Proof. intros u buf u' buf' q E P [(j & H)|H]; [left; exists j; congruence|right]. rewrite unread_pending in *. congruence. Qed.

Lemma read_ok : forall u buf b p, dok u ((b, p) :: buf) ->
  try_recv max (us_udp u) (RdDatagram b p) = (kept (us_udp u) b p, Ok tt)
  /\ dok (UdpSys (kept (us_udp u) b p) (us_sess u) false) buf.
Proof.
  intros u buf b p D.
  set (m := u_conn (us_udp u)) in *. set (x := match conn_get m p with Some x => x | None => UConn [] false end).
  set (m' := conn_set m p (UConn (uc_queue x ++ [firstn MSG_SIZE b]) (uc_accepted x))).
  assert (LB : (MSG_SIZE <= length b)%nat) by (eapply do_len; [exact D|left; reflexivity]).
  assert (USE : in_use u ((b, p) :: buf) p).
  { right. unfold unread. cbn [filter snd]. rewrite sa_eqb_refl. cbn [length]. lia. }
  assert (ND' : NoDup (keys m')) by (apply set_nodup, (do_nodup _ _ D)).
  assert (IU : forall q, In q (keys m') -> in_use u ((b, p) :: buf) q).
  { intros q I. unfold m' in I. rewrite set_keys in I. destruct (conn_get m p); [apply keys_in_use; assumption|].
    apply in_app_or in I. destruct I as [I|[<-|[]]]; [apply keys_in_use; assumption|exact USE]. }
  assert (LM' : N.of_nat (length m') <= max) by (rewrite <- keys_length; eapply keys_bound; [exact D|exact ND'|exact IU]).
  assert (QX : (length (uc_queue x) + 1 <= 4)%nat).
  { pose proof (do_four _ _ D p) as F. unfold pending in F. fold m in F. cbn [filter snd map] in F. rewrite sa_eqb_refl in F.
    rewrite app_length in F. cbn [map length] in F. unfold x. destruct (conn_get m p); cbn [uc_queue length] in *; lia. }
  assert (Q4 : forall q y, In (q, y) m' -> (length (uc_queue y) <= 4)%nat).
  { intros q y I. pose proof (in_get _ _ _ ND' I) as G.
    pose proof (do_four _ _ D q) as F. rewrite <- pending_kept in F. unfold pending in F. cbn [us_udp kept u_conn] in F.
    fold m in F. fold x in F. fold m' in F. rewrite G, app_length in F. lia. }
  assert (TT : (total m' = total m + 1)%nat).
  { pose proof (total_set m p (UConn (uc_queue x ++ [firstn MSG_SIZE b]) (uc_accepted x))) as T. fold m' in T.
    cbn [uc_queue] in T. rewrite app_length in T. cbn [length] in T. unfold qlen in T. unfold x in *. destruct (conn_get m p); cbn [uc_queue length] in *; lia. }
  assert (TB : (total m' <= length m' * 4)%nat) by (apply total_bound; exact Q4).
  pose proof (do_nr _ _ D) as NR. fold m in NR.
  split.
  - unfold try_recv. rewrite firstn_length, Nat.min_l, Nat.eqb_refl by exact LB. cbn [negb]. fold m. fold x.
    assert (LM : len m <= max).
    { unfold len. rewrite <- keys_length. eapply keys_bound; [exact D|exact (do_nodup _ _ D)|]. intros q I. apply keys_in_use; assumption. }
    destruct (N.leb_spec (len m) max); [cbn [negb]|lia].
    cbv zeta. unfold len, UDP_RX_QUEUE_SIZE.
    destruct (N.leb_spec (N.of_nat (length (uc_queue x))) 4); [cbn [negb]|lia].
    destruct (N.eqb_spec (N.of_nat (length (uc_queue x))) 4); [lia|]. rewrite set_set. fold m'.
    destruct (N.ltb_spec max (N.of_nat (length m'))); [lia|].
    destruct (N.leb_spec (u_nr (us_udp u) + 1) (max * 4)); [cbn [negb]; reflexivity|]. exfalso. lia.
  - constructor; cbn [us_dead us_udp us_sess kept u_conn u_nr]; fold m; fold x; fold m'.
    + reflexivity.
    + exact ND'.
    + lia.
    + intros b' p' I. eapply do_len; [exact D|right; exact I].
    + intros q. change (M_Udp.Udp m' (u_nr (us_udp u) + 1)) with (kept (us_udp u) b p). rewrite pending_kept. apply (do_four _ _ D).
    + intros l NL HL. apply (do_peers _ _ D l NL). intros q I. destruct (HL q I) as (A & B). split; [exact A|].
      eapply in_use_pending; [|apply pending_kept|exact B]. reflexivity.
    + intros q y G A. destruct (sa_dec p q) as [->|N].
      * unfold m' in G. rewrite get_set_same in G. injection G as <-. cbn in A. unfold x in A.
        destruct (conn_get m q) as [z|] eqn:Gz; [|discriminate A]. eapply do_acc; eauto.
      * unfold m' in G. rewrite get_set_other in G by exact N. eapply do_acc; eauto.
    + intros j q O. destruct (do_open _ _ D j q O) as (y & G & A). fold m in G. destruct (sa_dec p q) as [->|N].
      * eexists. unfold m'. rewrite get_set_same. split; [reflexivity|]. cbn. unfold x. rewrite G. exact A.
      * exists y. unfold m'. rewrite get_set_other by exact N. auto.
    + apply (do_one _ _ D).
    + intros q y G A. destruct (sa_dec p q) as [->|N].
      * unfold m' in G. rewrite get_set_same in G. injection G as <-. cbn. destruct (uc_queue x); discriminate.
      * unfold m' in G. rewrite get_set_other in G by exact N. eapply do_new; eauto.
Qed.

(** The read of any pass. *)
Lemma pass_read : forall u buf rd buf', dok u buf -> reads buf rd buf' ->
  exists v, try_recv max (us_udp u) rd = (v, Ok tt) /\ dok (UdpSys v (us_sess u) false) buf'
    /\ (forall p, pending (UdpSys v (us_sess u) false) buf' p = pending u buf p)
    /\ (v = us_udp u /\ buf' = buf \/ exists b p, buf = (b, p) :: buf').
Proof.
  intros u buf rd buf' D R. inversion R; subst.
  - destruct (read_ok _ _ _ _ D) as (E & D'). eexists. split; [exact E|]. split; [exact D'|]. split; [intros q; apply pending_kept|].
    right. eauto.
  - exists (us_udp u). split; [reflexivity|]. split; [|split; [reflexivity|left; auto]].
    destruct u as [v ss de]. pose proof (do_dead _ _ D) as E. cbn in E. subst de. exact D.
Qed.

(** A pass of the accept task. *)
Lemma accept_ok : forall u buf rd buf' order u' r, dok u buf -> reads buf rd buf' -> (forall l, Permutation (order l) l) ->
  udp_step max u (UeAccept rd order) = Some (u', r) ->
  dok u' buf' /\ (forall p, pending u' buf' p = pending u buf p)
  /\ (r = UrIdle /\ us_sess u' = us_sess u
      \/ exists p, r = UrAccepted p /\ us_sess u' = us_sess u ++ [(p, false)]
           /\ pending u buf p <> [] /\ forall j, nth_error (us_sess u) j <> Some (p, false)).
Proof.
  intros u buf rd buf' order u' r D R PO ST. destruct (pass_read _ _ _ _ D R) as (v & E & D1 & P1 & _).
  unfold udp_step in ST. rewrite (do_dead _ _ D) in ST. unfold try_accept in ST. rewrite E in ST.
  destruct (first_new (order (u_conn v))) as [p|] eqn:FN.
  - destruct (first_new_some _ _ FN) as (x & I & A). apply (Permutation_in _ (PO _)) in I.
    pose proof (do_nodup _ _ D1) as ND. cbn [us_udp] in ND. pose proof (in_get _ _ _ ND I) as G. rewrite G in ST. injection ST as <- <-.
    assert (NO : forall j, nth_error (us_sess u) j <> Some (p, false)).
    { intros j O. destruct (do_open _ _ D1 j p O) as (y & Gy & Ay). cbn [us_udp] in Gy. congruence. }
    assert (PE : forall q, pending (UdpSys (M_Udp.Udp (conn_set (u_conn v) p (UConn (uc_queue x) true)) (u_nr v)) (us_sess u ++ [(p, false)]) false) buf' q
                   = pending u buf q).
    { intros q. rewrite <- P1. unfold pending. cbn [us_udp u_conn]. destruct (sa_dec p q) as [->|N].
      - rewrite get_set_same, G. reflexivity.
      - rewrite get_set_other by exact N. reflexivity. }
    assert (NE : pending u buf p <> []).
    { rewrite <- P1. unfold pending. cbn [us_udp]. rewrite G. pose proof (do_new _ _ D1 _ _ G A) as Q. destruct (uc_queue x); [congruence|discriminate]. }
    split; [|split; [exact PE|right; exists p; repeat split; auto]].
    constructor; cbn [us_dead us_udp us_sess u_conn u_nr is_panic].
    + reflexivity.
    + apply set_nodup. exact ND.
    + pose proof (do_nr _ _ D1) as NR. cbn [us_udp] in NR. pose proof (total_set (u_conn v) p (UConn (uc_queue x) true)) as T.
      unfold qlen in T. rewrite G in T. cbn [uc_queue] in T. lia.
    + apply (do_len _ _ D1).
    + intros q. rewrite PE. apply (do_four _ _ D).
    + intros l NL HL. apply (do_peers _ _ D l NL). intros q Iq. destruct (HL q Iq) as (Aq & B). split; [exact Aq|].
      destruct B as [(j & O)|U].
      * cbn [us_sess] in O. destruct (Nat.lt_ge_cases j (length (us_sess u))) as [L|L].
        -- left. exists j. rewrite nth_error_app1 in O by exact L. exact O.
        -- rewrite nth_error_app2 in O by exact L. destruct (j - length (us_sess u))%nat as [|k]; [|destruct k; discriminate].
           injection O as <-. right. rewrite unread_pending. destruct (pending u buf p); [congruence|discriminate].
      * right. rewrite unread_pending in *. rewrite PE in U. exact U.
    + intros q y Gy Ay. destruct (sa_dec p q) as [->|N].
      * exists (length (us_sess u)). rewrite nth_error_app2, Nat.sub_diag by lia. reflexivity.
      * rewrite get_set_other in Gy by exact N. destruct (do_acc _ _ D1 q y Gy Ay) as (j & O). exists j. cbn [us_sess] in O.
        apply nth_app_some. exact O.
    + intros j q O. destruct (Nat.lt_ge_cases j (length (us_sess u))) as [L|L].
      * rewrite nth_error_app1 in O by exact L. destruct (do_open _ _ D1 j q O) as (y & Gy & Ay). cbn [us_udp] in Gy.
        exists y. split; [|exact Ay]. rewrite get_set_other; [exact Gy|]. intros ->. exact (NO j O).
      * rewrite nth_error_app2 in O by exact L. destruct (j - length (us_sess u))%nat as [|k]; [|destruct k; discriminate].
        injection O as <-. rewrite get_set_same. eexists. split; [reflexivity|reflexivity].
    + assert (OLD : forall i q, nth_error (us_sess u ++ [(p, false)]) i = Some (q, false) ->
        (nth_error (us_sess u) i = Some (q, false) /\ q <> p) \/ (i = length (us_sess u) /\ q = p)).
      { intros i q O. destruct (Nat.lt_ge_cases i (length (us_sess u))) as [L|L].
        - left. rewrite nth_error_app1 in O by exact L. split; [exact O|]. intros ->. exact (NO i O).
        - right. rewrite nth_error_app2 in O by exact L. destruct (i - length (us_sess u))%nat as [|k] eqn:K; [|destruct k; discriminate].
          injection O as <-. split; [lia|reflexivity]. }
      intros i j q Oi Oj. destruct (OLD _ _ Oi) as [(A1 & B1)|(A1 & B1)], (OLD _ _ Oj) as [(A2 & B2)|(A2 & B2)]; try congruence.
      eapply (do_one _ _ D); eassumption.
    + intros q y Gy Ay. destruct (sa_dec p q) as [->|N].
      * rewrite get_set_same in Gy. injection Gy as <-. discriminate Ay.
      * rewrite get_set_other in Gy by exact N. eapply (do_new _ _ D1); eassumption.
  - injection ST as <- <-. cbn [is_panic]. split; [exact D1|]. split; [exact P1|]. left. auto.
Qed.

(** A pass of a receiving session. *)
Lemma recv_ok : forall u buf rd buf' j p u' r, dok u buf -> reads buf rd buf' ->
  nth_error (us_sess u) j = Some (p, false) ->
  udp_step max u (UeRecv j rd) = Some (u', r) ->
  dok u' buf' /\ us_sess u' = us_sess u
  /\ (forall q, q <> p -> pending u' buf' q = pending u buf q)
  /\ (r = UrIdle /\ pending u' buf' p = pending u buf p
      \/ exists b, r = UrDatagram b /\ pending u buf p = b :: pending u' buf' p).
Proof.
  intros u buf rd buf' j p u' r D R O ST. destruct (pass_read _ _ _ _ D R) as (v & E & D1 & P1 & _).
  unfold udp_step in ST. rewrite (do_dead _ _ D), O in ST. unfold try_recv_from in ST. rewrite E in ST.
  destruct (do_open _ _ D1 j p O) as (x & G & A). cbn [us_udp] in G. rewrite G in ST.
  destruct x as [[|b q] a].
  - injection ST as <- <-. cbn [is_panic]. split; [exact D1|]. split; [reflexivity|]. split; [intros; apply P1|]. left. auto.
  - cbn in A. subst a.
    pose proof (do_nr _ _ D1) as NR. cbn [us_udp] in NR. pose proof (qlen_total (u_conn v) p) as QT. unfold qlen in QT. rewrite G in QT. cbn [uc_queue length] in QT.
    destruct (N.eqb_spec (u_nr v) 0); [lia|]. injection ST as <- <-. cbn [is_panic].
    assert (PP : forall s, pending u buf p = b :: pending (UdpSys (M_Udp.Udp (conn_set (u_conn v) p (UConn q true)) (u_nr v - 1)) s false) buf' p).
    { intros s. rewrite <- P1. unfold pending. cbn [us_udp u_conn]. rewrite G, get_set_same. reflexivity. }
    assert (PQ : forall s z, z <> p -> pending (UdpSys (M_Udp.Udp (conn_set (u_conn v) p (UConn q true)) (u_nr v - 1)) s false) buf' z = pending u buf z).
    { intros s z N. rewrite <- P1. unfold pending. cbn [us_udp u_conn]. rewrite get_set_other by congruence. reflexivity. }
    split; [|split; [reflexivity|split; [intros z N; apply PQ; exact N|right; exists b; split; [reflexivity|apply PP]]]].
    constructor; cbn [us_dead us_udp us_sess u_conn u_nr].
    + reflexivity.
    + apply set_nodup, (do_nodup _ _ D1).
    + pose proof (total_set (u_conn v) p (UConn q true)) as T. unfold qlen in T. rewrite G in T. cbn [uc_queue length] in T. lia.
    + apply (do_len _ _ D1).
    + intros z. destruct (sa_dec z p) as [->|N].
      * pose proof (do_four _ _ D p) as F. rewrite (PP (us_sess u)) in F. cbn [length] in F. lia.
      * rewrite PQ by exact N. apply (do_four _ _ D).
    + intros l NL HL. apply (do_peers _ _ D l NL). intros z Iz. destruct (HL z Iz) as (Az & B). split; [exact Az|].
      destruct B as [B|B]; [left; exact B|]. destruct (sa_dec z p) as [->|N]; [left; exists j; exact O|].
      right. rewrite unread_pending in *. rewrite PQ in B by exact N. exact B.
    + intros z y Gy Ay. destruct (sa_dec p z) as [->|N]; [exists j; exact O|]. rewrite get_set_other in Gy by exact N. eapply (do_acc _ _ D1); eassumption.
    + intros i z Oi. destruct (do_open _ _ D1 i z Oi) as (y & Gy & Ay). cbn [us_udp] in Gy. destruct (sa_dec p z) as [->|N].
      * rewrite get_set_same. eexists. split; reflexivity.
      * exists y. rewrite get_set_other by exact N. auto.
    + apply (do_one _ _ D).
    + intros z y Gy Ay. destruct (sa_dec p z) as [->|N].
      * rewrite get_set_same in Gy. injection Gy as <-. discriminate Ay.
      * rewrite get_set_other in Gy by exact N. eapply (do_new _ _ D1); eassumption.
Qed.

Lemma recv_closed : forall u buf rd j p u' r, dok u buf -> nth_error (us_sess u) j = Some (p, true) ->
  udp_step max u (UeRecv j rd) = Some (u', r) -> u' = u /\ r = UrClosed.
Proof. intros u buf rd j p u' r D O ST. unfold udp_step in ST. rewrite (do_dead _ _ D), O in ST. injection ST as <- <-. auto. Qed.

Lemma nth_set_closed : forall l j i p x, nth_error l j = Some (p, x) ->
  nth_error (set_closed l j) i = if Nat.eqb i j then Some (p, true) else nth_error l i.
Proof.
  induction l as [|[q y] l IH]; intros j i p x E; [destruct j; discriminate|].
  destruct j as [|j]; cbn in E |- *.
  - injection E as -> ->. destruct i; reflexivity.
  - destruct i as [|i]; [reflexivity|]. cbn. eapply IH. exact E.
Qed.
Lemma closed_fst : forall l j, map fst (set_closed l j) = map fst l.
Proof. induction l as [|[q y] l IH]; intros [|j]; cbn; try reflexivity. f_equal. apply IH. Qed.

(** The end of a session. *)
Lemma close_ok : forall u buf j p x u' r, dok u buf -> nth_error (us_sess u) j = Some (p, x) ->
  udp_step max u (UeClose j) = Some (u', r) ->
  dok u' buf /\ map fst (us_sess u') = map fst (us_sess u)
  /\ (forall i, nth_error (us_sess u') i = if Nat.eqb i j then Some (p, true) else nth_error (us_sess u) i)
  /\ (forall q, q <> p -> pending u' buf q = pending u buf q)
  /\ (pending u buf p = [] -> pending u' buf p = []).
Proof.
  intros u buf j p x u' r D O ST. unfold udp_step in ST. rewrite (do_dead _ _ D), O in ST. destruct x.
  { injection ST as <- <-. split; [exact D|]. split; [reflexivity|]. split; [|auto].
    intros i. destruct (Nat.eqb_spec i j) as [->|]; [exact O|reflexivity]. }
  destruct (do_open _ _ D j p O) as (y & G & A). pose proof (do_nr _ _ D) as NR.
  pose proof (total_remove (u_conn (us_udp u)) p (do_nodup _ _ D)) as TR. unfold qlen in TR. rewrite G in TR.
  unfold disconnect in ST. rewrite G in ST. unfold len in ST.
  destruct (N.ltb_spec (u_nr (us_udp u)) (N.of_nat (length (uc_queue y)))); [lia|].
  assert (E : exists rr, u' = UdpSys (M_Udp.Udp (conn_remove (u_conn (us_udp u)) p) (u_nr (us_udp u) - N.of_nat (length (uc_queue y)))) (set_closed (us_sess u) j) false
              /\ rr = r).
  { destruct (conn_remove (u_conn (us_udp u)) p) as [|z m] eqn:CR.
    - cbn [total] in TR. destruct (N.eqb_spec (u_nr (us_udp u) - N.of_nat (length (uc_queue y))) 0); [|lia].
      injection ST as <- <-. eexists. split; reflexivity.
    - injection ST as <- <-. eexists. split; reflexivity. }
  destruct E as (rr & -> & ->). clear ST.
  assert (NS : forall i, nth_error (set_closed (us_sess u) j) i = if Nat.eqb i j then Some (p, true) else nth_error (us_sess u) i)
    by (intros i; eapply nth_set_closed; exact O).
  assert (OTH : forall i q, nth_error (set_closed (us_sess u) j) i = Some (q, false) -> nth_error (us_sess u) i = Some (q, false) /\ i <> j /\ q <> p).
  { intros i q Oi. rewrite NS in Oi. destruct (Nat.eqb_spec i j); [discriminate|]. split; [exact Oi|]. split; [assumption|].
    intros ->. pose proof (do_one _ _ D _ _ _ Oi O). congruence. }
  set (s2 := set_closed (us_sess u) j) in *. set (n2 := u_nr (us_udp u) - N.of_nat (length (uc_queue y))) in *.
  assert (PQ : forall z, z <> p -> pending (UdpSys (M_Udp.Udp (conn_remove (u_conn (us_udp u)) p) n2) s2 false) buf z = pending u buf z).
  { intros z N. unfold pending. cbn [us_udp u_conn]. rewrite get_remove_other by congruence. reflexivity. }
  assert (PP : pending u buf p = uc_queue y ++ pending (UdpSys (M_Udp.Udp (conn_remove (u_conn (us_udp u)) p) n2) s2 false) buf p).
  { unfold pending. cbn [us_udp u_conn]. rewrite G, get_remove_same. reflexivity. }
  split; [|split; [apply closed_fst|split; [exact NS|split; [exact PQ|intros E; rewrite PP in E; apply app_eq_nil in E; apply E]]]].
  constructor; cbn [us_dead us_udp us_sess u_conn u_nr].
  + reflexivity.
  + apply remove_nodup, (do_nodup _ _ D).
  + unfold n2. lia.
  + apply (do_len _ _ D).
  + intros z. destruct (sa_dec z p) as [->|N]; [|rewrite PQ by exact N; apply (do_four _ _ D)].
    pose proof (do_four _ _ D p) as F. rewrite PP, app_length in F. lia.
  + intros l NL HL. apply (do_peers _ _ D l NL). intros z Iz. destruct (HL z Iz) as (Az & B). split; [exact Az|].
    destruct B as [(i & Oi)|B]; [left; exists i; apply (OTH i z Oi)|]. right. rewrite unread_pending in *.
    destruct (sa_dec z p) as [->|N]; [|rewrite PQ in B by exact N; exact B]. rewrite PP, app_length. lia.
  + intros z w Gz Az. destruct (sa_dec p z) as [->|N]; [rewrite get_remove_same in Gz; discriminate|].
    rewrite get_remove_other in Gz by exact N. destruct (do_acc _ _ D _ _ Gz Az) as (i & Oi). exists i. rewrite NS.
    destruct (Nat.eqb_spec i j) as [->|]; [|exact Oi]. congruence.
  + intros i z Oi. destruct (OTH i z Oi) as (Oi' & NI & NZ). destruct (do_open _ _ D i z Oi') as (w & Gw & Aw). exists w.
    rewrite get_remove_other by congruence. auto.
  + intros i k z Oi Ok. eapply (do_one _ _ D); [apply (OTH i z Oi)|apply (OTH k z Ok)].
  + intros z w Gz Az. destruct (sa_dec p z) as [->|N]; [rewrite get_remove_same in Gz; discriminate|].
    rewrite get_remove_other in Gz by exact N. eapply (do_new _ _ D); eassumption.
Qed.

(** A datagram arrives. *)
Lemma pending_snoc : forall u buf b p q, pending u (buf ++ [(b, p)]) q
  = pending u buf q ++ (if sa_eqb p q then [firstn MSG_SIZE b] else []).
Proof.
  intros u buf b p q. unfold pending. rewrite filter_app, map_app, app_assoc. cbn. destruct (sa_eqb p q); reflexivity.
Qed.

Lemma arrive_ok : forall u buf b p, dok u buf -> (MSG_SIZE <= length b)%nat -> (length (pending u buf p) < 4)%nat ->
  (forall l, NoDup l -> (forall q, In q l -> q <> here /\ (q = p \/ in_use u buf q)) -> N.of_nat (length l) < max) ->
  dok u (buf ++ [(b, p)]).
Proof.
  intros u buf b p D LB L4 RM. constructor; try apply D.
  - intros b' p' I. apply in_app_or in I. destruct I as [I|[[= <- <-]|[]]]; [eapply do_len; eauto|exact LB].
  - intros q. rewrite pending_snoc, app_length. destruct (sa_eqb p q) eqn:E.
    + apply sa_eqb_spec in E. subst q. cbn. lia.
    + cbn. pose proof (do_four _ _ D q). lia.
  - intros l NL HL. apply RM; [exact NL|]. intros q I. destruct (HL q I) as (A & B). split; [exact A|].
    destruct B as [B|B]; [right; left; exact B|]. destruct (sa_dec p q) as [->|N]; [left; reflexivity|]. right. right.
    rewrite unread_pending in *. rewrite pending_snoc, sa_eqb_neq, app_nil_r in B by exact N. exact B.
Qed.

(** A pass of the accept task comes closer to the client's datagram, whatever the
    order of the map. *)
Definition fresh (m : list (sockaddr * uconn)) : nat := length (filter (fun x => negb (uc_accepted (snd x))) m).
Definition nb (x : uconn) : nat := if uc_accepted x then 0 else 1.

Lemma fresh_set : forall m p x,
  (fresh (conn_set m p x) + match conn_get m p with Some y => nb y | None => 0 end = fresh m + nb x)%nat.
Proof.
  unfold fresh, nb. induction m as [|[q d] m IH]; intros p x; cbn.
  - destruct (uc_accepted x); reflexivity.
  - destruct (sa_eqb q p) eqn:E; cbn.
    + destruct (uc_accepted d), (uc_accepted x); cbn; lia.
    + specialize (IH p x). destruct (uc_accepted d); cbn; lia.
Qed.

Definition measure (u : udp_sys) (buf : list (list N * sockaddr)) : nat := (2 * length buf + fresh (u_conn (us_udp u)))%nat.

Lemma accept_progress : forall u buf order, dok u buf -> any_order order -> pending u buf here <> [] ->
  (forall j, nth_error (us_sess u) j <> Some (here, false)) ->
  exists rd buf' u' r, reads buf rd buf' /\ udp_step max u (UeAccept rd order) = Some (u', r)
    /\ (measure u' buf' < measure u buf)%nat.
Proof.
  intros u buf order D PO PE NO. destruct buf as [|[b p] buf].
  - exists RdWouldBlock, []. unfold udp_step, try_accept. rewrite (do_dead _ _ D). cbn [try_recv].
    assert (X : exists y, conn_get (u_conn (us_udp u)) here = Some y /\ uc_accepted y = false).
    { unfold pending in PE. destruct (conn_get (u_conn (us_udp u)) here) as [y|] eqn:G; [|cbn in PE; congruence].
      exists y. split; [reflexivity|]. destruct (uc_accepted y) eqn:A; [|reflexivity].
      destruct (do_acc _ _ D here y G A) as (j & O). exfalso. exact (NO j O). }
    destruct X as (y & G & A).
    destruct (first_new (order (u_conn (us_udp u)))) as [q|] eqn:FN.
    + destruct (first_new_some _ _ FN) as (x & I & Ax). apply (Permutation_in _ (PO _)) in I.
      pose proof (in_get _ _ _ (do_nodup _ _ D) I) as Gq. rewrite Gq.
      eexists _, _. split; [constructor|]. split; [reflexivity|]. unfold measure. cbn [us_udp u_conn length].
      pose proof (fresh_set (u_conn (us_udp u)) q (UConn (uc_queue x) true)) as F. rewrite Gq in F. unfold nb in F. cbn [uc_accepted] in F. rewrite Ax in F. lia.
    + exfalso. pose proof (first_new_none _ FN here y (Permutation_in _ (Permutation_sym (PO _)) (get_in _ _ _ G))) as Z. congruence.
  - exists (RdDatagram b p), buf. destruct (read_ok _ _ _ _ D) as (E & D'). unfold udp_step, try_accept. rewrite (do_dead _ _ D), E.
    assert (FK : (fresh (u_conn (kept (us_udp u) b p)) <= fresh (u_conn (us_udp u)) + 1)%nat).
    { unfold kept. cbn [u_conn]. pose proof (fresh_set (u_conn (us_udp u)) p
        (UConn (uc_queue match conn_get (u_conn (us_udp u)) p with Some x => x | None => UConn [] false end ++ [firstn MSG_SIZE b])
               (uc_accepted match conn_get (u_conn (us_udp u)) p with Some x => x | None => UConn [] false end))) as F.
      unfold nb at 2 in F. destruct (uc_accepted _) in F |- *; lia. }
    destruct (first_new (order (u_conn (kept (us_udp u) b p)))) as [q|] eqn:FN.
    + destruct (first_new_some _ _ FN) as (x & I & Ax). apply (Permutation_in _ (PO _)) in I.
      pose proof (in_get _ _ _ (do_nodup _ _ D') I) as Gq. cbn [us_udp] in Gq. rewrite Gq.
      eexists _, _. split; [constructor|]. split; [reflexivity|]. unfold measure. cbn [us_udp u_conn length].
      pose proof (fresh_set (u_conn (kept (us_udp u) b p)) q (UConn (uc_queue x) true)) as F. rewrite Gq in F. unfold nb in F. cbn [uc_accepted] in F. rewrite Ax in F. lia.
    + eexists _, _. split; [constructor|]. split; [reflexivity|]. unfold measure. cbn [us_udp u_conn length]. lia.
Qed.

(** A pass of the client's session comes closer to its datagram. *)
Lemma recv_progress : forall u buf j, dok u buf -> nth_error (us_sess u) j = Some (here, false) -> pending u buf here <> [] ->
  exists rd buf' u' r, reads buf rd buf' /\ udp_step max u (UeRecv j rd) = Some (u', r)
    /\ ((length buf' < length buf)%nat \/ exists b, r = UrDatagram b).
Proof.
  intros u buf j D O PE. destruct buf as [|[b p] buf].
  - exists RdWouldBlock, []. unfold udp_step, try_recv_from. rewrite (do_dead _ _ D), O. cbn [try_recv].
    destruct (do_open _ _ D j here O) as (x & G & A). rewrite G. unfold pending in PE. rewrite G, app_nil_r in PE.
    destruct x as [[|b q] a]; [cbn in PE; congruence|].
    pose proof (do_nr _ _ D) as NR. pose proof (qlen_total (u_conn (us_udp u)) here) as QT. unfold qlen in QT. rewrite G in QT. cbn [uc_queue length] in QT.
    destruct (N.eqb_spec (u_nr (us_udp u)) 0); [lia|].
    eexists _, _. split; [constructor|]. split; [reflexivity|]. right. eexists. reflexivity.
  - exists (RdDatagram b p), buf. unfold udp_step. rewrite (do_dead _ _ D), O.
    destruct (try_recv_from max (us_udp u) (RdDatagram b p) here) as [u' r] eqn:E.
    eexists _, _. split; [constructor|]. split; [reflexivity|]. left. cbn. lia.
Qed.
End Disp.

(** *** The place of a UDP connection on the way to its session *)

Lemma head_step_udp : forall ht hu s ev s', astep ht hu s ev = Some s' -> no_failure ev ->
  (exists a, ac_pc s = HpHold (Conn false a) /\ ev = AeTask /\ waiting_udp s = a :: waiting_udp s'
             /\ started false s' = started false s ++ [a] /\ ac_started s' = ac_started s ++ [Conn false a])
  \/ ((forall a, ac_pc s = HpHold (Conn false a) -> ev = AeTask -> False)
      /\ waiting_udp s' = waiting_udp s ++ udp_arrivals [ev]
      /\ started false s' = started false s
      /\ exists l, ac_started s' = ac_started s ++ l).
Proof.
  intros ht hu [b t u pc pm st lv ch ex] ev s' ST NF. unfold astep in ST. cbn [ac_exit] in ST. destruct ex; [discriminate|].
  unfold waiting_udp, in_hand, in_join, udp_arrivals, started.
  assert (N0 : forall l : list conn, exists x, l = l ++ x) by (intros l; exists []; symmetry; apply app_nil_r).
  destruct ev as [a|e|r|tcp ok| |c| | | |]; cbn in *; try contradiction.
  - destruct ht; [|discriminate]. injection ST as <-. right. cbn. split; [discriminate|]. rewrite app_nil_r. auto.
  - destruct ht, t, e, b; try discriminate; try contradiction; injection ST as <-; right; cbn; (split; [discriminate|]);
      rewrite app_nil_r; auto.
  - destruct hu, u, r; try discriminate; try contradiction; injection ST as <-; right; cbn; (split; [discriminate|]);
      rewrite ?app_nil_r; auto.
  - right. split; [discriminate|]. destruct pc; try discriminate. destruct tcp.
    + destruct t as [|[a|e|]]; try discriminate; cbn in ST.
      * destruct ok; [|contradiction]. cbn in ST. injection ST as <-. cbn. rewrite app_nil_r. auto.
      * injection ST as <-. cbn. rewrite app_nil_r. auto.
    + destruct u as [|[a|e|]]; try discriminate; cbn in ST; injection ST as <-; cbn; rewrite ?app_nil_r; auto.
  - destruct pc as [|c|c| |]; try discriminate.
    + destruct (pm =? 0); [discriminate|]. injection ST as <-. right. cbn. split; [congruence|]. rewrite app_nil_r. auto.
    + injection ST as <-. destruct c as [[|] a]; cbn.
      * right. split; [congruence|]. rewrite app_nil_r. split; [reflexivity|]. rewrite filter_app, app_nil_r. split; [reflexivity|].
        eexists. reflexivity.
      * left. exists a. rewrite filter_app, map_app. cbn. auto.
    + injection ST as <-. right. cbn. split; [congruence|]. rewrite app_nil_r. auto.
  - destruct (existsb (N.eqb c) lv); [|discriminate]. injection ST as <-. right. cbn. split; [congruence|]. rewrite app_nil_r. auto.
  - injection ST as <-. right. cbn. split; [congruence|]. rewrite app_nil_r. auto.
  - destruct ch; [discriminate|]. injection ST as <-. right. cbn. split; [congruence|]. rewrite app_nil_r. auto.
Qed.

Section Sim.
Variable mac : list byte -> list byte -> list byte.
Variable sc conf : config.
Variable c : chain_name.
Variable has_tcp : bool.
Variable num : N.
Variable here : sockaddr.
Variable ord : (list (sockaddr * uconn) -> list (sockaddr * uconn)) -> Prop.
Hypothesis NUM : 1 <= num.
Hypothesis ORD : forall o, ord o -> any_order o.

Notation step := (crowd_step mac sc conf c has_tcp num here ord).
Notation run := (crowd_run mac sc conf c has_tcp num here ord).

Definition prog (se : option (N * nat * sprog)) : sprog :=
  match se with Some (_, _, p) => p | None => server_run mac sc (sa_ip here) end.

(** Where the client's connection is. *)
Definition where_ (acc : acceptor) (u : udp_sys) (se : option (N * nat * sprog)) : Prop :=
  match se with
  | None => ~ In here (started false acc) /\ (forall i b, nth_error (us_sess u) i = Some (here, b) -> b = false)
  | Some (n, j, p) =>
      nth_error (ac_started acc) (N.to_nat n) = Some (Conn false here) /\ (j < length (started false acc))%nat
      /\ exists b, nth_error (us_sess u) j = Some (here, b) /\ (b = true -> exists v, p = SRet v)
  end.

Record crowd_ok (acc : acceptor) (u : udp_sys) (buf : list (list N * sockaddr)) (se : option (N * nat * sprog)) : Prop := {
  ck_disp : dok num here u buf;
  ck_clean : clean has_tcp num acc;
  ck_link : map fst (us_sess u) = started false acc ++ waiting_udp acc;
  ck_once : forall i i' b b', nth_error (us_sess u) i = Some (here, b) -> nth_error (us_sess u) i' = Some (here, b') -> i = i';
  ck_where : where_ acc u se
}.

Inductive csim : crowd -> full -> Prop :=
| Csim : forall acc u buf cl se up dn d h rq rp op,
    by_udp cl -> crowd_ok acc u buf se -> sized MSG_SIZE (pending u buf here ++ up) ->
    csim (Crowd acc u buf cl se up dn d h rq rp)
         (Full (Pair cl (prog se) (pending u buf here ++ up) dn op) d h rq rp).

Lemma nth_fst : forall (l : list (sockaddr * bool)) i p, nth_error (map fst l) i = Some p -> exists b, nth_error l i = Some (p, b).
Proof.
  induction l as [|[q b] l IH]; intros [|i] p E; cbn in *; try discriminate.
  - injection E as ->. eauto.
  - apply IH. exact E.
Qed.
Lemma fst_nth : forall (l : list (sockaddr * bool)) i p b, nth_error l i = Some (p, b) -> nth_error (map fst l) i = Some p.
Proof. intros l i p b E. rewrite nth_error_map, E. reflexivity. Qed.

(** A step of the accepting tasks that finds no UDP connection. *)
Lemma task_ok : forall acc u buf se ev acc', crowd_ok acc u buf se -> astep has_tcp true acc ev = Some acc' -> no_failure ev ->
  udp_arrivals [ev] = [] ->
  crowd_ok acc' u buf (new_udp_session mac sc here acc ev se) /\ prog (new_udp_session mac sc here acc ev se) = prog se.
Proof.
  intros acc u buf se ev acc' K ST NF AR.
  pose proof (clean_step _ _ _ _ _ _ (ck_clean _ _ _ _ K) NF ST) as CL. pose proof (ck_link _ _ _ _ K) as LK.
  destruct (head_step_udp _ _ _ _ _ ST NF) as [(a & PC & -> & W & S & AS)|(NP & W & S & l & AS)].
  - unfold new_udp_session. rewrite PC.
    assert (LK' : map fst (us_sess u) = started false acc' ++ waiting_udp acc').
    { rewrite LK, W, S, <- app_assoc. reflexivity. }
    assert (NA : exists b, nth_error (us_sess u) (length (started false acc)) = Some (a, b)).
    { apply nth_fst. rewrite LK, W, nth_error_app2, Nat.sub_diag by lia. reflexivity. }
    destruct NA as (b & NA).
    destruct (sa_eqb a here) eqn:EA.
    + apply sa_eqb_spec in EA. subst a.
      assert (se = None) as ->.
      { destruct se as [[[n j] p]|]; [|reflexivity]. exfalso. destruct (ck_where _ _ _ _ K) as (_ & L & b' & NB & _).
        pose proof (ck_once _ _ _ _ K _ _ _ _ NA NB). lia. }
      split; [|reflexivity]. destruct (ck_where _ _ _ _ K) as (_ & NC). specialize (NC _ _ NA). subst b.
      split; [apply K|exact CL|exact LK'|apply K|]. cbn. split; [rewrite AS, Nat2N.id, nth_error_app2, Nat.sub_diag by lia; reflexivity|].
      split; [rewrite S, app_length; cbn; lia|]. exists false. split; [exact NA|discriminate].
    + split; [|reflexivity]. split; [apply K|exact CL|exact LK'|apply K|]. pose proof (ck_where _ _ _ _ K) as WH.
      destruct se as [[[n j] p]|]; cbn in *.
      * destruct WH as (A & L & B). split; [rewrite AS; apply nth_app_some; exact A|]. split; [rewrite S, app_length; lia|exact B].
      * destruct WH as (A & B). split; [|exact B]. rewrite S. intros I. apply in_app_or in I. destruct I as [I|[->|[]]]; [auto|].
        rewrite sa_eqb_refl in EA. discriminate.
  - assert (EN : new_udp_session mac sc here acc ev se = se).
    { unfold new_udp_session. destruct (ac_pc acc) as [| |[[|] a]| |] eqn:PC; try reflexivity.
      destruct ev; try reflexivity. exfalso. eapply NP; reflexivity. }
    rewrite EN. split; [|reflexivity]. rewrite AR, app_nil_r in W.
    split; [apply K|exact CL|rewrite LK, W, S; reflexivity|apply K|]. pose proof (ck_where _ _ _ _ K) as WH.
    destruct se as [[[n j] p]|]; cbn in *.
    + destruct WH as (A & L & B). split; [rewrite AS; apply nth_app_some; exact A|]. split; [rewrite S; exact L|exact B].
    + destruct WH as (A & B). split; [rewrite S; exact A|exact B].
Qed.

(** A pass of the accept task. *)
Lemma pass_ok : forall acc u buf se rd buf' order u' r acc' up, crowd_ok acc u buf se -> ac_udp acc = JnWait ->
  reads buf rd buf' -> any_order order -> udp_step num u (UeAccept rd order) = Some (u', r) -> passed has_tcp acc r acc' ->
  (forall v, prog se = SRet v -> pending u buf here ++ up = []) ->
  crowd_ok acc' u' buf' se /\ pending u' buf' here = pending u buf here.
Proof.
  intros acc u buf se rd buf' order u' r acc' up K JW RD PO ST PA NE.
  destruct (accept_ok num here NUM _ _ _ _ _ _ _ (ck_disp _ _ _ _ K) RD PO ST) as (D' & PE & [(-> & ES)|(p & -> & ES & NP & NO)]).
  - cbn in PA. subst acc'. split; [|apply PE]. split; [exact D'|apply K|rewrite ES; apply K|rewrite ES; apply K|].
    pose proof (ck_where _ _ _ _ K) as WH. unfold where_ in *. rewrite ES. exact WH.
  - cbn in PA. split; [|apply PE].
    pose proof (clean_step _ _ _ _ _ _ (ck_clean _ _ _ _ K) (ltac:(exact Logic.I) : no_failure (AeUdp (Ok p))) PA) as CL.
    destruct (head_step_udp _ _ _ _ _ PA Logic.I) as [(a & _ & X & _)|(_ & W & S & l & AS)]; [discriminate|]. cbn in W.
    assert (OLD : forall i q b, nth_error (us_sess u') i = Some (q, b) ->
      (nth_error (us_sess u) i = Some (q, b)) \/ (i = length (us_sess u) /\ q = p /\ b = false)).
    { intros i q b E. rewrite ES in E. destruct (Nat.lt_ge_cases i (length (us_sess u))) as [L|L].
      - left. rewrite nth_error_app1 in E by exact L. exact E.
      - right. rewrite nth_error_app2 in E by exact L. destruct (i - length (us_sess u))%nat as [|k] eqn:Z; [|destruct k; discriminate].
        injection E as <- <-. repeat split. lia. }
    (* the client has no older connection *)
    assert (FIRST : p = here -> forall i b, nth_error (us_sess u) i = Some (here, b) -> False).
    { intros -> i b E. destruct b; [|exact (NO i E)]. pose proof (ck_where _ _ _ _ K) as WH.
      destruct se as [[[n j] q]|]; cbn in WH.
      - destruct WH as (_ & _ & b' & NB & RET). pose proof (ck_once _ _ _ _ K _ _ _ _ E NB). subst j.
        assert (b' = true) by congruence. subst b'. destruct (RET eq_refl) as (v & ->). specialize (NE v eq_refl).
        apply app_eq_nil in NE. destruct NE as (NE & _). congruence.
      - destruct WH as (_ & WH). specialize (WH _ _ E). discriminate. }
    split; [exact D'|exact CL| | |].
    + rewrite ES, map_app, S, W, (ck_link _ _ _ _ K), <- app_assoc. reflexivity.
    + intros i i' b b' E E'. destruct (OLD _ _ _ E) as [A|(A1 & A2 & A3)], (OLD _ _ _ E') as [B|(B1 & B2 & B3)].
      * eapply (ck_once _ _ _ _ K); eassumption.
      * exfalso. eapply FIRST; [symmetry; exact B2|exact A].
      * exfalso. eapply FIRST; [symmetry; exact A2|exact B].
      * congruence.
    + pose proof (ck_where _ _ _ _ K) as WH. destruct se as [[[n j] q]|]; cbn in *.
      * destruct WH as (A & L & b & NB & RET). split; [rewrite AS; apply nth_app_some; exact A|]. split; [rewrite S; exact L|].
        exists b. split; [rewrite ES; apply nth_app_some; exact NB|exact RET].
      * destruct WH as (A & B). split; [rewrite S; exact A|]. intros i b E.
        destruct (OLD _ _ _ E) as [X|(_ & _ & X)]; [eapply B; exact X|exact X].
Qed.

Lemma session_ok : forall acc u buf n j p p', crowd_ok acc u buf (Some (n, j, p)) -> (forall v, p <> SRet v) ->
  crowd_ok acc u buf (Some (n, j, p')) /\ nth_error (us_sess u) j = Some (here, false).
Proof.
  intros acc u buf n j p p' K NR. pose proof (ck_where _ _ _ _ K) as (A & L & b & NB & RET).
  assert (b = false) as ->. { destruct b; [|reflexivity]. destruct (RET eq_refl) as (v & E). exfalso. eapply NR. exact E. }
  split; [|exact NB]. split; [apply K..|]. cbn. split; [exact A|]. split; [exact L|]. exists false. split; [exact NB|discriminate].
Qed.

(** Datagrams of others change the dispatcher only. *)
Lemma disp_ok : forall acc u buf se u' buf', crowd_ok acc u buf se -> dok num here u' buf' ->
  map fst (us_sess u') = map fst (us_sess u) ->
  (forall i b, nth_error (us_sess u') i = Some (here, b) <-> nth_error (us_sess u) i = Some (here, b)) ->
  crowd_ok acc u' buf' se.
Proof.
  intros acc u buf se u' buf' K D E N. split; [exact D|apply K|rewrite E; apply K| |].
  - intros i i' b b' A B. apply N in A. apply N in B. eapply (ck_once _ _ _ _ K); eassumption.
  - pose proof (ck_where _ _ _ _ K) as WH. destruct se as [[[n j] p]|]; cbn in *.
    + destruct WH as (A & L & b & NB & RET). split; [exact A|]. split; [exact L|]. exists b. split; [apply N; exact NB|exact RET].
    + destruct WH as (A & B). split; [exact A|]. intros i b X. apply N in X. eapply B. exact X.
Qed.

Lemma csim_step : forall a s s', step a s s' -> forall f, csim s f -> narrow (fu_pair f) ->
  match a with
  | Knock => exists f', full_step conf c 1 f f' /\ csim s' f'
  | Letmeind => csim s' f
  | Others => exists f', full_steps conf c 0 f f' /\ csim s' f'
  end.
Proof.
  intros a s s' ST f S NA. inversion S as [acc u buf cl se up dn d h rq rp op BU K ZU E1 E2]; clear S. subst s f.
  destruct NA as (NL & NE). cbn [fu_pair pr_up pr_down pr_server] in NL, NE. rewrite app_length in NL.
  inversion ST; subst; clear ST.
  - (* lookup *)
    eexists. split; [apply fs_pair; [eapply ps_lookup; eassumption|apply away_same]|]. constructor; auto. inversion BU; auto.
  - eexists. split; [apply fs_pair; [eapply ps_connect; eassumption|apply away_same]|]. constructor; auto. inversion BU; auto.
  - eexists. split; [apply fs_pair; [eapply ps_crand; eassumption|apply away_same]|]. constructor; auto. inversion BU; auto.
  - (* send *)
    eexists. split; [apply fs_pair; [eapply ps_csend; eassumption|apply away_same]|]. rewrite <- app_assoc. constructor; auto.
    + inversion BU; auto.
    + rewrite app_assoc. apply sized_app; [exact ZU|]. eapply wire_length. eassumption.
  - (* receive *)
    rewrite app_length in NL. cbn [length] in NL. destruct x; [|cbn in NL; lia]. destruct y; [|cbn in NL; lia]. cbn [app].
    eexists. split; [apply fs_pair; [eapply ps_crecv|apply away_same]|]. constructor; auto. inversion BU; auto.
  - (* the session receives *)
    destruct (session_ok _ _ _ _ _ _ (SRecv k) K ltac:(discriminate)) as (_ & O).
    destruct (recv_ok num here NUM _ _ _ _ _ _ _ _ (ck_disp _ _ _ _ K) ltac:(eassumption) O ltac:(eassumption)) as (D' & ES & PQ & [(-> & PE)|(b & -> & PE)]).
    + cbn [returned]. rewrite <- PE. constructor; [exact BU| |rewrite PE; exact ZU].
      eapply disp_ok; [exact K|exact D'|rewrite ES; reflexivity|rewrite ES; reflexivity].
    + cbn [returned]. rewrite PE. cbn [app]. eexists. split; [apply fs_pair; [eapply ps_srecv|exact Logic.I]|].
      change (k (RxBuf b)) with (prog (Some (n, j, k (RxBuf b)))). constructor; [exact BU| |].
      * assert (K' : crowd_ok acc u' buf' (Some (n, j, SRecv k))).
        { eapply disp_ok; [exact K|exact D'|rewrite ES; reflexivity|rewrite ES; reflexivity]. }
        apply (session_ok _ _ _ _ _ _ _ K' ltac:(discriminate)).
      * rewrite PE in ZU. cbn [app] in ZU. inversion ZU; assumption.
  - eexists. split; [apply fs_pair; [eapply ps_ssend; eassumption|exact Logic.I]|].
    change (k TxOk) with (prog (Some (n, j, k TxOk))). constructor; auto.
    apply (session_ok _ _ _ _ _ _ _ K ltac:(discriminate)).
  - eexists. split; [apply fs_pair; [eapply ps_srand; eassumption|exact Logic.I]|].
    change (k (Some b)) with (prog (Some (n, j, k (Some b)))). constructor; auto.
    apply (session_ok _ _ _ _ _ _ _ K ltac:(discriminate)).
  - eexists. split; [apply fs_pair; [eapply ps_fwconnect; eassumption|exact Logic.I]|].
    change (k true) with (prog (Some (n, j, k true))). constructor; auto.
    apply (session_ok _ _ _ _ _ _ _ K ltac:(discriminate)).
  - eexists. split; [eapply fs_send; eassumption|].
    change (k true) with (prog (Some (n, j, k true))). constructor; auto.
    apply (session_ok _ _ _ _ _ _ _ K ltac:(discriminate)).
  - eexists. split; [eapply fs_receive; eassumption|].
    change (k (FwRxBuf b)) with (prog (Some (n, j, k (FwRxBuf b)))). constructor; auto.
    apply (session_ok _ _ _ _ _ _ _ K ltac:(discriminate)).
  - (* close *)
    specialize (NE v eq_refl). apply app_eq_nil in NE. destruct NE as (P0 & ->).
    pose proof (ck_where _ _ _ _ K) as (A & L & b & NB & RET).
    destruct (close_ok num here NUM _ _ _ _ _ _ _ (ck_disp _ _ _ _ K) NB ltac:(eassumption)) as (D' & EF & NT & PQ & PP).
    pose proof (PP P0) as P1. rewrite P0 in *. rewrite <- P1. constructor; [exact BU| |rewrite P1; constructor].
    assert (ON : forall i x, nth_error (us_sess u') i = Some (here, x) -> i = j).
    { intros i x E. rewrite NT in E. destruct (Nat.eqb_spec i j); [assumption|]. eapply (ck_once _ _ _ _ K); eassumption. }
    split; [exact D'|apply K|rewrite EF; apply K| |].
    + intros i i' x x' E E'. rewrite (ON _ _ E), (ON _ _ E'). reflexivity.
    + cbn. split; [exact A|]. split; [exact L|]. exists true. split; [rewrite NT, Nat.eqb_refl; reflexivity|eauto].
  - eexists. split; [eapply fs_handle; eassumption|]. constructor; auto.
  - eexists. split; [apply one; eapply fs_other; eassumption|]. constructor; auto.
  - (* to letmeind *)
    rewrite app_length in NL. cbn [length] in NL. destruct x; [|cbn in NL; lia]. destruct y; [|cbn in NL; lia].
    assert (P0 : pending u buf here = []) by (destruct (pending u buf here); [reflexivity|cbn in NL; lia]). rewrite P0 in *. cbn [app] in *.
    assert (LB : length b = MSG_SIZE) by (inversion ZU; assumption).
    assert (PN : pending u (buf ++ [(b, here)]) here = [b]).
    { rewrite pending_snoc, P0, sa_eqb_refl, firstn_msg by exact LB. reflexivity. }
    rewrite <- (app_nil_r [b]), <- PN. constructor; [exact BU| |rewrite PN; exact ZU].
    eapply disp_ok; [exact K| |reflexivity|reflexivity].
    apply arrive_ok; [exact NUM|apply K|lia|rewrite P0; cbn; lia|].
    intros l ND H. apply (do_peers _ _ _ _ (ck_disp _ _ _ _ K) l ND). intros q I. destruct (H q I) as (X & [Y|Y]); [congruence|auto].
  - (* a pass of the accept task *)
    destruct (pass_ok _ _ _ _ _ _ _ _ _ _ up K ltac:(eassumption) ltac:(eassumption) (ORD _ ltac:(eassumption)) ltac:(eassumption) ltac:(eassumption) NE)
      as (K' & PE).
    rewrite <- PE. constructor; [exact BU|exact K'|rewrite PE; exact ZU].
  - (* another task *)
    assert (AR : udp_arrivals [ev] = []) by (destruct ev; try reflexivity; contradiction).
    destruct (task_ok _ _ _ _ _ _ K ltac:(eassumption) (own_no_failure _ ltac:(eassumption)) AR) as (K' & EP).
    rewrite <- EP. constructor; [exact BU|exact K'|exact ZU].
  - (* connections of others *)
    assert (AR : udp_arrivals [ev] = []) by (destruct ev; try reflexivity; contradiction).
    assert (NF : no_failure ev) by (destruct ev; try exact Logic.I; contradiction).
    destruct (task_ok _ _ _ _ _ _ K ltac:(eassumption) NF AR) as (K' & EP).
    assert (EN : new_udp_session mac sc here acc ev se = se).
    { unfold new_udp_session. destruct (ac_pc acc) as [| |[[|] a]| |]; try reflexivity. destruct ev; try reflexivity. contradiction. }
    rewrite EN in *. eexists. split; [constructor|]. constructor; assumption.
  - (* datagrams of others *)
    match goal with R : room _ _ _ _ _ _ |- _ => destruct R as (NH & LB & L4 & RM) end.
    assert (PN : pending u (buf ++ [(b, p)]) here = pending u buf here) by (rewrite pending_snoc, sa_eqb_neq, app_nil_r by exact NH; reflexivity).
    eexists. split; [constructor|]. rewrite <- PN. constructor; [exact BU| |rewrite PN; exact ZU].
    eapply disp_ok; [exact K| |reflexivity|reflexivity].
    apply arrive_ok; [exact NUM|apply K|exact LB|rewrite <- unread_pending; exact L4|exact RM].
  - destruct (recv_ok num here NUM _ _ _ _ _ _ _ _ (ck_disp _ _ _ _ K) ltac:(eassumption) ltac:(eassumption) ltac:(eassumption)) as (D' & ES & PQ & _).
    eexists. split; [constructor|]. rewrite <- (PQ here) by congruence. constructor; [exact BU| |rewrite PQ by congruence; exact ZU].
    eapply disp_ok; [exact K|exact D'|rewrite ES; reflexivity|rewrite ES; reflexivity].
  - destruct (close_ok num here NUM _ _ _ _ _ _ _ (ck_disp _ _ _ _ K) ltac:(eassumption) ltac:(eassumption)) as (D' & EF & NT & PQ & PP).
    eexists. split; [constructor|]. rewrite <- (PQ here) by congruence. constructor; [exact BU| |rewrite PQ by congruence; exact ZU].
    eapply disp_ok; [exact K|exact D'|exact EF|].
    intros i b. rewrite NT. destruct (Nat.eqb_spec i j) as [->|]; [|reflexivity].
    split; intros E; congruence.
Qed.

(** *** letmeind goes on by itself *)

Definition quiet (w : list actor) : Prop := Forall (eq Letmeind) w.

Lemma run_more : forall w s s1, run w s s1 -> forall w' s2, run w' s1 s2 -> run (w ++ w') s s2.
Proof.
  intros w s s1 A w' s2 B. induction B as [s1|w' a s1 s3 s4 B IH ST].
  - rewrite app_nil_r. exact A.
  - rewrite app_assoc. econstructor; [apply IH; exact A|exact ST].
Qed.
Lemma run_one : forall a s s', step a s s' -> run [a] s s'.
Proof. intros a s s' H. change [a] with ([] ++ [a]). econstructor; [constructor|exact H]. Qed.

Lemma quiet_run : forall w s s', run w s s' -> quiet w -> forall f, csim s f -> narrow (fu_pair f) -> csim s' f.
Proof.
  intros w s s' R. induction R as [s|w a s s1 s2 R IH ST]; intros Q f S NA; [exact S|].
  apply Forall_app in Q. destruct Q as (Q & Qa). inversion Qa; subst. eapply (csim_step Letmeind); eauto.
Qed.

Lemma drain_crowd : forall acc u buf cl se up dn d h rq rp, clean has_tcp num acc ->
  exists w acc' se', quiet w
    /\ run w (Crowd acc u buf cl se up dn d h rq rp) (Crowd acc' u buf cl se' up dn d h rq rp)
    /\ waiting_udp acc' = [] /\ ac_udp acc' = JnWait.
Proof.
  intros acc u buf cl se up dn d h rq rp CL. destruct (drain has_tcp true num _ acc CL NUM eq_refl) as (hs & acc' & F & R & _ & W).
  assert (JW : ac_udp acc' = JnWait).
  { assert (CL' : clean has_tcp num acc').
    { eapply clean_run; [exact CL| |exact R]. eapply Forall_impl; [|exact F]. intros ev. apply own_no_failure. }
    destruct (ac_udp acc') as [|r] eqn:E; [reflexivity|]. destruct (cl_udp _ _ _ CL' _ E) as (a & ->).
    unfold waiting_udp in W. rewrite E in W. cbn in W. destruct (in_hand false acc'); discriminate W. }
  assert (G : exists w se', quiet w /\ run w (Crowd acc u buf cl se up dn d h rq rp) (Crowd acc' u buf cl se' up dn d h rq rp)).
  { clear W JW CL. revert acc' R. induction hs as [|ev hs IH] using rev_ind; intros acc' R.
    - injection R as <-. exists [], se. split; constructor.
    - apply arun_snoc in R. destruct R as (a1 & R & ST). apply Forall_app in F. destruct F as (F & G). inversion G; subst.
      destruct (IH F a1 R) as (w & se1 & Q & RR). exists (w ++ [Letmeind]). eexists. split; [apply Forall_app; split; [exact Q|repeat constructor]|].
      econstructor; [exact RR|]. eapply cs_task; eassumption. }
  destruct G as (w & se' & Q & RR). exists w, acc', se'. auto.
Qed.

Variable order : list (sockaddr * uconn) -> list (sockaddr * uconn).
Hypothesis ORDER : ord order.

Lemma gets_udp_session : forall k acc u buf cl up dn d h rq rp f,
  csim (Crowd acc u buf cl None up dn d h rq rp) f -> narrow (fu_pair f) -> measure u buf = k -> pending u buf here <> [] ->
  exists w acc' u' buf' se', quiet w
    /\ run w (Crowd acc u buf cl None up dn d h rq rp) (Crowd acc' u' buf' cl (Some se') up dn d h rq rp)
    /\ pending u' buf' here = pending u buf here.
Proof.
  induction k as [k IH] using lt_wf_ind. intros acc u buf cl up dn d h rq rp f S NA M PE.
  assert (CL : clean has_tcp num acc) by (inversion S; subst; match goal with K : crowd_ok _ _ _ _ |- _ => apply K end).
  destruct (drain_crowd acc u buf cl None up dn d h rq rp CL) as (w & acc1 & se1 & Q & R & W & JW).
  destruct se1 as [se1|]; [exists w, acc1, u, buf, se1; auto|].
  pose proof (quiet_run _ _ _ R Q f S NA) as S1.
  assert (K1 : crowd_ok acc1 u buf None) by (inversion S1; subst; assumption).
  assert (NO : forall j, nth_error (us_sess u) j <> Some (here, false)).
  { intros j E. apply fst_nth in E. rewrite (ck_link _ _ _ _ K1), W, app_nil_r in E. destruct (ck_where _ _ _ _ K1) as (NI & _).
    apply NI. eapply nth_error_In. exact E. }
  destruct (accept_progress num here NUM u buf order (ck_disp _ _ _ _ K1) (ORD _ ORDER) PE NO) as (rd & buf' & u' & r & RD & ST & LT).
  assert (PA : exists acc2, passed has_tcp acc1 r acc2).
  { destruct r; try (exists acc1; reflexivity). cbn. unfold astep. rewrite (cl_exit _ _ _ (ck_clean _ _ _ _ K1)), JW. eexists. reflexivity. }
  destruct PA as (acc2 & PA).
  assert (STEP : step Letmeind (Crowd acc1 u buf cl None up dn d h rq rp) (Crowd acc2 u' buf' cl None up dn d h rq rp))
    by (eapply cs_pass; eassumption).
  pose proof (csim_step Letmeind _ _ STEP f S1 NA) as S2. cbn in S2.
  assert (PE2 : pending u' buf' here = pending u buf here).
  { destruct (accept_ok num here NUM _ _ _ _ _ _ _ (ck_disp _ _ _ _ K1) RD (ORD _ ORDER) ST) as (_ & X & _). apply X. }
  destruct (IH (measure u' buf') ltac:(lia) acc2 u' buf' cl up dn d h rq rp f S2 NA eq_refl ltac:(rewrite PE2; exact PE))
    as (w2 & acc' & u'' & buf'' & se' & Q2 & R2 & PE3).
  exists (w ++ [Letmeind] ++ w2), acc', u'', buf'', se'. split; [|split; [|congruence]].
  - apply Forall_app. split; [exact Q|]. apply Forall_app. split; [repeat constructor|exact Q2].
  - eapply run_more; [exact R|]. eapply run_more; [apply run_one; exact STEP|exact R2].
Qed.

Lemma receives_it : forall m acc u buf cl n j k up dn d h rq rp f b l,
  csim (Crowd acc u buf cl (Some (n, j, SRecv k)) up dn d h rq rp) f -> narrow (fu_pair f) -> length buf = m ->
  pending u buf here = b :: l ->
  exists w u' buf', quiet w
    /\ run (w ++ [Knock]) (Crowd acc u buf cl (Some (n, j, SRecv k)) up dn d h rq rp)
                          (Crowd acc u' buf' cl (Some (n, j, k (RxBuf b))) up dn d h rq rp).
Proof.
  induction m as [m IH] using lt_wf_ind. intros acc u buf cl n j k up dn d h rq rp f b l S NA M PE.
  assert (K : crowd_ok acc u buf (Some (n, j, SRecv k))) by (inversion S; subst; assumption).
  destruct (session_ok _ _ _ _ _ _ (SRecv k) K ltac:(discriminate)) as (_ & O).
  destruct (recv_progress num here NUM u buf j (ck_disp _ _ _ _ K) O ltac:(congruence)) as (rd & buf' & u' & r & RD & ST & PR).
  destruct (recv_ok num here NUM _ _ _ _ _ _ _ _ (ck_disp _ _ _ _ K) RD O ST) as (D' & ES & PQ & [(-> & P2)|(b' & -> & P2)]).
  - destruct PR as [LT|(x & X)]; [|discriminate].
    assert (STEP : step Letmeind (Crowd acc u buf cl (Some (n, j, SRecv k)) up dn d h rq rp) (Crowd acc u' buf' cl (Some (n, j, SRecv k)) up dn d h rq rp))
      by (eapply (cs_srecv mac sc conf c has_tcp num here ord acc u buf cl n j k up dn d h rq rp rd buf' u' UrIdle); eassumption).
    pose proof (csim_step Letmeind _ _ STEP f S NA) as S2. cbn in S2.
    destruct (IH (length buf') ltac:(lia) acc u' buf' cl n j k up dn d h rq rp f b l S2 NA eq_refl ltac:(congruence)) as (w & u'' & buf'' & Q & R).
    exists ([Letmeind] ++ w), u'', buf''. split; [apply Forall_app; split; [repeat constructor|exact Q]|].
    rewrite <- app_assoc. eapply run_more; [apply run_one; exact STEP|exact R].
  - assert (b' = b) as -> by congruence. exists [], u', buf'. split; [constructor|]. apply run_one.
    eapply (cs_srecv mac sc conf c has_tcp num here ord acc u buf cl n j k up dn d h rq rp rd buf' u' (UrDatagram b)); eassumption.
Qed.

Lemma prog_some : forall se p, p = prog se -> (forall k, p <> SRecv k) -> exists n j, se = Some (n, j, p).
Proof.
  intros [[[n j] q]|] p E N; cbn in E; [exists n, j; congruence|]. exfalso. subst p. unfold server_run, recv_msg in N. eapply N. reflexivity.
Qed.

Lemma csim_go : forall s f f', csim s f -> narrow (fu_pair f) -> full_step conf c 1 f f' ->
  exists w s', quiet w /\ run (w ++ [Knock]) s s' /\ (cw_hist s' = cw_hist s \/ cw_hist s' = fu_hist f').
Proof.
  intros s f f' S NA ST. inversion S as [acc u buf cl se up dn d h rq rp op BU K ZU E1 E2]. subst s f.
  assert (ONE : forall s', step Knock (Crowd acc u buf cl se up dn d h rq rp) s' -> (cw_hist s' = h \/ cw_hist s' = fu_hist f') ->
    exists w s', quiet w /\ run (w ++ [Knock]) (Crowd acc u buf cl se up dn d h rq rp) s' /\ (cw_hist s' = h \/ cw_hist s' = fu_hist f')).
  { intros s' H E. exists [], s'. split; [constructor|]. split; [apply run_one; exact H|exact E]. }
  cbn [cw_hist]. inversion ST; subst.
  - match goal with H : pair_step _ _ |- _ => inversion H; subst end.
    + eapply ONE; [eapply cs_lookup; eassumption|left; reflexivity].
    + inversion BU; subst. eapply ONE; [eapply cs_connect; eassumption|left; reflexivity].
    + eapply ONE; [eapply cs_crand; eassumption|left; reflexivity].
    + eapply ONE; [eapply cs_csend; eassumption|left; reflexivity].
    + eapply ONE; [eapply (cs_crecv mac sc conf c has_tcp num here ord acc u buf k se up [])|left; reflexivity].
    + (* the session waits for a datagram *)
      match goal with H : SRecv ?k' = prog se |- _ => rename k' into k; rename H into EP end.
      match goal with H : ?x :: _ = pending _ _ _ ++ up |- _ => rename H into EB; rename x into b end.
      (* it has arrived *)
      assert (A : exists w u1 buf1 up1 l, quiet w
        /\ run w (Crowd acc u buf cl se up dn d h rq rp) (Crowd acc u1 buf1 cl se up1 dn d h rq rp) /\ pending u1 buf1 here = b :: l).
      { destruct (pending u buf here) as [|x l] eqn:PE.
        - cbn in EB. subst up. exists [Letmeind]. eexists _, _, _, []. split; [repeat constructor|].
          split; [apply run_one; eapply (cs_up mac sc conf c has_tcp num here ord acc u buf cl se [])|].
          assert (LB : length b = MSG_SIZE) by (inversion ZU; assumption).
          rewrite pending_snoc, PE, sa_eqb_refl, firstn_msg by exact LB. reflexivity.
        - cbn in EB. injection EB as <- EB. exists [], u, buf, up, l. split; [constructor|]. split; [constructor|exact PE]. }
      destruct A as (w1 & u1 & buf1 & up1 & l & Q1 & R1 & PE1).
      pose proof (quiet_run _ _ _ R1 Q1 _ S NA) as S1.
      (* the session is there *)
      assert (B : exists w acc2 u2 buf2 n j, quiet w
        /\ run w (Crowd acc u1 buf1 cl se up1 dn d h rq rp) (Crowd acc2 u2 buf2 cl (Some (n, j, SRecv k)) up1 dn d h rq rp)
        /\ pending u2 buf2 here = b :: l).
      { destruct se as [[[n j] p]|].
        - cbn in EP. subst p. exists [], acc, u1, buf1, n, j. split; [constructor|]. split; [constructor|exact PE1].
        - destruct (gets_udp_session _ _ _ _ _ _ _ _ _ _ _ _ S1 NA eq_refl ltac:(rewrite PE1; discriminate))
            as (w & acc2 & u2 & buf2 & [[n j] p] & Q2 & R2 & PE2).
          assert (p = SRecv k) as ->.
          { pose proof (quiet_run _ _ _ R2 Q2 _ S1 NA) as S2. inversion S2; subst. cbn in EP. congruence. }
          exists w, acc2, u2, buf2, n, j. split; [exact Q2|]. split; [exact R2|congruence]. }
      destruct B as (w2 & acc2 & u2 & buf2 & n & j & Q2 & R2 & PE2).
      pose proof (quiet_run _ _ _ R2 Q2 _ S1 NA) as S2.
      destruct (receives_it _ _ _ _ _ _ _ _ _ _ _ _ _ _ _ _ _ S2 NA eq_refl PE2) as (w3 & u3 & buf3 & Q3 & R3).
      exists (w1 ++ w2 ++ w3). eexists. split; [|split].
      * apply Forall_app. split; [exact Q1|]. apply Forall_app. split; assumption.
      * rewrite <- !app_assoc. eapply run_more; [exact R1|]. eapply run_more; [exact R2|exact R3].
      * left. reflexivity.
    + destruct (prog_some se _ ltac:(eassumption) ltac:(discriminate)) as (n & j & ->). eapply ONE; [eapply cs_ssend; eassumption|left; reflexivity].
    + destruct (prog_some se _ ltac:(eassumption) ltac:(discriminate)) as (n & j & ->). eapply ONE; [eapply cs_srand; eassumption|left; reflexivity].
    + destruct (prog_some se _ ltac:(eassumption) ltac:(discriminate)) as (n & j & ->). eapply ONE; [eapply cs_fwconnect; eassumption|left; reflexivity].
    + match goal with H : away_from_socket _ _, E : SFwSend _ _ = _ |- _ => rewrite <- E in H; destruct H as (_ & H); cbn in H end.
      exfalso. eapply snoc_neq; eassumption.
    + match goal with H : away_from_socket _ _, E : SFwRecv _ = _ |- _ => rewrite <- E in H end.
      exfalso. eapply away_opened. eassumption.
  - destruct (prog_some se _ ltac:(eassumption) ltac:(discriminate)) as (n & j & ->). eapply ONE; [eapply cs_fwsend; eassumption|left; reflexivity].
  - eapply ONE; [eapply cs_handle; eassumption|right; reflexivity].
  - destruct (prog_some se _ ltac:(eassumption) ltac:(discriminate)) as (n & j & ->). eapply ONE; [eapply cs_fwrecv|left; reflexivity].
Qed.

Lemma csim_start : forall cl d h, by_udp cl ->
  csim (crowd_start num cl d h) (Full (Pair cl (server_run mac sc (sa_ip here)) [] [] []) d h [] []).
Proof.
  intros cl d h B. apply (Csim (acceptor_start num) (udp_start []) [] cl None [] [] d h [] [] []).
  - exact B.
  - split; [apply dok_start, NUM|apply clean_start|reflexivity| |].
    + intros i i' b b' E. destruct i; discriminate E.
    + cbn. split; [auto|]. intros i b E. destruct i; discriminate E.
  - constructor.
Qed.
End Sim.

(** A narrower choice of orders. *)
Lemma run_weaken : forall mac sc conf c has_tcp num here (o1 o2 : (list (sockaddr * uconn) -> list (sockaddr * uconn)) -> Prop),
  (forall o, o1 o -> o2 o) -> forall w s s',
  crowd_run mac sc conf c has_tcp num here o1 w s s' -> crowd_run mac sc conf c has_tcp num here o2 w s s'.
Proof.
  intros mac sc conf c has_tcp num here o1 o2 I w s s' R. induction R as [s|w a s s1 s2 R IH ST]; [constructor|].
  econstructor; [exact IH|]. inversion ST; subst;
    [eapply cs_lookup|eapply cs_connect|eapply cs_crand|eapply cs_csend|eapply cs_crecv|eapply cs_srecv|eapply cs_ssend|eapply cs_srand
    |eapply cs_fwconnect|eapply cs_fwsend|eapply cs_fwrecv|eapply cs_close|eapply cs_handle|eapply cs_firewall|eapply cs_up
    |eapply cs_pass|eapply cs_task|eapply cs_connection|eapply cs_datagram|eapply cs_other_recv|eapply cs_other_close]; eauto.
Qed.
