(** Proofs about the waiting of the UDP tasks. *)

From Coq Require Import String ZArith NArith List Bool Lia ZifyBool ZifyNat ZifyN Permutation.
From Verif Require Import M_Base M_Proto M_IpAddr M_Udp M_Wake S_Udp S_Wake P_Udp.
Import ListNotations.
Local Open Scope N_scope.

(** *** Phases *)
Lemma set_phase_length : forall l i x, length (set_phase l i x) = length l.
Proof.
  induction l as [|a l IH]; intros [|i] x; unfold set_phase in *; simpl; auto.
Qed.
Lemma set_phase_same : forall l i x, (i < length l)%nat -> nth_error (set_phase l i x) i = Some x.
Proof.
  induction l as [|a l IH]; intros [|i] x L; simpl in L; try lia; unfold set_phase in *; simpl; [reflexivity|].
  apply IH. lia.
Qed.
Lemma set_phase_other : forall l i x j, i <> j -> nth_error (set_phase l i x) j = nth_error l j.
Proof.
  induction l as [|a l IH]; intros [|i] x [|j] N; unfold set_phase in *; simpl; auto; try lia; try congruence.
Qed.
Lemma nth_lt : forall (A : Type) (l : list A) i x, nth_error l i = Some x -> (i < length l)%nat.
Proof. intros A l i x H. apply nth_error_Some. rewrite H. discriminate. Qed.
Lemma set_closed_length : forall l i, length (set_closed l i) = length l.
Proof. induction l as [|[p c] l IH]; intros [|i]; simpl; auto. Qed.
Lemma set_closed_same : forall l i, nth_error (set_closed l i) i = match nth_error l i with Some (p, _) => Some (p, true) | None => None end.
Proof. induction l as [|[p c] l IH]; intros [|i]; simpl; auto. Qed.
Lemma set_closed_other : forall l i j, i <> j -> nth_error (set_closed l i) j = nth_error l j.
Proof. induction l as [|[p c] l IH]; intros [|i] [|j] N; simpl; auto; try congruence. Qed.
Lemma in_drop : forall l i j, In j (drop_lock l i) <-> In j l /\ j <> i.
Proof.
  intros l i j. unfold drop_lock. rewrite filter_In. destruct (Nat.eqb_spec j i); simpl; intuition congruence.
Qed.
Lemma nodup_drop : forall l i, NoDup l -> NoDup (drop_lock l i).
Proof. intros. apply NoDup_filter. assumption. Qed.

Section Wake.
Variable max : N.

Definition OVERFLOW : string := "UDP socket read: RX queue overflow"%string.

(** *** The tracking state in a calm history *)
Record tinv (st : udp) (sess : list (sockaddr * bool)) : Prop := {
  ti_nodup : NoDup (keys (u_conn st));
  ti_max : len (u_conn st) <= max;
  ti_four : forall p c, conn_get (u_conn st) p = Some c -> (length (uc_queue c) <= 4)%nat;
  ti_nr : u_nr st = N.of_nat (total (u_conn st));
  ti_new : forall p c, conn_get (u_conn st) p = Some c -> uc_accepted c = false -> uc_queue c <> [];
  ti_open : forall i p, nth_error sess i = Some (p, false) ->
    exists c, conn_get (u_conn st) p = Some c /\ uc_accepted c = true;
  ti_once : forall i j p, nth_error sess i = Some (p, false) -> nth_error sess j = Some (p, false) -> i = j
}.

Definition pushed (st : udp) (d : list byte) (p : sockaddr) (c : uconn) : udp :=
  Udp (conn_set (u_conn st) p (UConn (uc_queue c ++ [firstn 56 d]) (uc_accepted c))) (u_nr st + 1).
Definition conn_or_new (st : udp) (p : sockaddr) : uconn :=
  match conn_get (u_conn st) p with Some c => c | None => UConn [] false end.

Lemma read_calm : forall st sess rd st' r, tinv st sess ->
  try_recv max st rd = (st', r) -> r <> Panic -> r <> Err OVERFLOW ->
  (st' = st /\ news max st rd = false)
  \/ exists d p, rd = RdDatagram d p /\ r = Ok tt /\ st' = pushed st d p (conn_or_new st p)
       /\ (length (uc_queue (conn_or_new st p)) < 4)%nat /\ len (u_conn st') <= max
       /\ news max st rd = negb (uc_accepted (conn_or_new st p)).
Proof.
  intros st sess rd st' r I E NP NO. pose proof E as E0. apply try_recv_effect in E; [|apply I..].
  assert (NW : (forall u, r <> Ok u) \/ (forall d p, rd <> RdDatagram d p) -> news max st rd = false).
  { intros H. unfold news. destruct rd; auto. rewrite E0. destruct r; auto.
    destruct H as [H|H]; [exfalso; eapply H|exfalso; eapply H]; reflexivity. }
  destruct E as [rd r N1 N2|d p c st' L C Q S M1 M2|d p c e L G Q|d p e L G M|d p c st' L C Q M1 M2].
  - left. split; [reflexivity|]. apply NW. destruct rd as [| |d p]; [right; discriminate..|].
    left. destruct (N1 _ _ eq_refl) as (_ & e & ->). discriminate.
  - right. exists d, p. split; [reflexivity|]. split; [reflexivity|]. fold (conn_or_new st p) in C. subst c.
    split; [exact S|]. split; [exact Q|]. split; [exact M1|].
    unfold news. rewrite E0. unfold conn_or_new. destruct (conn_get _ _); reflexivity.
  - exfalso. unfold try_recv in E0. change MSG_SIZE with 56%nat in E0.
    rewrite firstn_length, Nat.min_l, Nat.eqb_refl in E0 by lia. cbn [negb] in E0.
    rewrite (proj2 (N.leb_le _ _) (ti_max _ _ I)) in E0. cbn [negb] in E0. rewrite G in E0.
    unfold len at 1 2 in E0. rewrite Q in E0. change (N.of_nat 4) with 4 in E0. cbn in E0.
    injection E0 as _ E0. apply NO. rewrite <- E0. reflexivity.
  - left. split; [reflexivity|]. apply NW. left. discriminate.
  - congruence.
Qed.

Lemma conn_or_new_get : forall st sess p, tinv st sess -> uc_accepted (conn_or_new st p) = true ->
  conn_get (u_conn st) p = Some (conn_or_new st p).
Proof. intros st sess p I A. unfold conn_or_new in *. destruct (conn_get _ _); [reflexivity|discriminate]. Qed.
Lemma qlen_or_new : forall st p, qlen (u_conn st) p = length (uc_queue (conn_or_new st p)).
Proof. intros. unfold qlen, conn_or_new. destruct (conn_get _ _); reflexivity. Qed.

Lemma push_inv : forall st sess d p, tinv st sess ->
  (length (uc_queue (conn_or_new st p)) < 4)%nat -> len (u_conn (pushed st d p (conn_or_new st p))) <= max ->
  tinv (pushed st d p (conn_or_new st p)) sess.
Proof.
  intros st sess d p I Q M. constructor.
  - apply set_nodup. apply I.
  - exact M.
  - intros q c G. unfold pushed in G; cbn [u_conn] in G. destruct (sa_dec p q) as [<- |N].
    + rewrite get_set_same in G. injection G as <-. cbn [uc_queue]. rewrite app_length. simpl. lia.
    + rewrite get_set_other in G by exact N. eapply ti_four; eauto.
  - unfold pushed; cbn [u_nr u_conn]. pose proof (total_set (u_conn st) p (UConn (uc_queue (conn_or_new st p) ++ [firstn 56 d]) (uc_accepted (conn_or_new st p)))) as T.
    rewrite qlen_or_new in T. cbn [uc_queue] in T. rewrite app_length in T. cbn [length] in T. rewrite (ti_nr _ _ I). lia.
  - intros q c G A. unfold pushed in G; cbn [u_conn] in G. destruct (sa_dec p q) as [<- |N].
    + rewrite get_set_same in G. injection G as <-. cbn [uc_queue]. destruct (uc_queue (conn_or_new st p)); discriminate.
    + rewrite get_set_other in G by exact N. eapply ti_new; eauto.
  - intros i q O. destruct (ti_open _ _ I i q O) as (c & G & A). unfold pushed; cbn [u_conn]. destruct (sa_dec p q) as [<- |N].
    + rewrite get_set_same. eexists. split; [reflexivity|]. cbn [uc_accepted]. unfold conn_or_new. rewrite G. exact A.
    + rewrite get_set_other by exact N. eauto.
  - apply I.
Qed.

(** What a calm read leaves of the other facts. *)
Lemma read_inv : forall st sess rd st' r, tinv st sess ->
  try_recv max st rd = (st', r) -> r <> Panic -> r <> Err OVERFLOW ->
  tinv st' sess
  /\ (forall p c, conn_get (u_conn st) p = Some c -> exists c' q, conn_get (u_conn st') p = Some c'
        /\ uc_accepted c' = uc_accepted c /\ uc_queue c' = uc_queue c ++ q)
  /\ (forall p c', conn_get (u_conn st') p = Some c' -> uc_accepted c' = false ->
        (exists c, conn_get (u_conn st) p = Some c /\ uc_accepted c = false) \/ news max st rd = true)
  /\ (news max st rd = true -> 0 < u_nr st').
Proof.
  intros st sess rd st' r I E NP NO. destruct (read_calm _ _ _ _ _ I E NP NO) as [(-> & N)|(d & p & -> & -> & -> & Q & M & N)].
  - split; [exact I|]. split; [intros p c G; exists c, []; rewrite app_nil_r; auto|]. split; [eauto|]. rewrite N. discriminate.
  - split; [apply push_inv; assumption|]. split; [|split].
    + intros q c G. unfold pushed; cbn [u_conn]. destruct (sa_dec p q) as [<- |NE].
      * rewrite get_set_same. eexists _, _. split; [reflexivity|]. cbn. unfold conn_or_new. rewrite G. auto.
      * rewrite get_set_other by exact NE. exists c, []. rewrite app_nil_r. auto.
    + intros q c G A. unfold pushed in G; cbn [u_conn] in G. destruct (sa_dec p q) as [<- |NE].
      * right. rewrite get_set_same in G. injection G as <-. cbn in A. rewrite N, A. reflexivity.
      * rewrite get_set_other in G by exact NE. eauto.
    + intros _. unfold pushed; cbn [u_nr]. lia.
Qed.

(** Delivered, accepted, closed. *)
Lemma pop_inv : forall st sess p b q a, tinv st sess -> conn_get (u_conn st) p = Some (UConn (b :: q) a) ->
  a = true -> tinv (Udp (conn_set (u_conn st) p (UConn q a)) (u_nr st - 1)) sess.
Proof.
  intros st sess p b q a I G ->. constructor; cbn [u_conn u_nr].
  - apply set_nodup. apply I.
  - unfold len. rewrite set_length, G. apply I.
  - intros p' c G'. destruct (sa_dec p p') as [<- |N].
    + rewrite get_set_same in G'. injection G' as <-. apply ti_four with (2 := G) in I. cbn in *. lia.
    + rewrite get_set_other in G' by exact N. eapply ti_four; eauto.
  - pose proof (total_set (u_conn st) p (UConn q true)) as T. unfold qlen in T. rewrite G in T. cbn in T.
    rewrite (ti_nr _ _ I). lia.
  - intros p' c G' A. destruct (sa_dec p p') as [<- |N].
    + rewrite get_set_same in G'. injection G' as <-. discriminate.
    + rewrite get_set_other in G' by exact N. eapply ti_new; eauto.
  - intros i p' O. destruct (ti_open _ _ I i p' O) as (c & G' & A). destruct (sa_dec p p') as [<- |N].
    + rewrite get_set_same. eauto.
    + rewrite get_set_other by exact N. eauto.
  - apply I.
Qed.
Lemma take_inv : forall st sess p c, tinv st sess -> conn_get (u_conn st) p = Some c -> uc_accepted c = false ->
  tinv (Udp (conn_set (u_conn st) p (UConn (uc_queue c) true)) (u_nr st)) (sess ++ [(p, false)]).
Proof.
  intros st sess p c I G F.
  assert (SN : forall i q, nth_error (sess ++ [(p, false)]) i = Some (q, false) ->
    (nth_error sess i = Some (q, false) /\ q <> p) \/ (i = length sess /\ q = p)).
  { intros i q O. destruct (lt_dec i (length sess)) as [L|L].
    - rewrite nth_error_app1 in O by exact L. left. split; [exact O|]. intros ->.
      destruct (ti_open _ _ I _ _ O) as (c' & G' & A). rewrite G in G'. injection G' as <-. congruence.
    - rewrite nth_error_app2 in O by lia. destruct (i - length sess)%nat as [|k] eqn:K; cbn in O.
      + injection O as <-. right. split; [lia|reflexivity].
      + destruct k; discriminate. }
  constructor; cbn [u_conn u_nr].
  - apply set_nodup. apply I.
  - unfold len. rewrite set_length, G. apply I.
  - intros p' c' G'. destruct (sa_dec p p') as [<- |N].
    + rewrite get_set_same in G'. injection G' as <-. exact (ti_four _ _ I _ _ G).
    + rewrite get_set_other in G' by exact N. eapply ti_four; eauto.
  - pose proof (total_set (u_conn st) p (UConn (uc_queue c) true)) as T. unfold qlen in T. rewrite G in T. cbn in T.
    rewrite (ti_nr _ _ I). lia.
  - intros p' c' G' A. destruct (sa_dec p p') as [<- |N].
    + rewrite get_set_same in G'. injection G' as <-. discriminate.
    + rewrite get_set_other in G' by exact N. eapply ti_new; eauto.
  - intros i p' O. destruct (SN _ _ O) as [(O' & N)|(_ & ->)].
    + rewrite get_set_other by congruence. eapply ti_open; eauto.
    + rewrite get_set_same. eauto.
  - intros i j p' A B. destruct (SN _ _ A) as [(A' & NA)|(A' & EA)], (SN _ _ B) as [(B' & NB)|(B' & EB)]; try congruence.
    eapply ti_once; eauto.
Qed.
Lemma close_inv : forall st sess p i, tinv st sess -> nth_error sess i = Some (p, false) ->
  tinv (Udp (conn_remove (u_conn st) p) (u_nr st - N.of_nat (qlen (u_conn st) p))) (set_closed sess i).
Proof.
  intros st sess p i I O.
  assert (SN : forall j q, nth_error (set_closed sess i) j = Some (q, false) -> nth_error sess j = Some (q, false) /\ j <> i).
  { intros j q H. destruct (Nat.eq_dec i j) as [<- |N].
    - rewrite set_closed_same, O in H. discriminate.
    - rewrite set_closed_other in H by exact N. auto. }
  constructor; cbn [u_conn u_nr].
  - apply remove_nodup. apply I.
  - pose proof (remove_length (u_conn st) p). pose proof (ti_max _ _ I). unfold len in *. lia.
  - intros q c G. destruct (sa_dec p q) as [<- |N]; [rewrite get_remove_same in G; discriminate|].
    rewrite get_remove_other in G by exact N. eapply ti_four; eauto.
  - pose proof (total_remove (u_conn st) p (ti_nodup _ _ I)) as T. rewrite (ti_nr _ _ I). lia.
  - intros q c G A. destruct (sa_dec p q) as [<- |N]; [rewrite get_remove_same in G; discriminate|].
    rewrite get_remove_other in G by exact N. eapply ti_new; eauto.
  - intros j q H. destruct (SN _ _ H) as (H' & N). destruct (sa_dec p q) as [<- |NE].
    + exfalso. apply N. eapply ti_once; eauto.
    + rewrite get_remove_other by exact NE. eapply ti_open; eauto.
  - intros j k q A B. destruct (SN _ _ A) as (A' & _), (SN _ _ B) as (B' & _). eapply ti_once; eauto.
Qed.

(** What a calm read did. *)
Definition grown (st st1 : udp) (sess : list (sockaddr * bool)) (rd : sock_read) : Prop :=
  tinv st1 sess
  /\ (forall p c, conn_get (u_conn st) p = Some c -> exists c' q, conn_get (u_conn st1) p = Some c'
        /\ uc_accepted c' = uc_accepted c /\ uc_queue c' = uc_queue c ++ q)
  /\ (forall p c', conn_get (u_conn st1) p = Some c' -> uc_accepted c' = false ->
        (exists c, conn_get (u_conn st) p = Some c /\ uc_accepted c = false) \/ news max st rd = true)
  /\ (news max st rd = true -> 0 < u_nr st1).

Lemma accept_cases : forall s rd order sys r,
  us_dead s = false -> tinv (us_udp s) (us_sess s) -> (forall l, Permutation (order l) l) ->
  udp_step max s (UeAccept rd order) = Some (sys, r) -> r <> UrPanic -> r <> UrFail OVERFLOW ->
  us_dead sys = false /\ exists st1, grown (us_udp s) st1 (us_sess s) rd /\
  ((r = UrIdle /\ us_udp sys = st1 /\ us_sess sys = us_sess s
     /\ forall p c, conn_get (u_conn st1) p = Some c -> uc_accepted c = true)
   \/ (exists p c, r = UrAccepted p /\ conn_get (u_conn st1) p = Some c /\ uc_accepted c = false
        /\ us_udp sys = Udp (conn_set (u_conn st1) p (UConn (uc_queue c) true)) (u_nr st1)
        /\ us_sess sys = us_sess s ++ [(p, false)])
   \/ (exists e, r = UrFail e /\ us_udp sys = st1 /\ us_sess sys = us_sess s)).
Proof.
  intros [st sess dead] rd order sys r D I PO H NP NO. cbn in D, I |- *. subst dead. unfold udp_step in H; cbn [us_dead us_udp us_sess] in H.
  unfold try_accept in H. destruct (try_recv max st rd) as [st1 [u|e|]] eqn:E; [| |injection H as <- <-; congruence].
  - assert (R := read_inv _ _ _ _ _ I E ltac:(discriminate) ltac:(discriminate)). pose proof R as (I1 & _).
    destruct (first_new (order (u_conn st1))) as [p|] eqn:F.
    + destruct (first_new_some _ _ F) as (c & IN & A). apply (Permutation_in _ (PO _)) in IN.
      pose proof (in_get _ _ _ (ti_nodup _ _ I1) IN) as G. rewrite G in H. injection H as <- <-.
      split; [reflexivity|]. exists st1. split; [exact R|]. right. left. exists p, c. cbn. auto.
    + injection H as <- <-. split; [reflexivity|]. exists st1. split; [exact R|]. left. split; [reflexivity|].
      split; [reflexivity|]. split; [reflexivity|]. intros p c G. apply get_in in G.
      eapply (first_new_none _ F). eapply Permutation_in; [apply Permutation_sym, PO|exact G].
  - injection H as <- <-.
    assert (R := read_inv _ _ _ _ _ I E ltac:(discriminate) ltac:(congruence)).
    split; [reflexivity|]. exists st1. split; [exact R|]. right. right. exists e. auto.
Qed.

Lemma recv_cases : forall s i p rd sys r,
  us_dead s = false -> tinv (us_udp s) (us_sess s) -> nth_error (us_sess s) i = Some (p, false) ->
  udp_step max s (UeRecv i rd) = Some (sys, r) -> r <> UrPanic -> (forall e, r <> UrFail e) ->
  us_dead sys = false /\ us_sess sys = us_sess s /\ exists st1 c, grown (us_udp s) st1 (us_sess s) rd
  /\ conn_get (u_conn st1) p = Some c /\ uc_accepted c = true /\
  ((r = UrIdle /\ us_udp sys = st1 /\ uc_queue c = [])
   \/ (exists b q, r = UrDatagram b /\ uc_queue c = b :: q
        /\ us_udp sys = Udp (conn_set (u_conn st1) p (UConn q true)) (u_nr st1 - 1))).
Proof.
  intros [st sess dead] i p rd sys r D I O H NP NF. cbn in D, I, O |- *. subst dead. unfold udp_step in H; cbn [us_dead us_udp us_sess] in H.
  rewrite O in H. unfold try_recv_from in H.
  destruct (try_recv max st rd) as [st1 [u|e|]] eqn:E; [|injection H as <- <-; exfalso; eapply NF; reflexivity|injection H as <- <-; congruence].
  assert (R := read_inv _ _ _ _ _ I E ltac:(discriminate) ltac:(discriminate)). pose proof R as (I1 & _).
  destruct (ti_open _ _ I1 _ _ O) as (c & G & A). rewrite G in H. destruct c as [[|b q] a]; cbn in A; subst a.
  - injection H as <- <-. split; [reflexivity|]. split; [reflexivity|]. exists st1, (UConn [] true).
    split; [exact R|]. split; [exact G|]. split; [reflexivity|]. left. auto.
  - destruct (u_nr st1 =? 0); injection H as <- <-; [congruence|].
    split; [reflexivity|]. split; [reflexivity|]. exists st1, (UConn (b :: q) true). cbn.
    split; [exact R|]. split; [exact G|]. split; [reflexivity|]. right. exists b, q. auto.
Qed.

Lemma close_cases : forall s i sys r,
  us_dead s = false -> tinv (us_udp s) (us_sess s) ->
  udp_step max s (UeClose i) = Some (sys, r) -> r <> UrPanic ->
  us_dead sys = false /\
  (sys = s \/ exists p, nth_error (us_sess s) i = Some (p, false)
    /\ us_udp sys = Udp (conn_remove (u_conn (us_udp s)) p) (u_nr (us_udp s) - N.of_nat (qlen (u_conn (us_udp s)) p))
    /\ us_sess sys = set_closed (us_sess s) i).
Proof.
  intros [st sess dead] i sys r D I H NP. cbn in D, I |- *. subst dead. unfold udp_step in H; cbn [us_dead us_udp us_sess] in H.
  destruct (nth_error sess i) as [[p []]|] eqn:O; [injection H as <- <-; auto| |discriminate].
  unfold disconnect in H. fold (qlen (u_conn st) p) in H.
  assert (Q : match conn_get (u_conn st) p with Some c => len (uc_queue c) | None => 0 end = N.of_nat (qlen (u_conn st) p)).
  { unfold qlen, len. destruct (conn_get _ _); reflexivity. }
  rewrite Q in H. destruct (u_nr st <? _); [injection H as <- <-; congruence|].
  destruct (conn_remove (u_conn st) p) eqn:E; [destruct (_ =? 0); [|injection H as <- <-; congruence]|];
    injection H as <- <-; (split; [reflexivity|]); right; exists p; cbn [us_udp us_sess]; rewrite E; auto.
Qed.

(** *** The whole state in a calm history *)
Record winv (s : wake) : Prop := {
  wi_dead : us_dead (wk_sys s) = false;
  wi_t : tinv (us_udp (wk_sys s)) (us_sess (wk_sys s));
  wi_rw : 0 < u_nr (us_udp (wk_sys s)) -> wk_rw s = true;
  wi_len : length (wk_recv s) = length (us_sess (wk_sys s));
  wi_nd : NoDup (wk_lock s);
  wi_lock : forall i, In i (wk_lock s) <-> nth_error (wk_recv s) i = Some RpWait;
  wi_busy : forall i x, nth_error (wk_recv s) i = Some x -> x <> RpIdle ->
    exists p, nth_error (us_sess (wk_sys s)) i = Some (p, false)
}.

Lemma grown_rw : forall s st1 rd, winv s -> grown (us_udp (wk_sys s)) st1 (us_sess (wk_sys s)) rd ->
  (exists p c, conn_get (u_conn st1) p = Some c /\ uc_accepted c = false) -> wk_rw s || news max (us_udp (wk_sys s)) rd = true.
Proof.
  intros s st1 rd I (I1 & _ & G & _) (p & c & GC & A). destruct (G _ _ GC A) as [(c0 & G0 & A0)|N]; [|rewrite N; apply orb_true_r].
  rewrite (wi_rw _ I); [reflexivity|]. rewrite (ti_nr _ _ (wi_t _ I)).
  pose proof (ti_new _ _ (wi_t _ I) _ _ G0 A0) as NE. pose proof (qlen_total (u_conn (us_udp (wk_sys s))) p) as Q.
  unfold qlen in Q. rewrite G0 in Q. destruct (uc_queue c0); [congruence|]. cbn in Q. lia.
Qed.

(** A receive that failed, but not with an overflow, leaves the queues alone. *)
Lemma recv_fail : forall s sid bw s' e, winv s -> wake_step max s (WvRecv sid bw) = Some (s', UrFail e) ->
  e <> OVERFLOW -> exists rest buf rdy n, wk_lock s = sid :: rest
  /\ s' = Wake (wk_sys s) buf rdy (wk_aw s || n) ((if bw then false else wk_rw s) || n) (wk_accept s)
               (set_phase (wk_recv s) sid RpIdle) rest.
Proof.
  intros s sid bw s' e I H NO. unfold wake_step in H. rewrite (wi_dead _ I) in H.
  destruct (wk_lock s) as [|i rest] eqn:LK; [discriminate|]. destruct (Nat.eqb_spec i sid) as [-> |]; [|discriminate]. cbn [andb] in H.
  destruct (if bw then wk_rw s else wk_rdy s); [|discriminate].
  destruct (sock_try_read (wk_buf s) (wk_rdy s)) as [[rd buf] rdy].
  destruct (udp_step max (wk_sys s) (UeRecv sid rd)) as [[sys r0]|] eqn:U; [|discriminate].
  assert (RR : r0 = UrFail e) by (destruct r0; injection H as _ H; congruence). subst r0. injection H as <-.
  assert (PW : nth_error (wk_recv s) sid = Some RpWait) by (apply (wi_lock _ I); rewrite LK; left; reflexivity).
  destruct (wi_busy _ I _ _ PW ltac:(discriminate)) as (p & O).
  assert (SYS : sys = wk_sys s).
  { pose proof (wi_dead _ I) as DD. pose proof (wi_t _ I) as TI. destruct (wk_sys s) as [st sess dead].
    cbn in DD, TI, O. subst dead.
    unfold udp_step in U; cbn [us_dead us_udp us_sess] in U. rewrite O in U. unfold try_recv_from in U.
    destruct (try_recv max st rd) as [st1 [u|e2|]] eqn:E.
    - exfalso. destruct (conn_get _ _) as [[[|b q] a]|]; [|destruct (_ =? 0)|]; discriminate U.
    - injection U as <- ->. cbn [is_panic].
      destruct (read_calm _ _ _ _ _ TI E ltac:(discriminate) ltac:(congruence)) as [(-> & _)|(d & q & _ & X & _)]; [reflexivity|discriminate].
    - discriminate U. }
  subst sys. eexists _, _, _, _. split; reflexivity.
Qed.
Lemma winv_fail : forall s sid rest buf rdy aw rw, winv s -> wk_lock s = sid :: rest ->
  (0 < u_nr (us_udp (wk_sys s)) -> rw = true) ->
  winv (Wake (wk_sys s) buf rdy aw rw (wk_accept s) (set_phase (wk_recv s) sid RpIdle) rest).
Proof.
  intros s sid rest buf rdy aw rw I LK RW. 
  assert (PW : nth_error (wk_recv s) sid = Some RpWait) by (apply (wi_lock _ I); rewrite LK; left; reflexivity).
  destruct (wi_busy _ I _ _ PW ltac:(discriminate)) as (p & O).
  pose proof (wi_nd _ I) as ND. rewrite LK in ND. inversion ND as [|? ? NI ND']. subst.
  constructor; cbn [wk_sys wk_buf wk_rdy wk_aw wk_rw wk_recv wk_lock]; try apply I; auto.
  - rewrite set_phase_length. apply I.
  - intros i. destruct (Nat.eq_dec sid i) as [<- |N].
    + rewrite set_phase_same by (eapply nth_lt; eauto). split; [tauto|discriminate].
    + rewrite set_phase_other by exact N. rewrite <- (wi_lock _ I), LK. simpl. intuition congruence.
  - intros i y NX NY. destruct (Nat.eq_dec sid i) as [<- |N]; [eauto|]. rewrite set_phase_other in NX by exact N. eapply wi_busy; eauto.
Qed.
Lemma calm_recv : forall sid bw e, calm (WvRecv sid bw, UrFail e) -> bw = false /\ e <> OVERFLOW.
Proof. intros sid [] e C; [destruct C|]. split; [reflexivity|exact C]. Qed.
Lemma fail_or_not : forall r, (exists e, r = UrFail e) \/ (forall e, r <> UrFail e).
Proof. intros []; try (right; intros; discriminate). left. eauto. Qed.

Lemma winv_step : forall s ev s' r, winv s -> wevent_ok ev -> wake_step max s ev = Some (s', r) -> calm (ev, r) -> winv s'.
Proof.
  intros s ev s' r I OK H C. unfold wake_step in H. rewrite (wi_dead _ I) in H.
  destruct ev as [it| |bw order| |sid|sid bw|sid|sid|sid].
  - injection H as <- <-. destruct I. constructor; assumption.
  - destruct (wk_accept s); try discriminate. injection H as <- <-. destruct I. constructor; assumption.
  - destruct (wk_accept s); try discriminate. destruct (if bw then wk_aw s else wk_rdy s); [|discriminate].
    destruct (sock_try_read (wk_buf s) (wk_rdy s)) as [[rd buf] rdy].
    destruct (udp_step max (wk_sys s) (UeAccept rd order)) as [[sys r0]|] eqn:U; [|discriminate].
    assert (RR : r0 = r) by (destruct r0; injection H as _ <-; reflexivity). subst r0.
    assert (NP : r <> UrPanic) by (intros ->; destruct C). assert (NO : r <> UrFail OVERFLOW) by (intros ->; apply C; reflexivity).
    destruct (accept_cases _ _ _ _ _ (wi_dead _ I) (wi_t _ I) OK U NP NO) as (D & st1 & GR & CS).
    pose proof GR as (I1 & _).
    destruct CS as [(-> & SU & SS & _)|[(p & c & -> & G & A & SU & SS)|(e & -> & SU & SS)]]; injection H as <-.
    + constructor; cbn [wk_sys wk_buf wk_rdy wk_aw wk_rw wk_recv wk_lock]; rewrite ?SU, ?SS; try apply I; auto.
      intros N. unfold more_queued. rewrite (proj2 (N.ltb_lt _ _) N). apply orb_true_r.
    + constructor; cbn [wk_sys wk_buf wk_rdy wk_aw wk_rw wk_recv wk_lock]; rewrite ?SU, ?SS; try apply I; auto.
      * apply take_inv; assumption.
      * intros _. eapply grown_rw; eauto.
      * rewrite !app_length, (wi_len _ I). reflexivity.
      * intros i. rewrite (wi_lock _ I). destruct (lt_dec i (length (wk_recv s))) as [L|L].
        -- rewrite nth_error_app1 by exact L. tauto.
        -- rewrite nth_error_app2 by lia. rewrite (proj2 (nth_error_None (wk_recv s) i)) by lia.
           split; [discriminate|]. destruct (i - _)%nat as [|[]]; discriminate.
      * intros i x NX NI. destruct (lt_dec i (length (wk_recv s))) as [L|L].
        -- rewrite nth_error_app1 in NX by exact L. destruct (wi_busy _ I _ _ NX NI) as (q & O). exists q.
           rewrite nth_error_app1 by (eapply nth_lt; eauto). exact O.
        -- rewrite nth_error_app2 in NX by lia. destruct (i - _)%nat as [|[]]; try discriminate. injection NX as <-. congruence.
    + constructor; cbn [wk_sys wk_buf wk_rdy wk_aw wk_rw wk_recv wk_lock]; rewrite ?SU, ?SS; try apply I; auto.
      (* the failed read kept nothing *)
      intros N. assert (ST : st1 = us_udp (wk_sys s)).
      { unfold udp_step in U. rewrite (wi_dead _ I) in U. unfold try_accept in U.
        destruct (try_recv max (us_udp (wk_sys s)) rd) as [st2 [u|e2|]] eqn:E.
        - destruct (first_new _); [destruct (conn_get _ _)|]; injection U as _ U; discriminate.
        - injection U as <- ->. cbn in SU. subst st2.
          destruct (read_calm _ _ _ _ _ (wi_t _ I) E ltac:(discriminate) ltac:(congruence)) as [(-> & _)|(d & p & _ & X & _)]; [reflexivity|discriminate].
        - injection U as _ U. discriminate. }
      rewrite ST in N. rewrite (wi_rw _ I N). reflexivity.
  - destruct (wk_accept s); try discriminate. injection H as <- <-. destruct I. constructor; assumption.
  - destruct (nth_error (wk_recv s) sid) as [[]|] eqn:PH; try discriminate.
    destruct (nth_error (us_sess (wk_sys s)) sid) as [[p []]|] eqn:O; try discriminate. injection H as <- <-.
    constructor; cbn [wk_sys wk_buf wk_rdy wk_aw wk_rw wk_recv wk_lock]; try apply I; auto.
    + rewrite set_phase_length. apply I.
    + apply NoDup_snoc; [apply I|]. rewrite (wi_lock _ I). congruence.
    + intros i. rewrite in_app_iff. rewrite (wi_lock _ I). destruct (Nat.eq_dec sid i) as [<- |N].
      * rewrite set_phase_same by (eapply nth_lt; eauto). simpl. tauto.
      * rewrite set_phase_other by exact N. simpl. intuition congruence.
    + intros i x NX NI. destruct (Nat.eq_dec sid i) as [<- |N]; [eauto|]. rewrite set_phase_other in NX by exact N. eapply wi_busy; eauto.
  - destruct (fail_or_not r) as [(e & ->)|NF0].
    { destruct (calm_recv _ _ _ C) as (-> & NO).
      assert (H0 : wake_step max s (WvRecv sid false) = Some (s', UrFail e)) by (unfold wake_step; rewrite (wi_dead _ I); exact H).
      destruct (recv_fail _ _ _ _ _ I H0 NO) as (rest & buf & rdy & n & LK & ->). apply winv_fail; [exact I|exact LK|].
      intros N. rewrite (wi_rw _ I N). reflexivity. }
    destruct (wk_lock s) as [|i rest] eqn:LK; [discriminate|]. destruct (Nat.eqb_spec i sid) as [-> |]; [|discriminate]. cbn [andb] in H.
    destruct (if bw then wk_rw s else wk_rdy s); [|discriminate].
    destruct (sock_try_read (wk_buf s) (wk_rdy s)) as [[rd buf] rdy].
    destruct (udp_step max (wk_sys s) (UeRecv sid rd)) as [[sys r0]|] eqn:U; [|discriminate].
    assert (RR : r0 = r) by (destruct r0; injection H as _ <-; reflexivity). subst r0.
    assert (NP : r <> UrPanic) by (intros ->; destruct bw; destruct C). pose proof NF0 as NF.
    assert (PW : nth_error (wk_recv s) sid = Some RpWait) by (apply (wi_lock _ I); rewrite LK; left; reflexivity).
    destruct (wi_busy _ I _ _ PW ltac:(discriminate)) as (p & O).
    destruct (recv_cases _ _ _ _ _ _ (wi_dead _ I) (wi_t _ I) O U NP NF) as (D & SS & st1 & c & GR & G & A & CS).
    pose proof GR as (I1 & _). pose proof (wi_nd _ I) as ND. rewrite LK in ND. inversion ND as [|? ? NI ND']. subst.
    assert (LQ : forall x, x <> RpWait -> forall i, In i rest <-> nth_error (set_phase (wk_recv s) sid x) i = Some RpWait).
    { intros x NX i. destruct (Nat.eq_dec sid i) as [<- |N].
      - rewrite set_phase_same by (eapply nth_lt; eauto). split; [tauto|congruence].
      - rewrite set_phase_other by exact N. rewrite <- (wi_lock _ I), LK. simpl. intuition congruence. }
    assert (LB : forall x i y, nth_error (set_phase (wk_recv s) sid x) i = Some y -> y <> RpIdle ->
      exists p, nth_error (us_sess (wk_sys s)) i = Some (p, false)).
    { intros x i y NX NY. destruct (Nat.eq_dec sid i) as [<- |N]; [eauto|]. rewrite set_phase_other in NX by exact N. eapply wi_busy; eauto. }
    destruct CS as [(-> & SU & _)|(b & q & -> & Q & SU)]; injection H as <-.
    + constructor; cbn [wk_sys wk_buf wk_rdy wk_aw wk_rw wk_recv wk_lock]; rewrite ?SU, ?SS; auto.
      * intros N. unfold more_queued. rewrite (proj2 (N.ltb_lt _ _) N). apply orb_true_r.
      * rewrite set_phase_length. apply I.
      * apply LQ. discriminate.
      * apply LB.
    + constructor; cbn [wk_sys wk_buf wk_rdy wk_aw wk_rw wk_recv wk_lock]; rewrite ?SU, ?SS; auto.
      * destruct c as [qc ac]; cbn in Q, A; subst. eapply pop_inv; eauto.
      * intros N. unfold more_queued. rewrite (proj2 (N.ltb_lt _ _) N). apply orb_true_r.
      * rewrite set_phase_length. apply I.
      * apply LQ. discriminate.
      * apply LB.
  - destruct (nth_error (wk_recv s) sid) as [[]|] eqn:PH; try discriminate. injection H as <- <-.
    constructor; cbn [wk_sys wk_buf wk_rdy wk_aw wk_rw wk_recv wk_lock]; try apply I; auto.
    + rewrite set_phase_length. apply I.
    + apply NoDup_snoc; [apply I|]. rewrite (wi_lock _ I). congruence.
    + intros i. rewrite in_app_iff. rewrite (wi_lock _ I). destruct (Nat.eq_dec sid i) as [<- |N].
      * rewrite set_phase_same by (eapply nth_lt; eauto). simpl. tauto.
      * rewrite set_phase_other by exact N. simpl. intuition congruence.
    + intros i x NX NI. destruct (Nat.eq_dec sid i) as [<- |N]; [eapply wi_busy; eauto; discriminate|].
      rewrite set_phase_other in NX by exact N. eapply wi_busy; eauto.
  - assert (PH : exists x, nth_error (wk_recv s) sid = Some x /\ x <> RpIdle
        /\ s' = Wake (wk_sys s) (wk_buf s) (wk_rdy s) (wk_aw s) (wk_rw s) (wk_accept s)
                     (set_phase (wk_recv s) sid RpIdle) (drop_lock (wk_lock s) sid)).
    { destruct (nth_error (wk_recv s) sid) as [[]|]; try discriminate; injection H as <- _; eexists; (split; [reflexivity|]); split; [discriminate|reflexivity|discriminate|reflexivity]. }
    destruct PH as (x & PH & NX & ->).
    constructor; cbn [wk_sys wk_buf wk_rdy wk_aw wk_rw wk_recv wk_lock]; try apply I; auto.
    + rewrite set_phase_length. apply I.
    + apply nodup_drop. apply I.
    + intros i. rewrite in_drop. rewrite (wi_lock _ I). destruct (Nat.eq_dec sid i) as [<- |N].
      * rewrite set_phase_same by (eapply nth_lt; eauto). split; [tauto|discriminate].
      * rewrite set_phase_other by exact N. intuition congruence.
    + intros i y NY NI. destruct (Nat.eq_dec sid i) as [<- |N].
      * rewrite set_phase_same in NY by (eapply nth_lt; eauto). congruence.
      * rewrite set_phase_other in NY by exact N. eapply wi_busy; eauto.
  - destruct (nth_error (wk_recv s) sid) as [[]|] eqn:PH; try discriminate.
    destruct (udp_step max (wk_sys s) (UeClose sid)) as [[sys r0]|] eqn:U; [|discriminate]. injection H as <- <-.
    assert (NP : r0 <> UrPanic) by (intros ->; destruct C).
    destruct (close_cases _ _ _ _ (wi_dead _ I) (wi_t _ I) U NP) as (D & [-> |(p & O & SU & SS)]).
    + destruct I. constructor; assumption.
    + constructor; cbn [wk_sys wk_buf wk_rdy wk_aw wk_rw wk_recv wk_lock]; rewrite ?SU, ?SS; try apply I; auto.
      * apply close_inv; [apply I|exact O].
      * intros N. apply (wi_rw _ I). cbn [u_nr] in N. lia.
      * rewrite set_closed_length. apply I.
      * intros i x NX NI. destruct (Nat.eq_dec sid i) as [<- |N]; [congruence|]. rewrite set_closed_other by exact N. eapply wi_busy; eauto.
Qed.

Lemma winv_start : winv wake_start.
Proof.
  constructor; cbn [wake_start wk_sys wk_rw wk_recv wk_lock udp_start us_udp us_sess us_dead map udp_new u_conn u_nr].
  - reflexivity.
  - constructor; cbn [u_conn u_nr keys map conn_get total].
    + constructor.
    + apply N.le_0_l.
    + discriminate.
    + reflexivity.
    + discriminate.
    + intros [] ? [=].
    + intros [] ? ? [=].
  - intros X. inversion X.
  - reflexivity.
  - constructor.
  - intros [|i]; cbn; (split; [intros []|discriminate]).
  - intros [|i] x [=].
Qed.

Lemma winv_run : forall s h s', wake_run max s h s' -> winv s -> Forall calm h -> winv s'.
Proof.
  intros s h s' R I C. induction R as [|h s1 ev s2 r R IH OK ST]; [exact I|].
  apply Forall_app in C. destruct C as (C1 & C2). inversion C2 as [|? ? C3 _]. exact (winv_step _ _ _ _ (IH C1) OK ST C3).
Qed.

(** *** A waiting receive *)
Lemma ahead_drop : forall l i j, i <> j -> forall n, (exists a b, l = a ++ i :: b /\ ~ In i a /\ length a = n) ->
  exists m a b, drop_lock l j = a ++ i :: b /\ ~ In i a /\ length a = m /\ (m <= n)%nat.
Proof.
  intros l i j N n (a & b & -> & NI & L). exists (length (drop_lock a j)), (drop_lock a j), (drop_lock b j).
  unfold drop_lock. rewrite filter_app. cbn [filter]. rewrite (proj2 (Nat.eqb_neq _ _) N). cbn [negb].
  split; [reflexivity|]. split; [rewrite filter_In; tauto|]. split; [reflexivity|].
  subst n. clear. induction a as [|x a IH]; cbn; [lia|]. destruct (negb _); cbn; lia.
Qed.
Lemma ahead_snoc : forall (l : list nat) i j n, (exists a b, l = a ++ i :: b /\ ~ In i a /\ length a = n) ->
  exists a b, l ++ [j] = a ++ i :: b /\ ~ In i a /\ length a = n.
Proof. intros l i j n (a & b & -> & NI & L). exists a, (b ++ [j]). rewrite <- app_assoc. auto. Qed.
Lemma ahead_exists : forall s i p, winv s -> receiving s i p -> exists n, ahead s i n.
Proof.
  intros s i p I (_ & W). apply (wi_lock _ I) in W. apply in_split in W. destruct W as (a & b & E).
  exists (length a), a, b. split; [exact E|]. split; [|reflexivity].
  pose proof (wi_nd _ I) as ND. rewrite E in ND. apply NoDup_remove_2 in ND. intros X. apply ND, in_or_app. auto.
Qed.

Lemma wait_step : forall s i p b q n ev s' r,
  winv s -> receiving s i p -> undelivered s p (b :: q) -> ahead s i n ->
  wevent_ok ev -> wake_step max s ev = Some (s', r) -> calm (ev, r) -> ev <> WvCancel i ->
  (forall bw e, (ev, r) <> (WvRecv i bw, UrFail e)) ->
  (exists bw, ev = WvRecv i bw /\ r = UrDatagram b)
  \/ (receiving s' i p /\ (exists q', undelivered s' p (b :: q'))
      /\ exists n', ahead s' i n' /\ (n' + match ev with WvRecv _ _ => 1 | _ => 0 end <= n)%nat).
Proof.
  intros s i p b q n ev s' r I (O & W) (c & G & Q) AH OK H C NC NE. unfold wake_step in H. rewrite (wi_dead _ I) in H.
  assert (AC : uc_accepted c = true).
  { destruct (ti_open _ _ (wi_t _ I) _ _ O) as (c' & G' & A). congruence. }
  assert (SAME : forall s2, wk_sys s2 = wk_sys s -> nth_error (wk_recv s2) i = Some RpWait ->
    receiving s2 i p /\ (exists q', undelivered s2 p (b :: q'))).
  { intros s2 E1 E2. unfold receiving, undelivered. rewrite E1. split; [auto|]. exists q, c. auto. }
  destruct ev as [it| |bw order| |sid|sid bw|sid|sid|sid].
  - injection H as <- <-. right. destruct (SAME (Wake (wk_sys s) (wk_buf s ++ [it]) true (wk_aw s) (wk_rw s) (wk_accept s) (wk_recv s) (wk_lock s)) eq_refl W) as (A & B).
    split; [exact A|]. split; [exact B|]. exists n. split; [exact AH|lia].
  - destruct (wk_accept s); try discriminate. injection H as <- <-. right.
    edestruct SAME as (A & B); [| |split; [exact A|]; split; [exact B|]]; [reflexivity|exact W|]. exists n. split; [exact AH|lia].
  - destruct (wk_accept s); try discriminate. destruct (if bw then wk_aw s else wk_rdy s); [|discriminate].
    destruct (sock_try_read (wk_buf s) (wk_rdy s)) as [[rd buf] rdy].
    destruct (udp_step max (wk_sys s) (UeAccept rd order)) as [[sys r0]|] eqn:U; [|discriminate].
    assert (RR : r0 = r) by (destruct r0; injection H as _ <-; reflexivity). subst r0.
    assert (NP : r <> UrPanic) by (intros ->; destruct C). assert (NO : r <> UrFail OVERFLOW) by (intros ->; apply C; reflexivity).
    destruct (accept_cases _ _ _ _ _ (wi_dead _ I) (wi_t _ I) OK U NP NO) as (D & st1 & GR & CS).
    destruct GR as (_ & GR & _). destruct (GR _ _ G) as (c1 & q1 & G1 & A1 & Q1). rewrite Q in Q1. cbn [app] in Q1.
    right. destruct CS as [(-> & SU & SS & _)|[(p' & c' & -> & G' & A' & SU & SS)|(e & -> & SU & SS)]]; injection H as <-;
      unfold receiving, undelivered, ahead; cbn [wk_sys wk_recv wk_lock]; rewrite SU, SS.
    + split; [auto|]. split; [exists (q ++ q1), c1; auto|]. exists n. split; [exact AH|lia].
    + split; [|split].
      * rewrite nth_error_app1 by (eapply nth_lt; eauto). split; [exact O|]. rewrite nth_error_app1 by (eapply nth_lt; eauto). exact W.
      * exists (q ++ q1), c1. cbn [u_conn]. rewrite get_set_other; [auto|]. intros ->. congruence.
      * exists n. split; [exact AH|lia].
    + split; [auto|]. split; [exists (q ++ q1), c1; auto|]. exists n. split; [exact AH|lia].
  - destruct (wk_accept s); try discriminate. injection H as <- <-. right.
    edestruct SAME as (A & B); [| |split; [exact A|]; split; [exact B|]]; [reflexivity|exact W|]. exists n. split; [exact AH|lia].
  - destruct (nth_error (wk_recv s) sid) as [[]|] eqn:PH; try discriminate.
    destruct (nth_error (us_sess (wk_sys s)) sid) as [[p' []]|] eqn:O'; try discriminate. injection H as <- <-. right.
    assert (N : sid <> i) by (intros ->; congruence).
    edestruct SAME as (A & B); [| |split; [exact A|]; split; [exact B|]]; [reflexivity|cbn [wk_recv]; rewrite set_phase_other by exact N; exact W|].
    exists n. split; [|lia]. apply ahead_snoc. exact AH.
  - destruct (fail_or_not r) as [(e & ->)|NF0].
    { destruct (calm_recv _ _ _ C) as (-> & NO).
      assert (H0 : wake_step max s (WvRecv sid false) = Some (s', UrFail e)) by (unfold wake_step; rewrite (wi_dead _ I); exact H).
      destruct (recv_fail _ _ _ _ _ I H0 NO) as (rest & buf & rdy & n0 & LK & ->).
      assert (N : sid <> i) by (intros ->; eapply NE; reflexivity). right.
      edestruct SAME as (A & B); [| |split; [exact A|]; split; [exact B|]]; [reflexivity|cbn [wk_recv]; rewrite set_phase_other by exact N; exact W|].
      destruct AH as (a & b' & EQ & NI & L). rewrite LK in EQ. destruct a as [|x a]; cbn in EQ; [congruence|]. injection EQ as -> ->.
      exists (length a). split; [exists a, b'; split; [reflexivity|]; split; [intros X; apply NI; right; exact X|reflexivity]|cbn in L; lia]. }
    destruct (wk_lock s) as [|i0 rest] eqn:LK; [discriminate|]. destruct (Nat.eqb_spec i0 sid) as [-> |]; [|discriminate]. cbn [andb] in H.
    destruct (if bw then wk_rw s else wk_rdy s); [|discriminate].
    destruct (sock_try_read (wk_buf s) (wk_rdy s)) as [[rd buf] rdy].
    destruct (udp_step max (wk_sys s) (UeRecv sid rd)) as [[sys r0]|] eqn:U; [|discriminate].
    assert (RR : r0 = r) by (destruct r0; injection H as _ <-; reflexivity). subst r0.
    assert (NP : r <> UrPanic) by (intros ->; destruct bw; destruct C). pose proof NF0 as NF.
    assert (PW : nth_error (wk_recv s) sid = Some RpWait) by (apply (wi_lock _ I); rewrite LK; left; reflexivity).
    destruct (wi_busy _ I _ _ PW ltac:(discriminate)) as (p' & O').
    destruct (recv_cases _ _ _ _ _ _ (wi_dead _ I) (wi_t _ I) O' U NP NF) as (D & SS & st1 & c' & GR & G' & A' & CS).
    destruct GR as (_ & GR & _). destruct (GR _ _ G) as (c1 & q1 & G1 & A1 & Q1). rewrite Q in Q1. cbn [app] in Q1.
    destruct (Nat.eq_dec sid i) as [-> |N].
    + rewrite O in O'. injection O' as <-. rewrite G1 in G'. injection G' as <-. left. exists bw. split; [reflexivity|].
      destruct CS as [(_ & _ & X)|(b' & q' & -> & X & _)]; [congruence|]. rewrite Q1 in X. injection X as -> _. reflexivity.
    + right. assert (NP' : p <> p') by (intros ->; apply N; eapply (ti_once _ _ (wi_t _ I)); eauto).
      assert (AH' : exists n', (exists l r, rest = l ++ i :: r /\ ~ In i l /\ length l = n') /\ (n' + 1 <= n)%nat).
      { destruct AH as (a & b' & EQ & NI & L). rewrite LK in EQ. destruct a as [|x a]; cbn in EQ; [congruence|]. injection EQ as -> ->.
        exists (length a). split; [exists a, b'; split; [reflexivity|]; split; [intros X; apply NI; right; exact X|reflexivity]|cbn in L; lia]. }
      assert (PHS : forall x, nth_error (set_phase (wk_recv s) sid x) i = Some RpWait) by (intros x; rewrite set_phase_other by exact N; exact W).
      destruct CS as [(-> & SU & _)|(b' & q' & -> & X & SU)]; injection H as <-;
        unfold receiving, undelivered, ahead; cbn [wk_sys wk_recv wk_lock]; rewrite SU, SS.
      * split; [auto|]. split; [exists (q ++ q1), c1; auto|exact AH'].
      * split; [auto|]. split; [|exact AH']. exists (q ++ q1), c1. cbn [u_conn]. rewrite get_set_other by congruence. auto.
  - destruct (nth_error (wk_recv s) sid) as [[]|] eqn:PH; try discriminate. injection H as <- <-. right.
    assert (N : sid <> i) by (intros ->; congruence).
    edestruct SAME as (A & B); [| |split; [exact A|]; split; [exact B|]]; [reflexivity|cbn [wk_recv]; rewrite set_phase_other by exact N; exact W|].
    exists n. split; [|lia]. apply ahead_snoc. exact AH.
  - assert (PH : s' = Wake (wk_sys s) (wk_buf s) (wk_rdy s) (wk_aw s) (wk_rw s) (wk_accept s)
                     (set_phase (wk_recv s) sid RpIdle) (drop_lock (wk_lock s) sid)).
    { destruct (nth_error (wk_recv s) sid) as [[]|]; try discriminate; injection H as <- _; reflexivity. }
    subst s'. right. assert (N : sid <> i) by congruence.
    edestruct SAME as (A & B); [| |split; [exact A|]; split; [exact B|]]; [reflexivity|cbn [wk_recv]; rewrite set_phase_other by exact N; exact W|].
    destruct (ahead_drop _ i sid ltac:(congruence) _ AH) as (m & a & b' & E1 & E2 & E3 & E4).
    exists m. split; [exists a, b'; auto|lia].
  - destruct (nth_error (wk_recv s) sid) as [[]|] eqn:PH; try discriminate.
    destruct (udp_step max (wk_sys s) (UeClose sid)) as [[sys r0]|] eqn:U; [|discriminate]. injection H as <- <-. right.
    assert (NP : r0 <> UrPanic) by (intros ->; destruct C). assert (N : sid <> i) by (intros ->; congruence).
    destruct (close_cases _ _ _ _ (wi_dead _ I) (wi_t _ I) U NP) as (D & [-> |(p' & O' & SU & SS)]).
    + edestruct SAME as (A & B); [| |split; [exact A|]; split; [exact B|]]; [reflexivity|exact W|]. exists n. split; [exact AH|lia].
    + assert (NP' : p' <> p) by (intros ->; apply N; eapply (ti_once _ _ (wi_t _ I)); eauto).
      unfold receiving, undelivered, ahead; cbn [wk_sys wk_recv wk_lock]; rewrite SU, SS. split; [|split].
      * rewrite set_closed_other by exact N. auto.
      * exists q, c. cbn [u_conn]. rewrite get_remove_other by exact NP'. auto.
      * exists n. split; [exact AH|lia].
Qed.

(** The receive at the head of the queue can go on. *)
Lemma can_go_on : forall s i p b q, winv s -> receiving s i p -> undelivered s p (b :: q) ->
  exists j s' r, wake_step max s (WvRecv j true) = Some (s', r).
Proof.
  intros s i p b q I (O & W) (c & G & Q).
  assert (RW : wk_rw s = true).
  { apply (wi_rw _ I). rewrite (ti_nr _ _ (wi_t _ I)). pose proof (qlen_total (u_conn (us_udp (wk_sys s))) p) as T.
    unfold qlen in T. rewrite G, Q in T. cbn in T. lia. }
  pose proof (proj2 (wi_lock _ I i) W) as IL. destruct (wk_lock s) as [|j rest] eqn:LK; [destruct IL|].
  assert (PW : nth_error (wk_recv s) j = Some RpWait) by (apply (wi_lock _ I); rewrite LK; left; reflexivity).
  destruct (wi_busy _ I _ _ PW ltac:(discriminate)) as (p' & O').
  exists j. unfold wake_step. rewrite (wi_dead _ I), LK, Nat.eqb_refl, RW. cbn [andb].
  destruct (sock_try_read (wk_buf s) (wk_rdy s)) as [[rd buf] rdy].
  unfold udp_step. rewrite (wi_dead _ I), O'. destruct (try_recv_from max (us_udp (wk_sys s)) rd p') as [st r].
  destruct r; eexists _, _; reflexivity.
Qed.

(** *** After failed receives *)

(** The same state with a notification pending. *)
Definition noted (s : wake) : wake :=
  Wake (wk_sys s) (wk_buf s) (wk_rdy s) (wk_aw s) true (wk_accept s) (wk_recv s) (wk_lock s).

Lemma winv_noted : forall s, winv s -> winv (noted s).
Proof. intros s []. constructor; auto. Qed.

Lemma winv_of_noted : forall s, winv (noted s) ->
  (0 < u_nr (us_udp (wk_sys s)) -> wk_rw s = true) -> winv s.
Proof. intros s [] H. constructor; auto. Qed.

Lemma noted_step : forall s ev s' r, wake_step max s ev = Some (s', r) ->
  exists s2, wake_step max (noted s) ev = Some (s2, r) /\ noted s2 = noted s'.
Proof.
  intros s ev s' r H. unfold wake_step in *.
  cbn [noted wk_sys wk_buf wk_rdy wk_aw wk_rw wk_accept wk_recv wk_lock].
  destruct (us_dead (wk_sys s)); [discriminate|].
  destruct ev as [it| |bw order| |sid|sid bw|sid|sid|sid];
    try (injection H as <- <-; eexists; split; reflexivity).
  - destruct (wk_accept s); try discriminate; injection H as <- <-; eexists; split; reflexivity.
  - destruct (wk_accept s); try discriminate. destruct (if bw then wk_aw s else wk_rdy s); [|discriminate].
    destruct (sock_try_read (wk_buf s) (wk_rdy s)) as [[rd buf] rdy].
    destruct (udp_step max (wk_sys s) (UeAccept rd order)) as [[sys r0]|]; [|discriminate].
    destruct r0; injection H as <- <-; eexists; split; reflexivity.
  - destruct (wk_accept s); try discriminate; injection H as <- <-; eexists; split; reflexivity.
  - destruct (nth_error (wk_recv s) sid) as [[]|]; try discriminate.
    destruct (nth_error (us_sess (wk_sys s)) sid) as [[p []]|]; try discriminate.
    injection H as <- <-; eexists; split; reflexivity.
  - destruct (wk_lock s) as [|i rest]; [discriminate|]. destruct (Nat.eqb i sid); [|discriminate]. cbn [andb] in *.
    assert (B : (if bw then true else wk_rdy s) = true) by (destruct bw; [reflexivity|destruct (wk_rdy s); [reflexivity|discriminate]]).
    rewrite B. destruct (if bw then wk_rw s else wk_rdy s); [|discriminate].
    destruct (sock_try_read (wk_buf s) (wk_rdy s)) as [[rd buf] rdy].
    destruct (udp_step max (wk_sys s) (UeRecv sid rd)) as [[sys r0]|]; [|discriminate].
    destruct r0; injection H as <- <-; eexists; split; reflexivity.
  - destruct (nth_error (wk_recv s) sid) as [[]|]; try discriminate; injection H as <- <-; eexists; split; reflexivity.
  - destruct (nth_error (wk_recv s) sid) as [[]|]; try discriminate; injection H as <- <-; eexists; split; reflexivity.
  - destruct (nth_error (wk_recv s) sid) as [[]|]; try discriminate.
    destruct (udp_step max (wk_sys s) (UeClose sid)) as [[sys r0]|]; [|discriminate].
    injection H as <- <-; eexists; split; reflexivity.
Qed.

(** A receive that failed, but not with an overflow. *)
Lemma noted_fail : forall s sid bw s' e, winv s -> wake_step max s (WvRecv sid bw) = Some (s', UrFail e) ->
  e <> OVERFLOW -> winv (noted s').
Proof.
  intros s sid bw s' e I H NO. destruct (recv_fail _ _ _ _ _ I H NO) as (rest & buf & rdy & n & LK & ->).
  unfold noted; cbn [wk_sys wk_buf wk_rdy wk_aw wk_rw wk_accept wk_recv wk_lock]. apply winv_fail; auto.
Qed.

Lemma noted_winv_step : forall s ev s' r, winv (noted s) -> wevent_ok ev -> wake_step max s ev = Some (s', r) ->
  steady (ev, r) -> winv (noted s').
Proof.
  intros s ev s' r I OK H ST. destruct (noted_step _ _ _ _ H) as (s2 & H2 & <-).
  assert (C : calm (ev, r) \/ (exists sid bw e, ev = WvRecv sid bw /\ r = UrFail e)
     \/ (exists e, r = UrFail e /\ match ev with WvAccept _ _ | WvRecv _ _ => False | _ => True end)).
  { unfold calm, steady in *. cbn in ST. destruct r; try (left; destruct ev as [| | | | |? []| | |]; first [exact Logic.I|exact ST]).
    destruct ev; try (left; exact ST); right;
      first [left; eexists _, _, _; split; reflexivity | right; eexists; split; [reflexivity|exact Logic.I]]. }
  destruct C as [C|[(sid & bw & e & -> & ->)|(e & -> & X)]].
  - apply winv_noted. eapply winv_step; eauto.
  - eapply noted_fail; [exact I|exact H2|]. exact ST.
  - exfalso. clear - H2 X. unfold wake_step in H2. destruct (us_dead (wk_sys (noted s))) eqn:DD; [discriminate|].
    destruct ev; try contradiction; try discriminate.
    + destruct (wk_accept (noted s)); discriminate.
    + destruct (wk_accept (noted s)); discriminate.
    + destruct (nth_error (wk_recv (noted s)) sid) as [[]|]; try discriminate.
      destruct (nth_error (us_sess (wk_sys (noted s))) sid) as [[p []]|]; discriminate.
    + destruct (nth_error (wk_recv (noted s)) sid) as [[]|]; discriminate.
    + destruct (nth_error (wk_recv (noted s)) sid) as [[]|]; discriminate.
    + destruct (nth_error (wk_recv (noted s)) sid) as [[]|]; try discriminate.
      unfold udp_step in H2. rewrite DD in H2.
      destruct (nth_error (us_sess (wk_sys (noted s))) sid) as [[p []]|]; try discriminate. unfold disconnect in H2.
      destruct (u_nr _ <? _); [discriminate|]. destruct (conn_remove _ _); [destruct (_ =? 0)|]; discriminate.
Qed.

Lemma noted_winv_run : forall h s, wake_run max wake_start h s -> Forall steady h -> winv (noted s).
Proof.
  intros h s R C. induction R as [|h s1 ev s2 r R IH OK ST]; [apply winv_noted, winv_start|].
  apply Forall_app in C. destruct C as (C1 & C2). inversion C2 as [|? ? C3 _]. exact (noted_winv_step _ _ _ _ (IH C1) OK ST C3).
Qed.

Lemma pass_winv : forall s ev s' r, winv (noted s) -> wevent_ok ev -> wake_step max s ev = Some (s', r) ->
  pass (ev, r) -> winv s'.
Proof.
  intros s ev s' r I OK H P.
  assert (ST : steady (ev, r)) by (destruct ev, r; cbn in P; try contradiction; exact Logic.I).
  apply winv_of_noted; [eapply noted_winv_step; eauto|].
  intros N. clear I OK ST. unfold wake_step in H. destruct (us_dead (wk_sys s)); [discriminate|].
  destruct ev; try contradiction.
  - destruct (wk_accept s); try discriminate. destruct (if by_watch then wk_aw s else wk_rdy s); [|discriminate].
    destruct (sock_try_read (wk_buf s) (wk_rdy s)) as [[rd buf] rdy].
    destruct (udp_step max (wk_sys s) (UeAccept rd order)) as [[sys r0]|]; [|discriminate].
    destruct r0; injection H as <- <-; try contradiction. cbn [wk_sys wk_rw] in *.
    unfold more_queued. rewrite (proj2 (N.ltb_lt _ _) N). apply orb_true_r.
  - destruct (wk_lock s) as [|i rest]; [discriminate|]. destruct (Nat.eqb i sid && _); [|discriminate].
    destruct (sock_try_read (wk_buf s) (wk_rdy s)) as [[rd buf] rdy].
    destruct (udp_step max (wk_sys s) (UeRecv sid rd)) as [[sys r0]|]; [|discriminate].
    destruct r0; injection H as <- <-; try contradiction; cbn [wk_sys wk_rw] in *;
    unfold more_queued; rewrite (proj2 (N.ltb_lt _ _) N); apply orb_true_r.
Qed.

End Wake.

