(** Proofs about the UDP connection tracking. *)

From Coq Require Import String ZArith NArith List Bool Lia ZifyBool ZifyNat ZifyN Permutation.
From Verif Require Import M_Base M_Proto M_IpAddr M_Udp S_Wire S_Udp P_Base P_Firewall.
Import ListNotations.
Local Open Scope N_scope.

Lemma sa_eqb_spec : forall a b, sa_eqb a b = true <-> a = b.
Proof.
  intros [i p f s] [i' p' f' s']. unfold sa_eqb. simpl.
  rewrite !andb_true_iff, ip_eqb_spec', !N.eqb_eq. split.
  - intros (((-> & ->) & ->) & ->). reflexivity.
  - intros [= -> -> -> ->]. auto.
Qed.
Lemma sa_eqb_refl : forall a, sa_eqb a a = true.
Proof. intro. apply sa_eqb_spec. reflexivity. Qed.
Lemma sa_eqb_neq : forall a b, a <> b -> sa_eqb a b = false.
Proof. intros a b N. destruct (sa_eqb a b) eqn:E; [|reflexivity]. apply sa_eqb_spec in E. contradiction. Qed.
Lemma sa_eqb_sym : forall a b, sa_eqb a b = sa_eqb b a.
Proof.
  intros. destruct (sa_eqb a b) eqn:E.
  - apply sa_eqb_spec in E. subst. symmetry. apply sa_eqb_refl.
  - destruct (sa_eqb b a) eqn:E2; [|reflexivity]. apply sa_eqb_spec in E2. subst.
    rewrite sa_eqb_refl in E. discriminate.
Qed.
Lemma same_addr_spec : forall a b, same_addr a b = true <-> a = b.
Proof. intros a b. unfold same_addr. destruct (sockaddr_dec a b); split; congruence. Qed.
Lemma same_addr_refl : forall a, same_addr a a = true.
Proof. intro. apply same_addr_spec. reflexivity. Qed.
Lemma same_addr_neq : forall a b, a <> b -> same_addr a b = false.
Proof. intros a b N. destruct (same_addr a b) eqn:E; [|reflexivity]. apply same_addr_spec in E. contradiction. Qed.
Lemma sa_dec : forall a b : sockaddr, {a = b} + {a <> b}.
Proof.
  intros. destruct (sa_eqb a b) eqn:E; [left; apply sa_eqb_spec; exact E|right].
  intros ->. rewrite sa_eqb_refl in E. discriminate.
Qed.

(** *** The map *)

Notation keys m := (map fst m).

Lemma get_set_same : forall m p c, conn_get (conn_set m p c) p = Some c.
Proof.
  induction m as [|[q d] m IH]; intros; simpl.
  - rewrite sa_eqb_refl. reflexivity.
  - destruct (sa_eqb q p) eqn:E; simpl; rewrite E; auto.
Qed.
Lemma get_set_other : forall m p c q, p <> q -> conn_get (conn_set m p c) q = conn_get m q.
Proof.
  induction m as [|[r d] m IH]; intros p c q N; simpl.
  - rewrite (sa_eqb_neq p q N). reflexivity.
  - destruct (sa_eqb r p) eqn:E; simpl.
    + apply sa_eqb_spec in E. subst r. rewrite (sa_eqb_neq p q N). reflexivity.
    + destruct (sa_eqb r q); auto.
Qed.
Lemma get_remove_same : forall m p, conn_get (conn_remove m p) p = None.
Proof.
  induction m as [|[q d] m IH]; intros; simpl; [reflexivity|].
  destruct (sa_eqb q p) eqn:E; simpl; [apply IH|]. rewrite E. apply IH.
Qed.
Lemma get_remove_other : forall m p q, p <> q -> conn_get (conn_remove m p) q = conn_get m q.
Proof.
  induction m as [|[r d] m IH]; intros p q N; simpl; [reflexivity|].
  destruct (sa_eqb r p) eqn:E; simpl.
  - apply sa_eqb_spec in E. subst r. rewrite (sa_eqb_neq p q N). apply IH. exact N.
  - destruct (sa_eqb r q); auto.
Qed.
Lemma get_in : forall m p c, conn_get m p = Some c -> In (p, c) m.
Proof.
  induction m as [|[q d] m IH]; intros p c E; simpl in *; [discriminate|].
  destruct (sa_eqb q p) eqn:EQ; [|auto]. apply sa_eqb_spec in EQ. injection E as ->. subst. auto.
Qed.
Lemma in_get : forall m p c, NoDup (keys m) -> In (p, c) m -> conn_get m p = Some c.
Proof.
  induction m as [|[q d] m IH]; intros p c ND I; simpl in *; [contradiction|].
  inversion ND as [|? ? NI ND']. subst. destruct I as [[= -> ->]|I].
  - rewrite sa_eqb_refl. reflexivity.
  - rewrite sa_eqb_neq; auto. intros ->. apply NI. apply in_map_iff. exists (p, c). auto.
Qed.
Lemma get_none_keys : forall m p, conn_get m p = None <-> ~ In p (keys m).
Proof.
  induction m as [|[q d] m IH]; intros p; simpl; [tauto|].
  destruct (sa_eqb q p) eqn:E.
  - apply sa_eqb_spec in E. subst. split; [discriminate|]. intros N. exfalso. auto.
  - rewrite IH. split; [|tauto]. intros N [->|I]; [|auto]. rewrite sa_eqb_refl in E. discriminate.
Qed.
Lemma set_keys : forall m p c, keys (conn_set m p c) = match conn_get m p with Some _ => keys m | None => keys m ++ [p] end.
Proof.
  induction m as [|[q d] m IH]; intros; simpl; [reflexivity|].
  destruct (sa_eqb q p) eqn:E; simpl; [reflexivity|]. rewrite IH. destruct (conn_get m p); reflexivity.
Qed.
Lemma NoDup_snoc : forall (A : Type) (l : list A) x, NoDup l -> ~ In x l -> NoDup (l ++ [x]).
Proof.
  intros A l x ND NI. apply (Permutation_NoDup (l := x :: l)); [apply Permutation_cons_append|].
  constructor; auto.
Qed.
Lemma set_nodup : forall m p c, NoDup (keys m) -> NoDup (keys (conn_set m p c)).
Proof.
  intros m p c ND. rewrite set_keys. destruct (conn_get m p) eqn:E; [exact ND|].
  apply NoDup_snoc; auto. apply get_none_keys. exact E.
Qed.
Lemma remove_nodup : forall m p, NoDup (keys m) -> NoDup (keys (conn_remove m p)).
Proof.
  induction m as [|[q d] m IH]; intros p ND; simpl; [constructor|].
  inversion ND as [|? ? NI ND']. subst. destruct (sa_eqb q p); simpl; [apply IH; auto|].
  constructor; auto. intros I. apply NI. apply in_map_iff in I. destruct I as ([r e] & <- & I).
  apply filter_In in I. apply in_map_iff. exists (r, e). tauto.
Qed.
Lemma set_length : forall m p c,
  length (conn_set m p c) = match conn_get m p with Some _ => length m | None => S (length m) end.
Proof.
  intros. rewrite <- (map_length fst), set_keys. destruct (conn_get m p); rewrite ?app_length, map_length; simpl; lia.
Qed.
Lemma remove_length : forall m p, (length (conn_remove m p) <= length m)%nat.
Proof. induction m as [|[q d] m IH]; intros; simpl; [lia|]. destruct (sa_eqb q p); simpl; specialize (IH p); lia. Qed.
Lemma remove_length_in : forall m p c, conn_get m p = Some c -> (length (conn_remove m p) < length m)%nat.
Proof.
  induction m as [|[q d] m IH]; intros p c E; simpl in *; [discriminate|].
  destruct (sa_eqb q p) eqn:EQ; simpl.
  - pose proof (remove_length m p). lia.
  - specialize (IH _ _ E). lia.
Qed.

(** Number of queued datagrams. *)
Fixpoint total (m : list (sockaddr * uconn)) : nat :=
  match m with [] => 0 | (_, c) :: r => length (uc_queue c) + total r end.
Definition qlen (m : list (sockaddr * uconn)) (p : sockaddr) : nat :=
  match conn_get m p with Some c => length (uc_queue c) | None => 0 end.

Lemma total_set : forall m p c, (total (conn_set m p c) + qlen m p = total m + length (uc_queue c))%nat.
Proof.
  unfold qlen. induction m as [|[q d] m IH]; intros; simpl; [lia|].
  destruct (sa_eqb q p) eqn:E; simpl; [lia|]. specialize (IH p c). lia.
Qed.
Lemma remove_absent : forall m p, ~ In p (keys m) -> conn_remove m p = m.
Proof.
  induction m as [|[q d] m IH]; intros p N; simpl in *; [reflexivity|].
  rewrite sa_eqb_neq by (intros ->; auto). simpl. rewrite IH by auto. reflexivity.
Qed.
Lemma total_remove : forall m p, NoDup (keys m) -> (total (conn_remove m p) + qlen m p = total m)%nat.
Proof.
  unfold qlen. induction m as [|[q d] m IH]; intros p ND; simpl in *; [lia|].
  inversion ND as [|? ? NI ND']. subst.
  destruct (sa_eqb q p) eqn:E; simpl.
  - apply sa_eqb_spec in E. subst. rewrite remove_absent by auto. lia.
  - specialize (IH p ND'). lia.
Qed.
Lemma total_bound : forall m n, (forall p c, In (p, c) m -> (length (uc_queue c) <= n)%nat) ->
  (total m <= length m * n)%nat.
Proof.
  induction m as [|[q d] m IH]; intros n B; simpl; [lia|].
  pose proof (B q d (or_introl eq_refl)). assert (total m <= length m * n)%nat by (apply IH; intros; eapply B; right; eauto). lia.
Qed.
Lemma qlen_total : forall m p, (qlen m p <= total m)%nat.
Proof.
  unfold qlen. induction m as [|[q d] m IH]; intros; simpl; [lia|].
  destruct (sa_eqb q p); [lia|]. specialize (IH p). lia.
Qed.

Lemma set_set_remove : forall m p c, conn_get m p = None -> conn_remove (conn_set m p c) p = m.
Proof.
  induction m as [|[q d] m IH]; intros p c E; simpl in *.
  - rewrite sa_eqb_refl. reflexivity.
  - destruct (sa_eqb q p) eqn:EQ; [discriminate|]. simpl. rewrite EQ. simpl. rewrite IH; auto.
Qed.
Lemma set_remove : forall m p c, conn_remove (conn_set m p c) p = conn_remove m p.
Proof.
  induction m as [|[q d] m IH]; intros p c; simpl.
  - rewrite sa_eqb_refl. reflexivity.
  - destruct (sa_eqb q p) eqn:EQ; simpl; rewrite EQ; simpl; [reflexivity|]. rewrite IH. reflexivity.
Qed.
Lemma set_set : forall m p c d, conn_set (conn_set m p c) p d = conn_set m p d.
Proof.
  induction m as [|[q e] m IH]; intros p c d; simpl.
  - rewrite sa_eqb_refl. reflexivity.
  - destruct (sa_eqb q p) eqn:EQ; simpl; rewrite EQ; [reflexivity|]. rewrite IH. reflexivity.
Qed.

Lemma first_new_some : forall m p, first_new m = Some p -> exists c, In (p, c) m /\ uc_accepted c = false.
Proof.
  induction m as [|[q d] m IH]; intros p E; simpl in *; [discriminate|].
  destruct (uc_accepted d) eqn:A.
  - destruct (IH _ E) as (c & I & F). eauto.
  - injection E as ->. eauto.
Qed.
Lemma first_new_none : forall m, first_new m = None -> forall p c, In (p, c) m -> uc_accepted c = true.
Proof.
  induction m as [|[q d] m IH]; intros E p c I; simpl in *; [contradiction|].
  destruct (uc_accepted d) eqn:A; [|discriminate]. destruct I as [[= -> ->]|I]; eauto.
Qed.

(** *** One read *)

Section Udp.
Variable max : N.

(** What the read does to the table: nothing; append; overflow; too many. *)
Inductive read_effect (st : udp) : sock_read -> udp -> res unit -> Prop :=
| re_none : forall rd r, (forall d p, rd = RdDatagram d p -> (length d < 56)%nat /\ exists e, r = Err e) ->
    r <> Panic -> read_effect st rd st r
| re_push : forall d p c st', (56 <= length d)%nat ->
    c = match conn_get (u_conn st) p with Some c => c | None => UConn [] false end ->
    (length (uc_queue c) < 4)%nat ->
    st' = Udp (conn_set (u_conn st) p (UConn (uc_queue c ++ [firstn 56 d]) (uc_accepted c))) (u_nr st + 1) ->
    len (u_conn st') <= max -> u_nr st + 1 <= max * 4 ->
    read_effect st (RdDatagram d p) st' (Ok tt)
| re_over : forall d p c e, (56 <= length d)%nat -> conn_get (u_conn st) p = Some c ->
    length (uc_queue c) = 4%nat ->
    read_effect st (RdDatagram d p) (Udp (conn_remove (u_conn st) p) (u_nr st)) (Err e)
| re_many : forall d p e, (56 <= length d)%nat -> conn_get (u_conn st) p = None ->
    max <= len (u_conn st) ->
    read_effect st (RdDatagram d p) st (Err e)
| re_panic : forall d p c st', (56 <= length d)%nat ->
    c = match conn_get (u_conn st) p with Some c => c | None => UConn [] false end ->
    (length (uc_queue c) < 4)%nat ->
    len (conn_set (u_conn st) p (UConn (uc_queue c ++ [firstn 56 d]) (uc_accepted c))) <= max ->
    max * 4 < u_nr st + 1 ->
    read_effect st (RdDatagram d p) st' Panic.

Lemma try_recv_effect : forall st rd st' r,
  len (u_conn st) <= max -> (forall p c, conn_get (u_conn st) p = Some c -> (length (uc_queue c) <= 4)%nat) ->
  try_recv max st rd = (st', r) -> read_effect st rd st' r.
Proof.
  intros st rd st' r LM QM E. unfold try_recv in E. destruct rd as [| |d p].
  - injection E as <- <-. constructor; discriminate.
  - injection E as <- <-. constructor; discriminate.
  - change MSG_SIZE with 56%nat in E. destruct (Nat.eqb (length (firstn 56 d)) 56) eqn:L; cbn [negb] in E.
    2:{ injection E as <- <-. apply re_none; [|discriminate]. intros d' p' X. injection X as <- <-.
        apply Nat.eqb_neq in L. rewrite firstn_length in L. split; [lia|eauto]. }
    apply Nat.eqb_eq in L. rewrite firstn_length in L. assert (56 <= length d)%nat as LD by lia.
    destruct (len (u_conn st) <=? max) eqn:L2; cbn [negb] in E; [|apply N.leb_nle in L2; contradiction].
    set (c := match conn_get (u_conn st) p with Some c => c | None => UConn [] false end) in *.
    assert (length (uc_queue c) <= 4)%nat as QC.
    { unfold c. destruct (conn_get (u_conn st) p) eqn:G; [eapply QM; eauto|simpl; lia]. }
    unfold UDP_RX_QUEUE_SIZE, len in E.
    destruct (N.of_nat (length (uc_queue c)) <=? 4) eqn:L3; cbn [negb] in E; [|apply N.leb_nle in L3; lia].
    destruct (N.of_nat (length (uc_queue c)) =? 4) eqn:L4.
    + injection E as <- <-. rewrite set_remove.
      assert (length (uc_queue c) = 4)%nat by lia. unfold c in *.
      destruct (conn_get (u_conn st) p) eqn:G; [|simpl in *; discriminate].
      eapply re_over; eauto.
    + cbv zeta in E. rewrite set_set in E.
      destruct (max <? N.of_nat (length (conn_set _ _ _))) eqn:L5.
      * injection E as <- <-. rewrite set_remove. apply N.ltb_lt in L5. rewrite set_length in L5.
        unfold c in *. destruct (conn_get (u_conn st) p) eqn:G.
        { exfalso. unfold len in LM. lia. }
        rewrite remove_absent by (apply get_none_keys; exact G). destruct st as [m n]; simpl in *.
        eapply re_many; eauto. simpl. unfold len. lia.
      * destruct (u_nr st + 1 <=? max * 4) eqn:L6; cbn [negb] in E; injection E as <- <-;
          apply N.ltb_ge in L5.
        -- apply (re_push st d p c); [exact LD|reflexivity|lia|reflexivity|exact L5|lia].
        -- apply (re_panic st d p c); [exact LD|reflexivity|lia|exact L5|lia].
Qed.

(** *** Invariant *)

Variable peers : list sockaddr.

Definition extends (f : nat -> option sockaddr) (h : uhist) : Prop :=
  forall sid p, session_peer peers h sid = Some p -> f sid = Some p.

Definition entry_ok (f : nat -> option sockaddr) (st : udp) (h : uhist) (p : sockaddr) : Prop :=
  match conn_get (u_conn st) p with
  | Some c => queue f p h = uc_queue c /\ connected f p h = true /\ taken f p h = uc_accepted c
              /\ (length (uc_queue c) <= 4)%nat
  | None => queue f p h = [] /\ connected f p h = false /\ taken f p h = false
  end.

Record uinv (f : nat -> option sockaddr) (s : udp_sys) (h : uhist) : Prop := {
  ui_sess : map fst (us_sess s) = peers ++ accepted_peers h;
  ui_nodup : NoDup (keys (u_conn (us_udp s)));
  ui_max : len (u_conn (us_udp s)) <= max;
  ui_entry : forall p, entry_ok f (us_udp s) h p;
  ui_nr : N.of_nat (total (u_conn (us_udp s))) <= u_nr (us_udp s);
  ui_nr_eq : no_overflow f h -> u_nr (us_udp s) = N.of_nat (total (u_conn (us_udp s)))
}.

Lemma accepted_app : forall a b, accepted_peers (a ++ b) = accepted_peers a ++ accepted_peers b.
Proof. induction a as [|[e []] a IH]; intros; simpl; rewrite ?IH; reflexivity. Qed.

Lemma extends_snoc : forall f h x, extends f (h ++ [x]) -> extends f h.
Proof.
  intros f h x E sid p S. apply E. unfold session_peer in *. rewrite accepted_app, app_assoc.
  rewrite nth_error_app1; [exact S|]. apply nth_error_Some. congruence.
Qed.

Lemma queue_snoc : forall f p h x, queue f p (h ++ [x]) = queue_step f p (queue f p h) x.
Proof. intros. unfold queue. rewrite fold_left_app. reflexivity. Qed.
Lemma known_snoc : forall f p h x,
  (connected f p (h ++ [x]), taken f p (h ++ [x])) = known_step f p (connected f p h, taken f p h) x.
Proof.
  intros. unfold connected, taken. rewrite fold_left_app. simpl.
  rewrite <- surjective_pairing. rewrite <- surjective_pairing. reflexivity.
Qed.
Lemma no_overflow_snoc : forall f h x, no_overflow f (h ++ [x]) -> no_overflow f h /\ ~ overflow_at f h x.
Proof.
  intros f h x NO. split.
  - intros pre y post -> . apply (NO pre y (post ++ [x])). rewrite <- app_assoc. reflexivity.
  - apply (NO h x []). reflexivity.
Qed.

(** The table after the read, in terms of the specification: [r] is the result
    of the read. *)
Definition read_of (ev : udp_event) : sock_read :=
  match ev with UeAccept rd _ => rd | UeRecv _ rd => rd | UeClose _ => RdWouldBlock end.

(** Specification after reading, before anything else. *)
Definition q1 (f : nat -> option sockaddr) (h : uhist) (rd : sock_read) (bad : bool) (p : sockaddr) :=
  match rd with
  | RdDatagram d q => if Nat.leb 56 (length d) then
                        if same_addr q p then (if bad then [] else queue f p h ++ [firstn 56 d]) else queue f p h
                      else queue f p h
  | _ => queue f p h
  end.
Definition k1 (f : nat -> option sockaddr) (h : uhist) (rd : sock_read) (bad : bool) (p : sockaddr) :=
  match rd with
  | RdDatagram d q => if Nat.leb 56 (length d) then
                        if same_addr q p then (if bad then (false, false) else (true, taken f p h))
                        else (connected f p h, taken f p h)
                      else (connected f p h, taken f p h)
  | _ => (connected f p h, taken f p h)
  end.

Definition entry1 f h rd bad st p :=
  match conn_get (u_conn st) p with
  | Some c => q1 f h rd bad p = uc_queue c /\ k1 f h rd bad p = (true, uc_accepted c)
              /\ (length (uc_queue c) <= 4)%nat
  | None => q1 f h rd bad p = [] /\ k1 f h rd bad p = (false, false)
  end.

Definition is_err {A} (r : res A) : bool := match r with Ok _ => false | _ => true end.

Lemma read_step : forall f st h rd st' r,
  NoDup (keys (u_conn st)) -> len (u_conn st) <= max -> (forall p, entry_ok f st h p) ->
  N.of_nat (total (u_conn st)) <= u_nr st ->
  try_recv max st rd = (st', r) ->
  (r = Panic /\ u_nr st <> N.of_nat (total (u_conn st)))
  \/ (r <> Panic /\ NoDup (keys (u_conn st')) /\ len (u_conn st') <= max
      /\ (forall p, entry1 f h rd (is_err r) st' p)
      /\ N.of_nat (total (u_conn st')) <= u_nr st'
      /\ (u_nr st = N.of_nat (total (u_conn st)) ->
          (forall d p, rd = RdDatagram d p -> (56 <= length d)%nat -> length (queue f p h) <> 4%nat) ->
          u_nr st' = N.of_nat (total (u_conn st')))).
Proof.
  intros f st h rd st' r ND LM EN NR E.
  assert (QM : forall p c, conn_get (u_conn st) p = Some c -> (length (uc_queue c) <= 4)%nat).
  { intros p c G. pose proof (EN p) as X. unfold entry_ok in X. rewrite G in X. apply X. }
  apply try_recv_effect in E; auto. clear QM.
  destruct E as [rd r SM NP|d p c st' LD EC QC -> LM2 NR2|d p c e LD G QC|d p e LD G _|d p c st' LD EC QC LM2 NR2].
  - right. split; [exact NP|]. split; [exact ND|]. split; [exact LM|]. split.
    + intro p. pose proof (EN p) as X. unfold entry_ok, entry1, q1, k1 in *.
      destruct rd as [| |d q].
      1,2: destruct (conn_get (u_conn st) p);
        [destruct X as (X1 & X2 & X3 & ?) | destruct X as (X1 & X2 & X3)];
        rewrite X1, X2, X3; auto.
      destruct (SM d q eq_refl) as (L & _). destruct (Nat.leb 56 (length d)) eqn:LE; [apply Nat.leb_le in LE; lia|].
      destruct (conn_get (u_conn st) p).
      * destruct X as (-> & -> & -> & ?). auto.
      * destruct X as (-> & -> & ->). auto.
    + split; [exact NR|]. auto.
  - right. split; [discriminate|]. cbn [u_conn u_nr]. split; [apply set_nodup; exact ND|]. split; [exact LM2|].
    assert (T : total (conn_set (u_conn st) p (UConn (uc_queue c ++ [firstn 56 d]) (uc_accepted c)))
                = S (total (u_conn st))).
    { pose proof (total_set (u_conn st) p (UConn (uc_queue c ++ [firstn 56 d]) (uc_accepted c))) as TS.
      cbn [uc_queue] in TS. rewrite app_length in TS. cbn [length] in TS. unfold qlen in TS.
      subst c. destruct (conn_get (u_conn st) p); cbn [uc_queue length] in *; lia. }
    split; [|split; [rewrite T; lia|intros; rewrite T; lia]].
    intro q. pose proof (EN q) as X. unfold entry_ok, entry1, q1, k1 in *. cbn [u_conn].
    destruct (Nat.leb 56 (length d)) eqn:LE; [|apply Nat.leb_nle in LE; contradiction]. cbn [is_err].
    destruct (sa_dec p q) as [<-|N].
    + rewrite get_set_same, same_addr_refl. subst c.
      destruct (conn_get (u_conn st) p) as [c|]; cbn [uc_queue uc_accepted] in *.
      * destruct X as (-> & _ & -> & _). rewrite app_length. cbn [length]. repeat split; lia.
      * destruct X as (-> & _ & ->). cbn [length app]. repeat split. lia.
    + rewrite get_set_other by exact N. rewrite (same_addr_neq p q N).
      destruct (conn_get (u_conn st) q).
      * destruct X as (-> & -> & -> & ?). auto.
      * destruct X as (-> & -> & ->). auto.
  - right. split; [discriminate|]. simpl. split; [apply remove_nodup; exact ND|].
    split. { pose proof (remove_length (u_conn st) p). unfold len in *. lia. }
    pose proof (total_remove (u_conn st) p ND) as TR.
    split; [|split; [lia|]].
    2:{ intros _ NO. exfalso. apply (NO d p eq_refl LD). pose proof (EN p) as X. unfold entry_ok in X.
        rewrite G in X. destruct X as (-> & _). exact QC. }
    intro q. pose proof (EN q) as X. unfold entry_ok, entry1, q1, k1 in *. cbn [u_conn].
    destruct (Nat.leb 56 (length d)) eqn:LE; [|apply Nat.leb_nle in LE; contradiction]. cbn [is_err].
    destruct (sa_dec p q) as [<-|N].
    + rewrite get_remove_same, same_addr_refl. auto.
    + rewrite get_remove_other by exact N. rewrite (same_addr_neq p q N).
      destruct (conn_get (u_conn st) q).
      * destruct X as (-> & -> & -> & ?). auto.
      * destruct X as (-> & -> & ->). auto.
  - right. split; [discriminate|]. split; [exact ND|]. split; [exact LM|].
    split; [|split; [exact NR|auto]].
    intro q. pose proof (EN q) as X. unfold entry_ok, entry1, q1, k1 in *.
    destruct (Nat.leb 56 (length d)) eqn:LE; [|apply Nat.leb_nle in LE; contradiction]. cbn [is_err].
    destruct (sa_dec p q) as [<-|N].
    + rewrite same_addr_refl, G. auto.
    + rewrite (same_addr_neq p q N). destruct (conn_get (u_conn st) q).
      * destruct X as (-> & -> & -> & ?). auto.
      * destruct X as (-> & -> & ->). auto.
  - left. split; [reflexivity|]. intros EQ.
    assert (T : total (conn_set (u_conn st) p (UConn (uc_queue c ++ [firstn 56 d]) (uc_accepted c)))
                = S (total (u_conn st))).
    { pose proof (total_set (u_conn st) p (UConn (uc_queue c ++ [firstn 56 d]) (uc_accepted c))) as TS.
      cbn [uc_queue] in TS. rewrite app_length in TS. cbn [length] in TS. unfold qlen in TS.
      subst c. destruct (conn_get (u_conn st) p); cbn [uc_queue length] in *; lia. }
    pose proof (total_bound (conn_set (u_conn st) p (UConn (uc_queue c ++ [firstn 56 d]) (uc_accepted c))) 4) as TB.
    assert (forall q e, In (q, e) (conn_set (u_conn st) p (UConn (uc_queue c ++ [firstn 56 d]) (uc_accepted c)))
            -> (length (uc_queue e) <= 4)%nat) as QB.
    { intros q e I. apply in_get in I; [|apply set_nodup; exact ND].
      destruct (sa_dec p q) as [<-|N].
      - rewrite get_set_same in I. injection I as <-. simpl. rewrite app_length. simpl. lia.
      - rewrite get_set_other in I by exact N. pose proof (EN q) as X. unfold entry_ok in X. rewrite I in X. apply X. }
    specialize (TB QB). unfold len in LM2. lia.
Qed.

Lemma q1_accept : forall f p h rd o r, r <> UrClosed ->
  queue_step f p (queue f p h) (UeAccept rd o, r) = q1 f h rd (failed r) p.
Proof.
  intros f p h rd o r NC. unfold queue_step, q1, datagram_read. cbn [snd].
  destruct r; try contradiction; destruct rd as [| |d q]; try reflexivity;
    destruct (Nat.leb 56 (length d)); reflexivity.
Qed.
Lemma k1_accept : forall f p h rd o r, r <> UrClosed ->
  known_step f p (connected f p h, taken f p h) (UeAccept rd o, r)
  = match r with
    | UrAccepted q => if same_addr q p then (fst (k1 f h rd (failed r) p), true) else k1 f h rd (failed r) p
    | _ => k1 f h rd (failed r) p
    end.
Proof.
  intros f p h rd o r NC. unfold known_step, k1, datagram_read. cbn [fst snd].
  destruct r; try contradiction; destruct rd as [| |d q]; try reflexivity;
    destruct (Nat.leb 56 (length d)); reflexivity.
Qed.
Lemma q1_recv : forall f p h rd sid r, r <> UrClosed ->
  queue_step f p (queue f p h) (UeRecv sid rd, r)
  = match r with
    | UrDatagram _ => if of_peer f sid p then tl (q1 f h rd (failed r) p) else q1 f h rd (failed r) p
    | _ => q1 f h rd (failed r) p
    end.
Proof.
  intros f p h rd sid r NC. unfold queue_step, q1, datagram_read. cbn [snd].
  destruct r; try contradiction; destruct rd as [| |d q]; try reflexivity;
    destruct (Nat.leb 56 (length d)); reflexivity.
Qed.
Lemma k1_recv : forall f p h rd sid r, r <> UrClosed ->
  known_step f p (connected f p h, taken f p h) (UeRecv sid rd, r) = k1 f h rd (failed r) p.
Proof.
  intros f p h rd sid r NC. unfold known_step, k1, datagram_read. cbn [fst snd].
  destruct r; try contradiction; destruct rd as [| |d q]; try reflexivity;
    destruct (Nat.leb 56 (length d)); reflexivity.
Qed.

Lemma overflow_read : forall f h ev r, r <> UrClosed -> ~ overflow_at f h (ev, r) ->
  forall d p, read_of ev = RdDatagram d p -> (56 <= length d)%nat -> length (queue f p h) <> 4%nat.
Proof.
  intros f h ev r NC NO d p E L Q. apply NO. exists (firstn 56 d), p. split; [|exact Q].
  apply Nat.leb_le in L. unfold datagram_read.
  destruct ev as [rd o|sid rd|sid]; simpl in E; try discriminate; subst rd; rewrite L;
    destruct r; try contradiction; reflexivity.
Qed.

Lemma set_closed_fst : forall l i, map fst (set_closed l i) = map fst l.
Proof.
  induction l as [|[p b] l IH]; intros [|i]; simpl; auto. rewrite IH. reflexivity.
Qed.

Lemma entry_of : forall f st h p c, entry_ok f st h p -> conn_get (u_conn st) p = c ->
  queue f p h = match c with Some c => uc_queue c | None => [] end
  /\ (connected f p h, taken f p h) = match c with Some c => (true, uc_accepted c) | None => (false, false) end
  /\ match c with Some c => (length (uc_queue c) <= 4)%nat | None => True end.
Proof.
  intros f st h p c E <-. unfold entry_ok in E. destruct (conn_get (u_conn st) p).
  - destruct E as (-> & -> & -> & ?). auto.
  - destruct E as (-> & -> & ->). auto.
Qed.
Lemma entry1_of : forall f st h rd bad p c, entry1 f h rd bad st p -> conn_get (u_conn st) p = c ->
  q1 f h rd bad p = match c with Some c => uc_queue c | None => [] end
  /\ k1 f h rd bad p = match c with Some c => (true, uc_accepted c) | None => (false, false) end
  /\ match c with Some c => (length (uc_queue c) <= 4)%nat | None => True end.
Proof.
  intros f st h rd bad p c E <-. unfold entry1 in E. destruct (conn_get (u_conn st) p); tauto.
Qed.
Lemma entry_intro : forall f st h x p c,
  conn_get (u_conn st) p = c ->
  queue_step f p (queue f p h) x = match c with Some c => uc_queue c | None => [] end ->
  known_step f p (connected f p h, taken f p h) x
    = match c with Some c => (true, uc_accepted c) | None => (false, false) end ->
  match c with Some c => (length (uc_queue c) <= 4)%nat | None => True end ->
  entry_ok f st (h ++ [x]) p.
Proof.
  intros f st h x p c E Q K L. unfold entry_ok. rewrite E, queue_snoc.
  rewrite <- known_snoc in K. destruct c.
  - injection K as -> ->. auto.
  - injection K as -> ->. auto.
Qed.

Definition us_inv (f : nat -> option sockaddr) (s : udp_sys) (h : uhist) : Prop :=
  if us_dead s then ~ no_overflow f h else uinv f s h.

Lemma udp_inv_step : forall f s h ev s' r,
  us_dead s = false -> uinv f s h -> extends f (h ++ [(ev, r)]) -> uevent_ok ev ->
  udp_step max s ev = Some (s', r) -> us_inv f s' (h ++ [(ev, r)]).
Proof.
  intros f s h ev s' r AL [US UN UM UE UR UQ] EX OK ST. unfold udp_step in ST. rewrite AL in ST.
  assert (DEAD : forall st ss, u_nr (us_udp s) <> N.of_nat (total (u_conn (us_udp s))) ->
            us_inv f (UdpSys st ss true) (h ++ [(ev, r)])).
  { intros st ss NE NO. apply NE. apply UQ. apply no_overflow_snoc in NO. apply NO. }
  destruct ev as [rd o|sid rd|sid].
  - (* accept *)
    unfold try_accept in ST. destruct (try_recv max (us_udp s) rd) as [st1 r1] eqn:TR.
    destruct (read_step f _ h rd st1 r1 UN UM UE UR TR) as [(-> & NE)|(NP & ND & LM & E1 & NR & EQ)].
    { injection ST as <- <-. apply DEAD. exact NE. }
    assert (EQ' : forall r0, r0 <> UrClosed -> no_overflow f (h ++ [(UeAccept rd o, r0)]) ->
              u_nr st1 = N.of_nat (total (u_conn st1))).
    { intros r0 NC NO. apply no_overflow_snoc in NO. destruct NO as [NO NO1].
      apply EQ; [apply UQ; exact NO|]. exact (overflow_read f h (UeAccept rd o) r0 NC NO1). }
    destruct r1 as [[]|e|]; [|injection ST as <- <-|congruence].
    2:{ constructor; cbn [us_udp us_sess]; auto.
        - rewrite accepted_app. simpl. rewrite app_nil_r. exact US.
        - intro p. destruct (entry1_of _ _ _ _ _ _ _ (E1 p) eq_refl) as (Q & K & L).
          eapply entry_intro; [reflexivity| | |exact L].
          + rewrite q1_accept by discriminate. exact Q.
          + rewrite k1_accept by discriminate. exact K.
        - intros NO. eapply EQ'; [|exact NO]. discriminate. }
    destruct (first_new (o (u_conn st1))) as [p|] eqn:FN.
    2:{ injection ST as <- <-. constructor; cbn [us_udp us_sess]; auto.
        - rewrite accepted_app. simpl. rewrite app_nil_r. exact US.
        - intro p. destruct (entry1_of _ _ _ _ _ _ _ (E1 p) eq_refl) as (Q & K & L).
          eapply entry_intro; [reflexivity| | |exact L].
          + rewrite q1_accept by discriminate. exact Q.
          + rewrite k1_accept by discriminate. exact K.
        - intros NO. eapply EQ'; [|exact NO]. discriminate. }
    destruct (first_new_some _ _ FN) as (c & IC & AC).
    assert (IC' : In (p, c) (u_conn st1)) by (eapply Permutation_in; [apply OK|exact IC]).
    apply in_get in IC'; [|exact ND]. rewrite IC' in ST. injection ST as <- <-.
    constructor; cbn [us_udp us_sess u_conn u_nr].
    + rewrite accepted_app, map_app, US. simpl. rewrite app_assoc. reflexivity.
    + apply set_nodup. exact ND.
    + unfold len in *. rewrite set_length, IC'. exact LM.
    + intro q. destruct (entry1_of _ _ _ _ _ _ _ (E1 q) eq_refl) as (Q & K & L).
      destruct (sa_dec p q) as [<-|N].
      * rewrite IC' in Q, K, L. eapply entry_intro; [apply get_set_same| | |exact L].
        -- rewrite q1_accept by discriminate. exact Q.
        -- rewrite k1_accept by discriminate. cbn [failed is_err] in *. rewrite same_addr_refl, K. reflexivity.
      * eapply entry_intro; [apply get_set_other; exact N| | |exact L].
        -- rewrite q1_accept by discriminate. exact Q.
        -- rewrite k1_accept by discriminate. rewrite (same_addr_neq p q N). exact K.
    + pose proof (total_set (u_conn st1) p (UConn (uc_queue c) true)) as TS. unfold qlen in TS.
      rewrite IC' in TS. simpl in TS. lia.
    + intros NO. pose proof (total_set (u_conn st1) p (UConn (uc_queue c) true)) as TS. unfold qlen in TS.
      rewrite IC' in TS. simpl in TS. rewrite (EQ' (UrAccepted p)) by (discriminate || exact NO). lia.
  - (* receive *)
    destruct (nth_error (us_sess s) sid) as [[p cl]|] eqn:NS; [|discriminate].
    assert (FP : f sid = Some p).
    { apply EX. unfold session_peer. rewrite accepted_app, app_assoc, nth_error_app1.
      - rewrite <- US, nth_error_map, NS. reflexivity.
      - rewrite <- US, map_length. apply nth_error_Some. congruence. }
    destruct cl.
    { injection ST as <- <-. red. rewrite AL. constructor; auto.
      - rewrite accepted_app. simpl. rewrite app_nil_r. exact US.
      - intro q. destruct (entry_of _ _ _ _ _ (UE q) eq_refl) as (Q & K & L).
        eapply entry_intro; [reflexivity| | |exact L].
        + rewrite <- Q. destruct rd; reflexivity.
        + rewrite <- K. destruct rd; reflexivity.
      - intros NO. apply UQ. apply no_overflow_snoc in NO. apply NO. }
    unfold try_recv_from in ST. destruct (try_recv max (us_udp s) rd) as [st1 r1] eqn:TR.
    destruct (read_step f _ h rd st1 r1 UN UM UE UR TR) as [(-> & NE)|(NP & ND & LM & E1 & NR & EQ)].
    { injection ST as <- <-. apply DEAD. exact NE. }
    assert (EQ' : forall r0, r0 <> UrClosed -> no_overflow f (h ++ [(UeRecv sid rd, r0)]) ->
              u_nr st1 = N.of_nat (total (u_conn st1))).
    { intros r0 NC NO. apply no_overflow_snoc in NO. destruct NO as [NO NO1].
      apply EQ; [apply UQ; exact NO|]. exact (overflow_read f h (UeRecv sid rd) r0 NC NO1). }
    assert (SAME : forall r0, (r0 = UrIdle \/ exists e, r0 = UrFail e) -> failed r0 = is_err r1 ->
              us_inv f (UdpSys st1 (us_sess s) (is_panic r0)) (h ++ [(UeRecv sid rd, r0)])).
    { intros r0 R0 FA. assert (NC : r0 <> UrClosed) by (destruct R0 as [->|(e & ->)]; discriminate).
      assert (is_panic r0 = false) as -> by (destruct R0 as [->|(e & ->)]; reflexivity).
      constructor; cbn [us_udp us_sess]; auto.
      - rewrite accepted_app. destruct R0 as [->|(e & ->)]; simpl; rewrite app_nil_r; exact US.
      - intro q. destruct (entry1_of _ _ _ _ _ _ _ (E1 q) eq_refl) as (Q & K & L).
        eapply entry_intro; [reflexivity| | |exact L].
        + rewrite q1_recv by exact NC. rewrite FA. destruct R0 as [->|(e & ->)]; exact Q.
        + rewrite k1_recv by exact NC. rewrite FA. exact K.
      - intros NO. eapply EQ'; [exact NC|exact NO]. }
    destruct r1 as [[]|e|]; [|injection ST as <- <-; apply (SAME (UrFail e)); eauto|congruence].
    destruct (conn_get (u_conn st1) p) as [[[|b q0] a]|] eqn:G.
    1,3: injection ST as <- <-; apply (SAME UrIdle); auto.
    pose proof (qlen_total (u_conn st1) p) as QT. unfold qlen in QT. rewrite G in QT. cbn [uc_queue length] in QT.
    destruct (u_nr st1 =? 0) eqn:Z; [apply N.eqb_eq in Z; lia|]. injection ST as <- <-.
    constructor; cbn [us_udp us_sess u_conn u_nr].
    + rewrite accepted_app. simpl. rewrite app_nil_r. exact US.
    + apply set_nodup. exact ND.
    + unfold len in *. rewrite set_length, G. exact LM.
    + intro q. destruct (entry1_of _ _ _ _ _ _ _ (E1 q) eq_refl) as (Q & K & L).
      destruct (sa_dec p q) as [<-|N].
      * rewrite G in Q, K, L. eapply entry_intro; [apply get_set_same| | |].
        -- rewrite q1_recv by discriminate. unfold of_peer. rewrite FP, same_addr_refl.
           cbn [failed is_err] in *. rewrite Q. reflexivity.
        -- rewrite k1_recv by discriminate. exact K.
        -- cbn [uc_queue length] in *. lia.
      * eapply entry_intro; [apply get_set_other; exact N| | |exact L].
        -- rewrite q1_recv by discriminate. unfold of_peer. rewrite FP, (same_addr_neq p q N). exact Q.
        -- rewrite k1_recv by discriminate. exact K.
    + pose proof (total_set (u_conn st1) p (UConn q0 a)) as TS. unfold qlen in TS.
      rewrite G in TS. cbn [uc_queue length] in TS. lia.
    + intros NO. pose proof (total_set (u_conn st1) p (UConn q0 a)) as TS. unfold qlen in TS.
      rewrite G in TS. cbn [uc_queue length] in TS.
      rewrite (EQ' (UrDatagram b)) by (discriminate || exact NO). lia.
  - (* close *)
    destruct (nth_error (us_sess s) sid) as [[p cl]|] eqn:NS; [|discriminate].
    assert (FP : f sid = Some p).
    { apply EX. unfold session_peer. rewrite accepted_app, app_assoc, nth_error_app1.
      - rewrite <- US, nth_error_map, NS. reflexivity.
      - rewrite <- US, map_length. apply nth_error_Some. congruence. }
    destruct cl.
    { injection ST as <- <-. red. rewrite AL. constructor; auto.
      - rewrite accepted_app. simpl. rewrite app_nil_r. exact US.
      - intro q. destruct (entry_of _ _ _ _ _ (UE q) eq_refl) as (Q & K & L).
        eapply entry_intro; [reflexivity| | |exact L]; assumption.
      - intros NO. apply UQ. apply no_overflow_snoc in NO. apply NO. }
    unfold disconnect in ST.
    pose proof (total_remove (u_conn (us_udp s)) p UN) as TR. unfold qlen in TR.
    set (n := match conn_get (u_conn (us_udp s)) p with Some c => len (uc_queue c) | None => 0 end) in *.
    assert (EN : n = N.of_nat (match conn_get (u_conn (us_udp s)) p with
                               | Some c => length (uc_queue c) | None => 0 end)).
    { unfold n, len. destruct (conn_get (u_conn (us_udp s)) p); reflexivity. }
    destruct (u_nr (us_udp s) <? n) eqn:LT; [apply N.ltb_lt in LT; lia|].
    assert (GOOD : us_inv f (UdpSys (Udp (conn_remove (u_conn (us_udp s)) p) (u_nr (us_udp s) - n))
                                    (set_closed (us_sess s) sid) false) (h ++ [(UeClose sid, UrDone)])).
    { constructor; cbn [us_udp us_sess u_conn u_nr].
      - rewrite accepted_app, set_closed_fst. simpl. rewrite app_nil_r. exact US.
      - apply remove_nodup. exact UN.
      - pose proof (remove_length (u_conn (us_udp s)) p). unfold len in *. lia.
      - intro q. destruct (entry_of _ _ _ _ _ (UE q) eq_refl) as (Q & K & L).
        destruct (sa_dec p q) as [<-|N].
        + eapply entry_intro; [apply get_remove_same| | |exact I].
          * unfold queue_step, of_peer. cbn. rewrite FP, same_addr_refl. reflexivity.
          * unfold known_step, of_peer. cbn. rewrite FP, same_addr_refl. reflexivity.
        + eapply entry_intro; [apply get_remove_other; exact N| | |exact L].
          * unfold queue_step, of_peer. cbn. rewrite FP, (same_addr_neq p q N). exact Q.
          * unfold known_step, of_peer. cbn [datagram_read fst snd]. rewrite FP, (same_addr_neq p q N). exact K.
      - lia.
      - intros NO. apply no_overflow_snoc in NO. rewrite (UQ (proj1 NO)). lia. }
    destruct (conn_remove (u_conn (us_udp s)) p) as [|x m] eqn:RM.
    + cbn [total] in TR. destruct (u_nr (us_udp s) - n =? 0) eqn:Z; injection ST as <- <-.
      * exact GOOD.
      * apply DEAD. apply N.eqb_neq in Z. lia.
    + injection ST as <- <-. exact GOOD.
Qed.

Lemma udp_history_inv : forall s h, udp_history max peers s h ->
  forall f, extends f h -> us_inv f s h.
Proof.
  induction 1 as [|s h ev s' r H IH OK ST]; intros f EX.
  - constructor; simpl; auto.
    + rewrite map_map. simpl. rewrite map_id, app_nil_r. reflexivity.
    + constructor.
    + unfold len. simpl. lia.
    + intro p. unfold entry_ok. simpl. auto.
    + lia.
  - pose proof (IH f (extends_snoc _ _ _ EX)) as I. unfold us_inv in I.
    destruct (us_dead s) eqn:D.
    + exfalso. unfold udp_step in ST. rewrite D in ST. discriminate.
    + eapply udp_inv_step; eauto.
Qed.

Lemma self_extends : forall h, extends (session_peer peers h) h.
Proof. intros h sid p E. exact E. Qed.

End Udp.
