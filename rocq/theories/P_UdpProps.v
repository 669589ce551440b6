(** UDP sessions: consequences of the invariant. *)

From Coq Require Import String ZArith NArith List Bool Lia ZifyBool ZifyNat ZifyN Permutation.
From Verif Require Import M_Base M_Proto M_IpAddr M_Udp S_Wire S_Udp P_Base P_Firewall P_Udp.
Import ListNotations.
Local Open Scope N_scope.

Section UdpProps.
Variable max : N.
Variable peers : list sockaddr.

Notation sp := (session_peer peers).

Lemma extends_recv : forall h sid rd r, (forall p, r <> UrAccepted p) ->
  extends peers (sp h) (h ++ [(UeRecv sid rd, r)]).
Proof.
  intros h sid rd r NA i p E. unfold session_peer in *. rewrite accepted_app in E.
  destruct r; simpl in E; rewrite ?app_nil_r in E; auto. exfalso. eapply NA. reflexivity.
Qed.

Lemma alive : forall s h ev s' r, udp_history max peers s h -> udp_step max s ev = Some (s', r) ->
  us_dead s = false.
Proof. intros s h ev s' r H ST. unfold udp_step in ST. destruct (us_dead s); [discriminate|reflexivity]. Qed.

Lemma alive_inv : forall s h, udp_history max peers s h -> us_dead s = false ->
  forall f, extends peers f h -> uinv max peers f s h.
Proof. intros s h H D f EX. pose proof (udp_history_inv max peers s h H f EX) as I. unfold us_inv in I. rewrite D in I. exact I. Qed.

Lemma q1_waiting : forall f h rd p, q1 f h rd false p = waiting_after f p h rd.
Proof.
  intros. unfold q1, waiting_after. destruct rd as [| |d q]; rewrite ?app_nil_r; auto.
  destruct (Nat.leb 56 (length d)); simpl; [|rewrite app_nil_r; reflexivity].
  destruct (same_addr q p); rewrite ?app_nil_r; reflexivity.
Qed.

Lemma session_of : forall s h sid p cl, udp_history max peers s h -> us_dead s = false ->
  nth_error (us_sess s) sid = Some (p, cl) -> sp h sid = Some p.
Proof.
  intros s h sid p cl H D N. unfold session_peer.
  rewrite <- (ui_sess _ _ _ _ _ (alive_inv s h H D (sp h) (self_extends peers h))), nth_error_map, N. reflexivity.
Qed.

Lemma recv_result : forall s h, udp_history max peers s h -> forall f, extends peers f h ->
  forall sid rd s' r p,
  udp_step max s (UeRecv sid rd) = Some (s', r) -> sp h sid = Some p ->
  match r with
  | UrDatagram b => exists l, waiting_after f p h rd = b :: l
  | UrIdle => waiting_after f p h rd = []
  | UrFail _ | UrClosed | UrPanic => True
  | _ => False
  end.
Proof.
  intros s h H f EX sid rd s' r p ST SP. pose proof (alive s h _ _ _ H ST) as D.
  pose proof (alive_inv s h H D f EX) as [US UN UM UE UR UQ].
  unfold udp_step in ST. rewrite D in ST.
  destruct (nth_error (us_sess s) sid) as [[p' cl]|] eqn:NS; [|discriminate].
  assert (p' = p) as ->. { pose proof (session_of s h sid p' cl H D NS). congruence. }
  destruct cl; [injection ST as <- <-; exact I|].
  unfold try_recv_from in ST. destruct (try_recv max (us_udp s) rd) as [st1 r1] eqn:TR.
  destruct (read_step max f _ h rd st1 r1 UN UM UE UR TR) as [(-> & NE)|(NP & ND & LM & E1 & NR & EQ)].
  { injection ST as <- <-. exact I. }
  destruct r1 as [[]|e|]; [|injection ST as <- <-; exact I|congruence].
  pose proof (E1 p) as E. unfold entry1 in E. cbn [is_err] in E. rewrite q1_waiting in E.
  destruct (conn_get (u_conn st1) p) as [[[|b q0] a]|] eqn:G.
  - injection ST as <- <-. apply E.
  - destruct (u_nr st1 =? 0); injection ST as <- <-; [exact I|]. exists q0. apply E.
  - injection ST as <- <-. apply E.
Qed.

(** *** Subsequence *)

Lemma sub_refl : forall (A : Type) (l : list A), subsequence l l.
Proof. induction l; constructor; auto. Qed.
Lemma sub_app_r : forall (A : Type) (k l m : list A), subsequence k l -> subsequence k (l ++ m).
Proof. induction 1; simpl; constructor; auto. Qed.
Lemma sub_snoc : forall (A : Type) (k l : list A) x, subsequence k l -> subsequence (k ++ [x]) (l ++ [x]).
Proof.
  induction 1; simpl; try (constructor; auto; fail).
  induction l; simpl; constructor; auto. constructor.
Qed.
Lemma sub_prefix : forall (A : Type) (k1 k2 l : list A), subsequence (k1 ++ k2) l -> subsequence k1 l.
Proof.
  intros A k1 k2 l H. remember (k1 ++ k2) as k eqn:E. revert k1 E.
  induction H as [l|x k l H IH|x k l H IH]; intros k1 E.
  - destruct k1; [constructor|discriminate].
  - destruct k1 as [|y k1]; [constructor|]. simpl in E. injection E as <- E. constructor. auto.
  - constructor. auto.
Qed.

Lemma arrivals_app : forall p a b, arrivals p (a ++ b) = arrivals p a ++ arrivals p b.
Proof.
  intros p a b. induction a as [|x a IH]; simpl; [reflexivity|].
  destruct (datagram_read x) as [[d q]|]; [destruct (same_addr q p)|]; simpl; rewrite ?IH; reflexivity.
Qed.
Lemma deliveries_app : forall f p a b, deliveries f p (a ++ b) = deliveries f p a ++ deliveries f p b.
Proof.
  intros f p a b. induction a as [|[e r] a IH]; simpl; [reflexivity|].
  destruct e; simpl; auto. destruct r; simpl; auto. destruct (of_peer f sid p); simpl; rewrite ?IH; reflexivity.
Qed.

Lemma fifo : forall s h, udp_history max peers s h -> forall f, extends peers f h -> forall p,
  subsequence (deliveries f p h ++ queue f p h) (arrivals p h).
Proof.
  induction 1 as [|s h ev s' r H IH OK ST]; intros f EX p; [constructor|].
  pose proof (extends_snoc _ _ _ _ EX) as EX'. pose proof (IH f EX' p) as S. clear IH.
  rewrite deliveries_app, arrivals_app, queue_snoc.
  (* after the read *)
  set (x := (ev, r)) in *.
  set (l1 := match datagram_read x with
             | Some (b, q) => if same_addr q p then (if failed r then [] else queue f p h ++ [b]) else queue f p h
             | None => queue f p h
             end).
  assert (S1 : subsequence (deliveries f p h ++ l1) (arrivals p h ++ arrivals p [x])).
  { unfold l1. cbn [arrivals]. clear l1. destruct (datagram_read x) as [[b q]|]; [destruct (same_addr q p)|]; rewrite ?app_nil_r; auto.
    destruct (failed r).
    - rewrite ?app_nil_r. apply sub_app_r. eapply sub_prefix. exact S.
    - rewrite app_assoc. apply sub_snoc. exact S. }
  assert (Q : queue_step f p (queue f p h) x
              = match x with
                | (UeRecv sid _, UrDatagram _) => if of_peer f sid p then tl l1 else l1
                | (UeClose sid, UrDone) => if of_peer f sid p then [] else l1
                | _ => l1
                end) by reflexivity.
  rewrite Q. clear Q.
  assert (P1 : subsequence (deliveries f p h) (arrivals p h ++ arrivals p [x])) by (eapply sub_prefix; exact S1).
  unfold x. destruct ev as [rd o|sid rd|sid].
  - simpl deliveries. rewrite app_nil_r. exact S1.
  - destruct r as [| | |b| | |]; cbn [deliveries]; rewrite ?app_nil_r; try exact S1.
    destruct (of_peer f sid p) eqn:OF; cbn [app]; rewrite ?app_nil_r; [|exact S1].
    unfold of_peer in OF. pose proof (alive s h _ _ _ H ST) as D.
    pose proof ST as ST2. unfold udp_step in ST2. rewrite D in ST2.
    destruct (nth_error (us_sess s) sid) as [[p' cl]|] eqn:NS; [|discriminate]. clear ST2.
    pose proof (session_of s h sid p' cl H D NS) as SP. rewrite (EX' _ _ SP) in OF.
    apply same_addr_spec in OF. subst p'.
    destruct (recv_result s h H f EX' sid rd s' _ p ST SP) as (l & W).
    assert (L1 : l1 = b :: l).
    { rewrite <- W. unfold l1, x, datagram_read, waiting_after. cbn [failed].
      destruct rd as [| |d q]; rewrite ?app_nil_r; auto.
      destruct (Nat.leb 56 (length d)); cbn [andb]; rewrite ?app_nil_r; auto.
      destruct (same_addr q p); rewrite ?app_nil_r; reflexivity. }
    rewrite L1 in *. cbn [tl]. rewrite <- app_assoc. exact S1.
  - cbn [deliveries]. rewrite app_nil_r. destruct r; try exact S1.
    destruct (of_peer f sid p); [|exact S1]. rewrite app_nil_r. exact P1.
Qed.

(** *** Bounds *)

Lemma queue_bound : forall s h, udp_history max peers s h -> us_dead s = false -> forall p,
  (length (queue (sp h) p h) <= 4)%nat.
Proof.
  intros s h H D p. pose proof (ui_entry _ _ _ _ _ (alive_inv s h H D (sp h) (self_extends peers h)) p) as E.
  unfold entry_ok in E. destruct (conn_get (u_conn (us_udp s)) p).
  - destruct E as (-> & _ & _ & L). exact L.
  - destruct E as (-> & _). simpl. lia.
Qed.

Lemma connected_in : forall s h f, uinv max peers f s h -> forall p, connected f p h = true ->
  In p (map fst (u_conn (us_udp s))).
Proof.
  intros s h f I p C. pose proof (ui_entry _ _ _ _ _ I p) as E. unfold entry_ok in E.
  destruct (conn_get (u_conn (us_udp s)) p) eqn:G.
  - apply get_in in G. apply in_map_iff. exists (p, u). auto.
  - destruct E as (_ & X & _). congruence.
Qed.

Lemma conn_bound : forall s h, udp_history max peers s h -> us_dead s = false ->
  len (u_conn (us_udp s)) <= max
  /\ forall ps, NoDup ps -> (forall p, In p ps -> connected (sp h) p h = true) -> len ps <= max.
Proof.
  intros s h H D. pose proof (alive_inv s h H D (sp h) (self_extends peers h)) as I.
  split; [apply I|]. intros ps ND C. pose proof (ui_max _ _ _ _ _ I) as M.
  assert (length ps <= length (map fst (u_conn (us_udp s))))%nat.
  { apply NoDup_incl_length; [exact ND|]. intros p IP. eapply connected_in; eauto. }
  rewrite map_length in H0. unfold len in *. lia.
Qed.

(** A queue is only non-empty for connected peers. *)
Lemma queue_connected : forall s h, udp_history max peers s h -> us_dead s = false -> forall p,
  queue (sp h) p h <> [] -> connected (sp h) p h = true.
Proof.
  intros s h H D p Q. pose proof (ui_entry _ _ _ _ _ (alive_inv s h H D (sp h) (self_extends peers h)) p) as E.
  unfold entry_ok in E. destruct (conn_get (u_conn (us_udp s)) p); [apply E|].
  destruct E as (X & _). contradiction.
Qed.

(** *** Panics *)

Lemma no_panic : forall s h, udp_history max peers s h -> no_overflow (sp h) h -> us_dead s = false.
Proof.
  intros s h H NO. pose proof (udp_history_inv max peers s h H (sp h) (self_extends peers h)) as I.
  unfold us_inv in I. destruct (us_dead s); [contradiction|reflexivity].
Qed.

(** *** Failing receives *)

Lemma recv_fail : forall s h, udp_history max peers s h -> forall sid rd s' e,
  udp_step max s (UeRecv sid rd) = Some (s', UrFail e) ->
  rd = RdError \/ exists d q, rd = RdDatagram d q
    /\ ((length d < 56)%nat \/ length (queue (sp h) q h) = 4%nat
        \/ (connected (sp h) q h = false
            /\ exists ps, NoDup ps /\ len ps = max /\ forall p, In p ps -> connected (sp h) p h = true)).
Proof.
  intros s h H sid rd s' e ST. pose proof (alive s h _ _ _ H ST) as D.
  pose proof (alive_inv s h H D (sp h) (self_extends peers h)) as [US UN UM UE UR UQ].
  unfold udp_step in ST. rewrite D in ST.
  destruct (nth_error (us_sess s) sid) as [[p cl]|] eqn:NS; [|discriminate].
  destruct cl; [discriminate|].
  unfold try_recv_from in ST. destruct (try_recv max (us_udp s) rd) as [st1 r1] eqn:TR.
  assert (r1 = Err e) as ->.
  { destruct r1 as [[]|e'|]; [|congruence|discriminate].
    exfalso. destruct (conn_get (u_conn st1) p) as [[[|b q0] a]|]; try discriminate.
    destruct (u_nr st1 =? 0); discriminate. }
  clear ST.
  assert (RD : rd = RdWouldBlock \/ rd = RdError \/ exists d q, rd = RdDatagram d q)
    by (destruct rd; eauto).
  destruct RD as [->|[->|(d & q & ->)]]; [simpl in TR; discriminate|auto|].
  right. exists d, q. split; [reflexivity|].
  apply (try_recv_effect max) in TR; auto.
  2:{ intros q' c G. pose proof (UE q') as X. unfold entry_ok in X. rewrite G in X. apply X. }
  pose proof (UE q) as X. unfold entry_ok in X.
  inversion TR as [rd r SM NP E1 E2|d' p' c st' LD EC QC ES LM2 NR2 E1|d' p' c e' LD G QC E1 E2|d' p' e' LD G MX E1 E2|]; subst.
  - left. eapply SM. reflexivity.
  - right. left. rewrite G in X. destruct X as (-> & _). exact QC.
  - right. right. rewrite G in X. split; [apply X|].
    exists (map fst (u_conn (us_udp s))). split; [exact UN|]. split.
    + unfold len in *. rewrite map_length. lia.
    + intros p' IP. apply in_map_iff in IP. destruct IP as ([p1 c1] & <- & IP).
      apply in_get in IP; [|exact UN]. pose proof (UE p1) as Y. unfold entry_ok in Y. rewrite IP in Y. apply Y.
Qed.

(** *** Accepting *)

Lemma accept_result : forall s h, udp_history max peers s h -> forall f, extends peers f h ->
  forall rd o s' r, uevent_ok (UeAccept rd o) ->
  udp_step max s (UeAccept rd o) = Some (s', r) ->
  match r with
  | UrAccepted p => taken f p h = false /\
      (connected f p h = true \/ exists d, rd = RdDatagram d p /\ (56 <= length d)%nat)
  | UrIdle => forall p, connected f p h = true \/ (exists d, rd = RdDatagram d p /\ (56 <= length d)%nat) ->
      taken f p h = true
  | UrFail _ | UrPanic => True
  | _ => False
  end.
Proof.
  intros s h H f EX rd o s' r OK ST. pose proof (alive s h _ _ _ H ST) as D.
  pose proof (alive_inv s h H D f EX) as [US UN UM UE UR UQ].
  unfold udp_step in ST. rewrite D in ST.
  unfold try_accept in ST. destruct (try_recv max (us_udp s) rd) as [st1 r1] eqn:TR.
  destruct (read_step max f _ h rd st1 r1 UN UM UE UR TR) as [(-> & NE)|(NP & ND & LM & E1 & NR & EQ)].
  { injection ST as <- <-. exact I. }
  destruct r1 as [[]|e|]; [|injection ST as <- <-; exact I|congruence].
  destruct (first_new (o (u_conn st1))) as [p|] eqn:FN.
  - destruct (first_new_some _ _ FN) as (c & IC & AC).
    assert (IC' : In (p, c) (u_conn st1)) by (eapply Permutation_in; [apply OK|exact IC]).
    apply in_get in IC'; [|exact ND]. rewrite IC' in ST. injection ST as <- <-.
    pose proof (E1 p) as E. unfold entry1 in E. rewrite IC' in E. destruct E as (_ & K & _).
    rewrite AC in K. unfold k1 in K. cbn [is_err] in K.
    destruct rd as [| |d q]; try (injection K as K1 K2; auto; fail).
    destruct (Nat.leb 56 (length d)) eqn:LE; [|injection K as K1 K2; auto].
    destruct (same_addr q p) eqn:SE; [|injection K as K1 K2; auto].
    apply same_addr_spec in SE. subst q. injection K as K2. split; [exact K2|].
    right. exists d. split; [reflexivity|]. apply Nat.leb_le. exact LE.
  - injection ST as <- <-. intros p C. pose proof (E1 p) as E. unfold entry1 in E.
    destruct (conn_get (u_conn st1) p) as [c|] eqn:G.
    + destruct E as (_ & K & _). apply get_in in G.
      assert (In (p, c) (o (u_conn st1))) as IO by (eapply Permutation_in; [apply Permutation_sym; apply OK|exact G]).
      rewrite (first_new_none _ FN p c IO) in K. unfold k1 in K. cbn [is_err] in K.
      destruct rd as [| |d q]; try (injection K as K1 K2; auto; fail).
      destruct (Nat.leb 56 (length d)); [|injection K as K1 K2; auto].
      destruct (same_addr q p); injection K; auto.
    + destruct E as (_ & K). exfalso. unfold k1 in K. cbn [is_err] in K.
      destruct C as [C|(d & -> & LE)]; [|apply Nat.leb_le in LE; rewrite LE, same_addr_refl in K; discriminate].
      destruct rd as [| |d q]; try congruence.
      destruct (Nat.leb 56 (length d)); [|congruence]. destruct (same_addr q p); congruence.
Qed.

Lemma known_keeps : forall f p l k, (forall x, In x l -> ~ resets f p x) -> snd k = true ->
  snd (fold_left (known_step f p) l k) = true.
Proof.
  intros f p l. induction l as [|x l IH]; intros k NR K; simpl; [exact K|].
  apply IH; [intros; apply NR; right; assumption|].
  assert (~ resets f p x) as N by (apply NR; left; reflexivity).
  unfold known_step.
  assert (snd (match datagram_read x with
               | Some (_, q) => if same_addr q p then if failed (snd x) then (false, false) else (true, snd k) else k
               | None => k end) = true) as S1.
  { destruct (datagram_read x) as [[b q]|] eqn:DR; [|exact K].
    destruct (same_addr q p) eqn:SE; [|exact K]. destruct (failed (snd x)) eqn:FA; [|exact K].
    exfalso. apply same_addr_spec in SE. subst q. apply N. right. exists b. auto. }
  destruct x as [[rd o|sid rd|sid] r]; cbn [snd] in *; auto.
  - destruct r; auto. destruct (same_addr p0 p); auto.
  - destruct r; auto. destruct (of_peer f sid p) eqn:OF; auto.
    exfalso. apply N. left. exists sid. split; [reflexivity|]. unfold of_peer in OF.
    destruct (f sid); [|discriminate]. apply same_addr_spec in OF. congruence.
Qed.

Lemma accepted_twice : forall s h1 ev1 h2 ev2 p,
  udp_history max peers s (h1 ++ (ev1, UrAccepted p) :: h2 ++ [(ev2, UrAccepted p)]) ->
  exists x, In x h2 /\ resets (sp (h1 ++ (ev1, UrAccepted p) :: h2 ++ [(ev2, UrAccepted p)])) p x.
Proof.
  intros s h1 ev1 h2 ev2 p H. set (f := sp (h1 ++ _)).
  assert (EX : extends peers f (h1 ++ (ev1, UrAccepted p) :: h2 ++ [(ev2, UrAccepted p)])) by apply self_extends.
  clearbody f.
  assert (ACC : forall s h ev, udp_history max peers s (h ++ [(ev, UrAccepted p)]) ->
     extends peers f (h ++ [(ev, UrAccepted p)]) ->
     (exists rd o, ev = UeAccept rd o) /\ taken f p h = false).
  { clear. intros s h ev H EX. inversion H as [ES E|s0 h0 ev0 s1 r H0 OK ST ES E]; subst s.
    - exfalso. destruct h; discriminate.
    - apply app_inj_tail in E. destruct E as (-> & [= -> ->]).
      pose proof (extends_snoc _ _ _ _ EX) as EX'.
      destruct ev as [rd o|sid rd|sid].
      + split; [eauto|]. pose proof (accept_result s0 h H0 f EX' rd o _ _ OK ST) as A. apply A.
      + exfalso. unfold udp_step in ST. destruct (us_dead s0); [discriminate|].
        destruct (nth_error (us_sess s0) sid) as [[? []]|]; try discriminate.
        unfold try_recv_from in ST. destruct (try_recv _ _ _) as [st1 [[]| |]]; try discriminate.
        destruct (conn_get (u_conn st1) _) as [[[|] ?]|]; try discriminate. destruct (u_nr st1 =? 0); discriminate.
      + exfalso. unfold udp_step in ST. destruct (us_dead s0); [discriminate|].
        destruct (nth_error (us_sess s0) sid) as [[? []]|]; try discriminate.
        unfold disconnect in ST. destruct (_ <? _); try discriminate.
        destruct (conn_remove _ _); try discriminate. destruct (_ =? _); discriminate. }
  assert (E1 : h1 ++ (ev1, UrAccepted p) :: h2 ++ [(ev2, UrAccepted p)]
               = (h1 ++ (ev1, UrAccepted p) :: h2) ++ [(ev2, UrAccepted p)]).
  { rewrite <- app_assoc. reflexivity. }
  rewrite E1 in H, EX. destruct (ACC _ _ _ H EX) as (_ & TK).
  assert (DEC : {forall x, In x h2 -> ~ resets f p x} + {~ forall x, In x h2 -> ~ resets f p x} -> False \/ True) by auto.
  clear DEC.
  (* find a reset by deciding it for every element *)
  assert (RD : forall x, {resets f p x} + {~ resets f p x}).
  { intros x.
    assert (C1 : {exists sid, x = (UeClose sid, UrDone) /\ f sid = Some p} + {~ exists sid, x = (UeClose sid, UrDone) /\ f sid = Some p}).
    { destruct x as [[rd o|sid rd|sid] r]; try (right; intros (? & [=] & _); fail).
      destruct r; try (right; intros (? & [=] & _); fail).
      destruct (f sid) as [q|] eqn:F.
      - destruct (sa_dec q p) as [->|N]; [left; eauto|right]. intros (i & [= <-] & E). congruence.
      - right. intros (i & [= <-] & E). congruence. }
    destruct C1 as [C1|C1]; [left; left; exact C1|].
    destruct (datagram_read x) as [[b q]|] eqn:DR.
    - destruct (sa_dec q p) as [->|N].
      + destruct (failed (snd x)) eqn:FA; [left; right; exists b; auto|].
        right. intros [C|(b' & _ & X)]; [contradiction|congruence].
      + right. intros [C|(b' & X & _)]; [contradiction|congruence].
    - right. intros [C|(b' & X & _)]; [contradiction|congruence]. }
  destruct (Exists_dec (resets f p) h2 RD) as [EXI|NEX].
  - apply Exists_exists in EXI. exact EXI.
  - exfalso.
    assert (K : taken f p (h1 ++ (ev1, UrAccepted p) :: h2) = true).
    { unfold taken. rewrite fold_left_app. simpl. apply known_keeps.
      - intros x IX RX. apply NEX. apply Exists_exists. eauto.
      - assert (exists s1, udp_history max peers s1 (h1 ++ [(ev1, UrAccepted p)])) as (s1 & H1).
        { clear - H. assert (P : forall s h, udp_history max peers s h -> forall a b, h = a ++ b ->
                                exists s1, udp_history max peers s1 a).
          { clear. induction 1 as [|s h ev s' r H IH OK ST]; intros a b E.
            - destruct a; [|discriminate]. eexists. constructor.
            - destruct b as [|y b _] using rev_ind.
              + rewrite app_nil_r in E. subst a. eexists. econstructor; eauto.
              + rewrite app_assoc in E. apply app_inj_tail in E. destruct E as (-> & _). eapply IH. reflexivity. }
          eapply (P _ _ H _ (h2 ++ [(ev2, UrAccepted p)])). rewrite <- !app_assoc. reflexivity. }
        assert (extends peers f (h1 ++ [(ev1, UrAccepted p)])) as EX1.
        { intros sid q E. apply EX. unfold session_peer in *. rewrite !accepted_app in *. simpl in *.
          rewrite ?accepted_app. simpl.
          match goal with |- nth_error ?L sid = Some q => 
            replace L with ((peers ++ accepted_peers h1 ++ [p]) ++ (accepted_peers h2 ++ [p])) end.
          - rewrite nth_error_app1; [exact E|]. apply nth_error_Some. congruence.
          - rewrite <- !app_assoc. reflexivity. }
        destruct (ACC _ _ _ H1 EX1) as ((rd & o & ->) & _).
        unfold known_step. rewrite same_addr_refl. reflexivity. }
    congruence.
Qed.


(** *** Nothing is lost without a reset *)

Lemma fifo_complete : forall s h, udp_history max peers s h -> forall f, extends peers f h -> forall p,
  (forall x, In x h -> ~ resets f p x) ->
  deliveries f p h ++ queue f p h = arrivals p h.
Proof.
  induction 1 as [|s h ev s' r H IH OK ST]; intros f EX p NR; [reflexivity|].
  pose proof (extends_snoc _ _ _ _ EX) as EX'.
  pose proof (IH f EX' p (fun x IX => NR x (in_or_app _ _ _ (or_introl IX)))) as S. clear IH.
  assert (N : ~ resets f p (ev, r)) by (apply NR; apply in_or_app; right; left; reflexivity).
  rewrite deliveries_app, arrivals_app, queue_snoc.
  set (x := (ev, r)) in *.
  set (l1 := match datagram_read x with
             | Some (b, q) => if same_addr q p then (if failed r then [] else queue f p h ++ [b]) else queue f p h
             | None => queue f p h
             end).
  assert (S1 : deliveries f p h ++ l1 = arrivals p h ++ arrivals p [x]).
  { unfold l1. cbn [arrivals]. clear l1. destruct (datagram_read x) as [[b q]|] eqn:DR; [destruct (same_addr q p) eqn:SE|]; rewrite ?app_nil_r; auto.
    destruct (failed r) eqn:FA.
    - exfalso. apply N. right. exists b. apply same_addr_spec in SE. subst q. auto.
    - rewrite app_assoc, S. reflexivity. }
  assert (Q : queue_step f p (queue f p h) x
              = match x with
                | (UeRecv sid _, UrDatagram _) => if of_peer f sid p then tl l1 else l1
                | (UeClose sid, UrDone) => if of_peer f sid p then [] else l1
                | _ => l1
                end) by reflexivity.
  rewrite Q. clear Q. subst x. destruct ev as [rd o|sid rd|sid].
  - simpl deliveries. rewrite app_nil_r. exact S1.
  - destruct r as [| | |b| | |]; cbn [deliveries]; rewrite ?app_nil_r; try exact S1.
    destruct (of_peer f sid p) eqn:OF; cbn [app]; rewrite ?app_nil_r; [|exact S1].
    unfold of_peer in OF. pose proof (alive s h _ _ _ H ST) as D.
    pose proof ST as ST2. unfold udp_step in ST2. rewrite D in ST2.
    destruct (nth_error (us_sess s) sid) as [[p' cl]|] eqn:NS; [|discriminate]. clear ST2.
    pose proof (session_of s h sid p' cl H D NS) as SP. rewrite (EX' _ _ SP) in OF.
    apply same_addr_spec in OF. subst p'.
    destruct (recv_result s h H f EX' sid rd s' _ p ST SP) as (l & W).
    assert (L1 : l1 = b :: l).
    { rewrite <- W. unfold l1, datagram_read, waiting_after. cbn [failed].
      destruct rd as [| |d q]; rewrite ?app_nil_r; auto.
      destruct (Nat.leb 56 (length d)); cbn [andb]; rewrite ?app_nil_r; auto.
      destruct (same_addr q p); rewrite ?app_nil_r; reflexivity. }
    rewrite L1 in *. cbn [tl]. rewrite <- app_assoc. exact S1.
  - cbn [deliveries]. rewrite app_nil_r. destruct r; try exact S1.
    destruct (of_peer f sid p) eqn:OF; [|exact S1]. exfalso. apply N. left. exists sid. split; [reflexivity|].
    unfold of_peer in OF. destruct (f sid); [|discriminate]. apply same_addr_spec in OF. congruence.
Qed.

End UdpProps.

(** *** One open session per peer *)

Section OneSession.
Variable max : N.
Notation hist := (udp_history max []).

Lemma set_closed_nth : forall l i j, nth_error (set_closed l i) j =
  match nth_error l j with
  | Some (p, c) => if Nat.eqb j i then Some (p, true) else Some (p, c)
  | None => None
  end.
Proof.
  induction l as [|[p c] l IH]; intros i j; simpl; [destruct j; reflexivity|].
  destruct i as [|i]; destruct j as [|j]; simpl; auto.
  destruct (nth_error l j) as [[]|]; reflexivity.
Qed.

Record oneinv (s : udp_sys) : Prop := {
  oi_taken : forall i p, nth_error (us_sess s) i = Some (p, false) ->
    exists c, conn_get (u_conn (us_udp s)) p = Some c /\ uc_accepted c = true;
  oi_uniq : forall i j p, nth_error (us_sess s) i = Some (p, false) ->
    nth_error (us_sess s) j = Some (p, false) -> i = j
}.

Lemma read_keeps_accepted : forall st rd st' r,
  len (u_conn st) <= max -> (forall p c, conn_get (u_conn st) p = Some c -> (length (uc_queue c) <= 4)%nat) ->
  (forall d p c, rd = RdDatagram d p -> (56 <= length d)%nat -> conn_get (u_conn st) p = Some c ->
     length (uc_queue c) <> 4%nat) ->
  try_recv max st rd = (st', r) -> r <> Panic ->
  forall p c, conn_get (u_conn st) p = Some c -> uc_accepted c = true ->
  exists c', conn_get (u_conn st') p = Some c' /\ uc_accepted c' = true.
Proof.
  intros st rd st' r LM QM NO TR NP p c G A. apply try_recv_effect in TR; auto.
  destruct TR as [rd r SM NP2|d q c1 st' LD EC QC -> LM2 NR2|d q c1 e LD G1 QC|d q e LD G1 MX|d q c1 st' LD EC QC LM2 NR2];
    eauto; try congruence.
  - cbn [u_conn]. destruct (sa_dec q p) as [->|N].
    + rewrite get_set_same. eexists. split; [reflexivity|]. cbn [uc_accepted]. subst c1. rewrite G. exact A.
    + rewrite get_set_other by exact N. eauto.
  - exfalso. exact (NO d q c1 eq_refl LD G1 QC).
Qed.

Lemma one_session : forall s h, hist s h -> forall f, extends [] f h -> no_overflow f h ->
  oneinv s.
Proof.
  induction 1 as [|s h ev s' r H IH OK ST]; intros f EX NO.
  { constructor; simpl; intros; destruct i; discriminate. }
  pose proof (extends_snoc _ _ _ _ EX) as EX'.
  destruct (no_overflow_snoc _ _ _ NO) as (NO' & NX).
  specialize (IH f EX' NO'). destruct IH as [OT OU].
  pose proof (alive max [] s h _ _ _ H ST) as D.
  pose proof (alive_inv max [] s h H D f EX') as [US UN UM UE UR UQ].
  assert (QM : forall p c, conn_get (u_conn (us_udp s)) p = Some c -> (length (uc_queue c) <= 4)%nat).
  { intros p c G. pose proof (UE p) as X. unfold entry_ok in X. rewrite G in X. apply X. }
  assert (NP : r <> UrPanic).
  { intros ->. pose proof (udp_history_inv max [] s' _ (uh_step max [] s h ev s' _ H OK ST) f EX) as I.
    unfold us_inv in I. unfold udp_step in ST. rewrite D in ST.
    destruct ev as [rd o|sid rd|sid].
    - destruct (try_accept _ _ _ _) as [st r]. injection ST as <- ->. cbn [us_dead is_panic] in I. contradiction.
    - destruct (nth_error (us_sess s) sid) as [[p []]|]; try discriminate.
      destruct (try_recv_from _ _ _ _) as [st r]. injection ST as <- ->. cbn [us_dead is_panic] in I. contradiction.
    - destruct (nth_error (us_sess s) sid) as [[p []]|]; try discriminate.
      destruct (disconnect _ _) as [st r]. injection ST as <- ->. cbn [us_dead is_panic] in I. contradiction. }
  assert (QN : r <> UrClosed -> forall d p c, read_of ev = RdDatagram d p -> (56 <= length d)%nat ->
     conn_get (u_conn (us_udp s)) p = Some c -> length (uc_queue c) <> 4%nat).
  { intros RC d p c E LD G L. apply (overflow_read f h ev r RC NX d p E LD).
    pose proof (UE p) as X. unfold entry_ok in X. rewrite G in X. destruct X as (-> & _). exact L. }
  unfold udp_step in ST. rewrite D in ST. destruct ev as [rd o|sid rd|sid]; cbn [read_of] in *.
  - unfold try_accept in ST. destruct (try_recv max (us_udp s) rd) as [st1 r1] eqn:TR.
    destruct r1 as [[]|e|]; [| |injection ST as <- <-; congruence].
    2:{ injection ST as <- <-. constructor; cbn [us_sess us_udp]; auto.
        intros i p E. destruct (OT i p E) as (c & G & A).
        eapply read_keeps_accepted; eauto; try discriminate. intros. eapply QN; eauto; discriminate. }
    destruct (first_new (o (u_conn st1))) as [p|] eqn:FN.
    2:{ injection ST as <- <-. constructor; cbn [us_sess us_udp]; auto.
        intros i p E. destruct (OT i p E) as (c & G & A).
        eapply read_keeps_accepted; eauto; try discriminate. intros. eapply QN; eauto; discriminate. }
    destruct (first_new_some _ _ FN) as (c & IC & AC).
    assert (IC' : In (p, c) (u_conn st1)) by (eapply Permutation_in; [apply OK|exact IC]).
    destruct (read_step max f _ h rd st1 _ UN UM UE UR TR) as [(X & _)|(_ & ND & _)]; [discriminate|].
    apply in_get in IC'; [|exact ND]. rewrite IC' in ST. injection ST as <- <-.
    assert (KEEP : forall i q, nth_error (us_sess s) i = Some (q, false) ->
       exists c', conn_get (u_conn st1) q = Some c' /\ uc_accepted c' = true).
    { intros i q E. destruct (OT i q E) as (c0 & G & A).
      eapply read_keeps_accepted; eauto; try discriminate. intros. eapply QN; eauto; discriminate. }
    assert (FRESH : forall i, nth_error (us_sess s) i <> Some (p, false)).
    { intros i E. destruct (KEEP i p E) as (c' & G & A). congruence. }
    assert (SNOC : forall i q, nth_error (us_sess s ++ [(p, false)]) i = Some (q, false) ->
       nth_error (us_sess s) i = Some (q, false) \/ (i = length (us_sess s) /\ q = p)).
    { intros i q E. destruct (Nat.ltb i (length (us_sess s))) eqn:L.
      - apply Nat.ltb_lt in L. rewrite nth_error_app1 in E by exact L. auto.
      - apply Nat.ltb_ge in L. rewrite nth_error_app2 in E by exact L. right.
        destruct (i - length (us_sess s))%nat as [|[|k]] eqn:K; simpl in E; try discriminate.
        injection E as <-. split; [lia|reflexivity]. }
    constructor; cbn [us_sess us_udp u_conn].
    + intros i q E. destruct (SNOC i q E) as [E1|(-> & ->)].
      * destruct (KEEP i q E1) as (c' & G & A). destruct (sa_dec p q) as [->|N].
        -- rewrite get_set_same. eexists. split; [reflexivity|]. reflexivity.
        -- rewrite get_set_other by exact N. eauto.
      * rewrite get_set_same. eexists. split; [reflexivity|]. reflexivity.
    + intros i j q E1 E2. destruct (SNOC i q E1) as [F1|(-> & ->)]; destruct (SNOC j _ E2) as [F2|(-> & W)]; auto.
      * eapply OU; eauto.
      * subst. exfalso. exact (FRESH i F1).
      * exfalso. exact (FRESH j F2).
  - destruct (nth_error (us_sess s) sid) as [[p cl]|] eqn:NS; [|discriminate].
    destruct cl; [injection ST as <- <-; constructor; auto|].
    unfold try_recv_from in ST. destruct (try_recv max (us_udp s) rd) as [st1 r1] eqn:TR.
    assert (r1 <> Panic) as RP. { intros ->. injection ST as <- <-. congruence. }
    assert (r <> UrClosed) as RC.
    { intros ->. destruct r1 as [[]|e|]; try discriminate.
      destruct (conn_get (u_conn st1) p) as [[[|b q0] a]|]; try discriminate. destruct (u_nr st1 =? 0); discriminate. }
    assert (KEEP : forall i q, nth_error (us_sess s) i = Some (q, false) ->
       exists c', conn_get (u_conn st1) q = Some c' /\ uc_accepted c' = true).
    { intros i q E. destruct (OT i q E) as (c0 & G & A).
      eapply read_keeps_accepted; eauto. }
    destruct r1 as [[]|e|]; [| |congruence].
    2:{ injection ST as <- <-. constructor; cbn [us_sess us_udp]; auto. }
    destruct (conn_get (u_conn st1) p) as [[[|b q0] a]|] eqn:G;
      [injection ST as <- <-; constructor; auto| |injection ST as <- <-; constructor; auto].
    destruct (u_nr st1 =? 0); injection ST as <- <-; [congruence|].
    constructor; cbn [us_sess us_udp u_conn]; auto.
    intros i q E. destruct (KEEP i q E) as (c' & G' & A). destruct (sa_dec p q) as [->|N].
    + rewrite get_set_same. eexists. split; [reflexivity|]. rewrite G in G'. injection G' as <-. exact A.
    + rewrite get_set_other by exact N. eauto.
  - destruct (nth_error (us_sess s) sid) as [[p cl]|] eqn:NS; [|discriminate].
    destruct cl; [injection ST as <- <-; constructor; auto|].
    destruct (disconnect (us_udp s) p) as [st r0] eqn:DC. injection ST as <- ->.
    assert (u_conn st = conn_remove (u_conn (us_udp s)) p) as EC.
    { unfold disconnect in DC. destruct (_ <? _); [injection DC as <- <-; congruence|].
      destruct (conn_remove (u_conn (us_udp s)) p); [destruct (_ =? _)|]; injection DC as <- <-; reflexivity. }
    assert (BACK : forall i q, nth_error (set_closed (us_sess s) sid) i = Some (q, false) ->
       nth_error (us_sess s) i = Some (q, false) /\ i <> sid).
    { intros i q E. rewrite set_closed_nth in E. destruct (nth_error (us_sess s) i) as [[p1 c1]|]; [|discriminate].
      destruct (Nat.eqb i sid) eqn:EI; [discriminate|]. apply Nat.eqb_neq in EI. injection E as <- <-. auto. }
    constructor; cbn [us_sess us_udp].
    + intros i q E. destruct (BACK i q E) as (E1 & NI). destruct (OT i q E1) as (c & G & A).
      rewrite EC. destruct (sa_dec p q) as [->|N].
      * exfalso. apply NI. eapply OU; eauto.
      * rewrite get_remove_other by exact N. eauto.
    + intros i j q E1 E2. eapply OU; [apply BACK in E1; apply E1|apply BACK in E2; apply E2].
Qed.

(** In terms of the history: two accepts of a peer have a close of the first
    session between them. *)
Lemma closed_history : forall s h, hist s h -> us_dead s = false -> forall i p c,
  nth_error (us_sess s) i = Some (p, c) -> (c = true <-> closes h i).
Proof.
  induction 1 as [|s h ev s' r H IH OK ST]; intros D' i p c E; [destruct i; discriminate|].
  pose proof (alive max [] s h _ _ _ H ST) as D. specialize (IH D).
  assert (OTHER : forall j, (ev, r) <> (UeClose j, UrDone) -> closes (h ++ [(ev, r)]) j <-> closes h j).
  { intros j NE. unfold closes. rewrite in_app_iff. simpl. intuition. }
  unfold udp_step in ST. rewrite D in ST. destruct ev as [rd o|sid rd|sid].
  - rewrite OTHER by discriminate. destruct (try_accept max (us_udp s) rd o) as [st r0]. injection ST as <- ->.
    cbn [us_sess] in E.
    assert (OLD : nth_error (us_sess s) i = Some (p, c) -> (c = true <-> closes h i)) by (apply IH).
    destruct r; auto.
    destruct (Nat.ltb i (length (us_sess s))) eqn:L.
    + apply Nat.ltb_lt in L. rewrite nth_error_app1 in E by exact L. auto.
    + apply Nat.ltb_ge in L. rewrite nth_error_app2 in E by exact L.
      destruct (i - length (us_sess s))%nat as [|[|k]] eqn:K; simpl in E; try discriminate.
      injection E as <- <-. split; [discriminate|]. intro C. exfalso.
      (* a close of a session that does not exist is impossible *)
      clear - C H L. revert i L C. induction H as [|s h ev s' r H IH OK ST]; intros i L C; [contradiction|].
      unfold closes in C. rewrite in_app_iff in C. unfold udp_step in ST. destruct (us_dead s); [discriminate|].
      assert (GROW : (length (us_sess s) <= length (us_sess s'))%nat).
      { destruct ev as [rd o|sid rd|sid].
        - destruct (try_accept max (us_udp s) rd o) as [st r0]. injection ST as <- ->. cbn [us_sess].
          destruct r; rewrite ?app_length; lia.
        - destruct (nth_error (us_sess s) sid) as [[q []]|]; try discriminate; [injection ST as <- _; lia|].
          destruct (try_recv_from _ _ _ _). injection ST as <- _. simpl. lia.
        - destruct (nth_error (us_sess s) sid) as [[q []]|]; try discriminate; [injection ST as <- _; lia|].
          destruct (disconnect _ _). injection ST as <- _. simpl.
          rewrite <- (map_length fst (set_closed _ _)), set_closed_fst, map_length. lia. }
      destruct C as [C|[C|[]]].
      * apply (IH i); [lia|exact C].
      * injection C as -> ->. destruct (nth_error (us_sess s) i) as [[q b]|] eqn:NS; [|discriminate].
        assert (i < length (us_sess s))%nat by (apply nth_error_Some; congruence). lia.
  - rewrite OTHER by discriminate. destruct (nth_error (us_sess s) sid) as [[q []]|] eqn:NS; try discriminate.
    + injection ST as <- _. eauto.
    + destruct (try_recv_from _ _ _ _). injection ST as <- _. eauto.
  - destruct (nth_error (us_sess s) sid) as [[q []]|] eqn:NS; try discriminate.
    + injection ST as <- <-. rewrite OTHER by discriminate. eauto.
    + destruct (disconnect (us_udp s) q) as [st r0] eqn:DC. injection ST as <- ->. cbn [us_sess us_dead] in *.
      assert (r = UrDone) as ->.
      { unfold disconnect in DC. destruct (_ <? _); [injection DC as <- <-; discriminate|].
        destruct (conn_remove (u_conn (us_udp s)) q); [destruct (_ =? _)|]; injection DC as <- <-; auto; discriminate. }
      rewrite set_closed_nth in E. destruct (nth_error (us_sess s) i) as [[p1 c1]|] eqn:N1; [|discriminate].
      destruct (Nat.eqb i sid) eqn:EI.
      * apply Nat.eqb_eq in EI. subst i. injection E as <- <-. split; auto. intros _.
        unfold closes. apply in_or_app. right. left. reflexivity.
      * apply Nat.eqb_neq in EI. injection E as <- <-. rewrite OTHER by congruence. eauto.
Qed.

Lemma one_open : forall s h, hist s h -> no_overflow (session_peer [] h) h -> forall i j p,
  session_peer [] h i = Some p -> session_peer [] h j = Some p -> ~ closes h i -> ~ closes h j -> i = j.
Proof.
  intros s h H NO i j p SI SJ CI CJ.
  pose proof (no_panic max [] s h H NO) as D.
  pose proof (alive_inv max [] s h H D _ (self_extends [] h)) as I.
  assert (OPEN : forall k, session_peer [] h k = Some p -> ~ closes h k -> nth_error (us_sess s) k = Some (p, false)).
  { intros k SK CK. unfold session_peer in SK. rewrite <- (ui_sess _ _ _ _ _ I), nth_error_map in SK.
    destruct (nth_error (us_sess s) k) as [[q c]|] eqn:E; [|discriminate]. injection SK as ->.
    destruct c; [|reflexivity]. exfalso. apply CK. eapply (closed_history s h H D k p true E). reflexivity. }
  eapply (oi_uniq _ (one_session s h H _ (self_extends [] h) NO)); eauto.
Qed.

End OneSession.

Lemma closed_history_from : forall max peers s h, udp_history max peers s h -> us_dead s = false -> forall i p c,
  nth_error (us_sess s) i = Some (p, c) -> (c = true <-> closes h i).
Proof.
  intros max peers; induction 1 as [|s h ev s' r H IH OK ST]; intros D' i p c E; [|].
  { cbn [udp_start us_sess] in E. rewrite nth_error_map in E. destruct (nth_error peers i); [|discriminate].
    injection E as <- <-. split; [discriminate|intros []]. }
  pose proof (alive max peers s h _ _ _ H ST) as D. specialize (IH D).
  assert (OTHER : forall j, (ev, r) <> (UeClose j, UrDone) -> closes (h ++ [(ev, r)]) j <-> closes h j).
  { intros j NE. unfold closes. rewrite in_app_iff. simpl. intuition. }
  unfold udp_step in ST. rewrite D in ST. destruct ev as [rd o|sid rd|sid].
  - rewrite OTHER by discriminate. destruct (try_accept max (us_udp s) rd o) as [st r0]. injection ST as <- ->.
    cbn [us_sess] in E.
    assert (OLD : nth_error (us_sess s) i = Some (p, c) -> (c = true <-> closes h i)) by (apply IH).
    destruct r; auto.
    destruct (Nat.ltb i (length (us_sess s))) eqn:L.
    + apply Nat.ltb_lt in L. rewrite nth_error_app1 in E by exact L. auto.
    + apply Nat.ltb_ge in L. rewrite nth_error_app2 in E by exact L.
      destruct (i - length (us_sess s))%nat as [|[|k]] eqn:K; simpl in E; try discriminate.
      injection E as <- <-. split; [discriminate|]. intro C. exfalso.
      (* a close of a session that does not exist is impossible *)
      clear - C H L. revert i L C. induction H as [|s h ev s' r H IH OK ST]; intros i L C; [contradiction|].
      unfold closes in C. rewrite in_app_iff in C. unfold udp_step in ST. destruct (us_dead s); [discriminate|].
      assert (GROW : (length (us_sess s) <= length (us_sess s'))%nat).
      { destruct ev as [rd o|sid rd|sid].
        - destruct (try_accept max (us_udp s) rd o) as [st r0]. injection ST as <- ->. cbn [us_sess].
          destruct r; rewrite ?app_length; lia.
        - destruct (nth_error (us_sess s) sid) as [[q []]|]; try discriminate; [injection ST as <- _; lia|].
          destruct (try_recv_from _ _ _ _). injection ST as <- _. simpl. lia.
        - destruct (nth_error (us_sess s) sid) as [[q []]|]; try discriminate; [injection ST as <- _; lia|].
          destruct (disconnect _ _). injection ST as <- _. simpl.
          rewrite <- (map_length fst (set_closed _ _)), set_closed_fst, map_length. lia. }
      destruct C as [C|[C|[]]].
      * apply (IH i); [lia|exact C].
      * injection C as -> ->. destruct (nth_error (us_sess s) i) as [[q b]|] eqn:NS; [|discriminate].
        assert (i < length (us_sess s))%nat by (apply nth_error_Some; congruence). lia.
  - rewrite OTHER by discriminate. destruct (nth_error (us_sess s) sid) as [[q []]|] eqn:NS; try discriminate.
    + injection ST as <- _. eauto.
    + destruct (try_recv_from _ _ _ _). injection ST as <- _. eauto.
  - destruct (nth_error (us_sess s) sid) as [[q []]|] eqn:NS; try discriminate.
    + injection ST as <- <-. rewrite OTHER by discriminate. eauto.
    + destruct (disconnect (us_udp s) q) as [st r0] eqn:DC. injection ST as <- ->. cbn [us_sess us_dead] in *.
      assert (r = UrDone) as ->.
      { unfold disconnect in DC. destruct (_ <? _); [injection DC as <- <-; discriminate|].
        destruct (conn_remove (u_conn (us_udp s)) q); [destruct (_ =? _)|]; injection DC as <- <-; auto; discriminate. }
      rewrite set_closed_nth in E. destruct (nth_error (us_sess s) i) as [[p1 c1]|] eqn:N1; [|discriminate].
      destruct (Nat.eqb i sid) eqn:EI.
      * apply Nat.eqb_eq in EI. subst i. injection E as <- <-. split; auto. intros _.
        unfold closes. apply in_or_app. right. left. reflexivity.
      * apply Nat.eqb_neq in EI. injection E as <- <-. rewrite OTHER by congruence. eauto.
Qed.

Lemma closed_is_dead : forall max peers s h, udp_history max peers s h -> us_dead s = false ->
  forall sid ev, session_peer peers h sid <> None -> (ev = UeClose sid \/ exists rd, ev = UeRecv sid rd) ->
  exists s' r, udp_step max s ev = Some (s', r) /\ (r = UrClosed <-> closes h sid) /\ (closes h sid -> s' = s).
Proof.
  intros max peers s h H D sid ev SP EV.
  pose proof (alive_inv max peers s h H D _ (self_extends peers h)) as I.
  unfold session_peer in SP. rewrite <- (ui_sess _ _ _ _ _ I), nth_error_map in SP.
  destruct (nth_error (us_sess s) sid) as [[p c]|] eqn:NS; [|exfalso; apply SP; reflexivity].
  pose proof (closed_history_from max peers s h H D sid p c NS) as CH.
  destruct EV as [->|[rd ->]]; unfold udp_step; rewrite D, NS; destruct c.
  - do 2 eexists. split; [reflexivity|]. tauto.
  - destruct (disconnect (us_udp s) p) as [st r] eqn:DC. do 2 eexists. split; [reflexivity|].
    assert (r <> UrClosed) as NC.
    { unfold disconnect in DC. destruct (_ <? _); [injection DC as <- <-; discriminate|].
      destruct (conn_remove (u_conn (us_udp s)) p); [destruct (_ =? _)|]; injection DC as <- <-; discriminate. }
    assert (~ closes h sid) by (intro C; apply CH in C; discriminate). tauto.
  - do 2 eexists. split; [reflexivity|]. tauto.
  - destruct (try_recv_from max (us_udp s) rd p) as [st r] eqn:DC. do 2 eexists. split; [reflexivity|].
    assert (r <> UrClosed) as NC.
    { unfold try_recv_from in DC. destruct (try_recv _ _ _) as [st1 [|e|]];
        try (injection DC as <- <-; discriminate).
      destruct (conn_get _ _) as [[[|] ?]|]; try (injection DC as <- <-; discriminate).
      destruct (_ =? _); injection DC as <- <-; discriminate. }
    assert (~ closes h sid) by (intro C; apply CH in C; discriminate). tauto.
Qed.

(** Running a list of calls. *)
Fixpoint urun (max : N) (s : udp_sys) (evs : list udp_event) : option (udp_sys * uhist) :=
  match evs with
  | [] => Some (s, [])
  | ev :: r =>
      match udp_step max s ev with
      | None => None
      | Some (s1, x) =>
          match urun max s1 r with
          | None => None
          | Some (s2, h) => Some (s2, (ev, x) :: h)
          end
      end
  end.

Lemma urun_sound : forall max peers evs s0 h0 s h, udp_history max peers s0 h0 ->
  Forall uevent_ok evs -> urun max s0 evs = Some (s, h) -> udp_history max peers s (h0 ++ h).
Proof.
  induction evs as [|ev evs IH]; intros s0 h0 s h H F E; simpl in E.
  - injection E as <- <-. rewrite app_nil_r. exact H.
  - inversion F as [|? ? F1 F2]; subst. destruct (udp_step max s0 ev) as [[s1 x]|] eqn:ST; [|discriminate].
    destruct (urun max s1 evs) as [[s2 h2]|] eqn:R; [|discriminate]. injection E as <- <-.
    replace (h0 ++ (ev, x) :: h2) with ((h0 ++ [(ev, x)]) ++ h2) by (rewrite <- app_assoc; reflexivity).
    eapply IH; eauto. econstructor; eauto.
Qed.
