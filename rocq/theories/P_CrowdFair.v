(** Fair executions reach the end of a knock over UDP. *)

From Coq Require Import String ZArith NArith List Bool Permutation Lia ZifyBool ZifyNat ZifyN.
From Verif Require Import M_Base M_Proto M_IpAddr M_FwProto M_ConfTypes M_Server M_Client M_Firewall M_Udp M_Accept
  S_Wire S_Session S_Client S_Pair S_Firewall S_E2e S_Bytes S_Accept S_Dgram S_Crowd S_Rush S_Fair S_CrowdFair
  P_Base P_Udp P_Pair P_Both P_Bytes P_Dgram P_Accept P_Busy P_Crowd P_Fair.
Import ListNotations.
Local Open Scope nat_scope.

(** *** Bounded work with several waits *)

Section Bounded.
Context {S : Type} (step : nat -> S -> S -> Prop) (hist_of : S -> hist) (at_ : nat -> S) (own : nat -> nat).
Context (FAIR : knock_fair step hist_of at_ own).

Definition can_go (s : S) : Prop := exists s', step 1 s s' /\ clock_monotone (hist_of s').

(** If the knock takes at most [B] steps, whenever it can not go on it is over or
    waits, and after every wait it can go on until it does, then it is over some time. *)
Lemma fair_end_waits : forall B (fin wait rdy : S -> Prop),
  (forall k, done own k <= B) ->
  (forall k, fin (at_ k) \/ can_go (at_ k) \/ wait (at_ k)) ->
  (forall t, wait (at_ t) -> exists k, t <= k /\ (own k = 1 \/ rdy (at_ k))) ->
  (forall k, rdy (at_ k) -> own k = 1 \/ rdy (at_ (k + 1))) ->
  (forall k, rdy (at_ k) -> can_go (at_ k)) ->
  exists k, fin (at_ k).
Proof.
  intros B fin wait rdy BD PR WT RD RG.
  assert (G : forall b t, B + 1 <= done own t + b -> exists k, fin (at_ k)).
  { induction b as [|b IH]; intros t E; [specialize (BD t); lia|].
    assert (ON : forall k, t <= k -> own k = 1 -> exists k, fin (at_ k)).
    { intros k L O. apply (IH (Datatypes.S k)). pose proof (done_le own t k L) as M. cbn. lia. }
    destruct (FAIR t) as (k & L & [O|N]); [exact (ON k L O)|].
    destruct (PR k) as [F|[P|W]]; [eauto|contradiction|].
    destruct (WT k W) as (k1 & L1 & [O|R]); [apply (ON k1); [lia|exact O]|].
    destruct (FAIR k1) as (k2 & L2 & X).
    assert (WALK : forall d, (exists k, fin (at_ k)) \/ rdy (at_ (k1 + d))).
    { induction d as [|d IHd]; [rewrite Nat.add_0_r; auto|]. destruct IHd as [F|R']; [auto|].
      destruct (RD _ R') as [O|R2]; [left; apply (ON (k1 + d)); [lia|exact O]|]. right.
      replace (k1 + Datatypes.S d) with (k1 + d + 1) by lia. exact R2. }
    destruct (WALK (k2 - k1)) as [F|R2]; [exact F|]. replace (k1 + (k2 - k1)) with k2 in R2 by lia.
    destruct X as [O|N2]; [apply (ON k2); [lia|exact O]|]. exfalso. exact (N2 (RG k2 R2)). }
  apply (G (B + 1) 0). lia.
Qed.
End Bounded.

(** *** A helpful kind of step *)

Lemma walk : forall (J : nat -> Prop) (goal : Prop), (forall k, J k -> goal \/ J (k + 1)) ->
  forall t k, t <= k -> J t -> goal \/ J k.
Proof.
  intros J goal ST t k L JT. assert (W : forall d, goal \/ J (t + d)).
  { induction d as [|d [G|JD]]; [rewrite Nat.add_0_r; auto|auto|]. replace (t + S d) with (t + d + 1) by lia. apply ST. exact JD. }
  specialize (W (k - t)). replace (t + (k - t)) with k in W by lia. exact W.
Qed.

Lemma progress : forall (J : nat -> Prop) (goal : Prop) (mu : nat -> nat) (tk : nat -> Prop),
  (forall k, J k -> goal \/ (J (k + 1) /\ mu (k + 1) <= mu k)) ->
  (forall k, J k -> tk k -> goal \/ mu (k + 1) < mu k) ->
  (forall t, J t -> goal \/ exists k, t <= k /\ tk k) ->
  forall t, J t -> goal.
Proof.
  intros J goal mu tk ST TK TAKES.
  assert (G : forall m t, J t -> mu t < m -> goal).
  { induction m as [|m IH]; intros t JT LT; [lia|].
    destruct (TAKES t JT) as [G|(k & L & X)]; [exact G|].
    destruct (walk (fun j => J j /\ mu j <= mu t) goal) with (t := t) (k := k) as [G|(JK & MK)]; [|exact L|auto|exact G|].
    - intros j (JJ & MJ). destruct (ST j JJ) as [G|(J1 & M1)]; [auto|]. right. split; [exact J1|lia].
    - destruct (TK k JK X) as [G|LT2]; [exact G|]. destruct (ST k JK) as [G|(J1 & _)]; [exact G|]. apply (IH (k + 1) J1). lia. }
  intros t JT. exact (G _ t JT (Nat.lt_succ_diag_r _)).
Qed.

(** *** The acceptor *)

Section Acceptor.
Variable ht : bool.
Variable num : N.
Hypothesis NUM : (1 <= num)%N.

Lemma join_step : forall s ev s' r, clean ht num s -> astep ht true s ev = Some s' -> no_failure ev -> ac_udp s = JnDone r ->
  ac_udp s' = JnDone r \/ (exists a, r = Ok a /\ ac_udp s' = JnWait /\ ac_pc s' = HpAcquire (Conn false a)).
Proof.
  intros [b t u pc pm st lv ch ex] ev s' r CL ST NF E. destruct CL as [CE _ CC _ CU _ _]. cbn in CE, CC, CU, E. subst ex ch u.
  destruct (CU r eq_refl) as (a & ->). unfold astep in ST. cbn in ST.
  destruct ev as [x|e|r|tcp ok| |x| | | |]; cbn in *; try contradiction; try discriminate.
  - destruct ht; [|discriminate]. injection ST as <-. auto.
  - destruct ht, t, e, b; try discriminate; try contradiction; injection ST as <-; auto.
  - destruct pc; try discriminate. destruct tcp.
    + destruct t as [|[y|e|]]; try discriminate; destruct ok; try contradiction; cbn in ST; injection ST as <-; auto.
    + cbn in ST. injection ST as <-. cbn. right. eauto.
  - destruct pc; try discriminate; [destruct (pm =? 0)%N; [discriminate|]| |]; injection ST as <-; auto.
  - destruct (existsb (N.eqb x) lv); [|discriminate]. injection ST as <-. auto.
  - injection ST as <-. auto.
Qed.

Lemma hand_step : forall s ev s' x, clean ht num s -> astep ht true s ev = Some s' -> no_failure ev ->
  (ac_pc s = HpAcquire x -> ac_pc s' = HpAcquire x \/ ac_pc s' = HpHold x)
  /\ (ac_pc s = HpHold x -> ac_pc s' = HpHold x \/ ev = AeTask).
Proof.
  intros [b t u pc pm st lv ch ex] ev s' y CL ST NF. destruct CL as [CE _ CC _ _ _ _]. cbn in CE, CC. subst ex ch.
  unfold astep in ST. cbn in ST.
  destruct ev as [x|e|r|tcp ok| |x| | | |]; cbn in *; try contradiction; try discriminate; auto.
  - destruct ht; [|discriminate]. injection ST as <-. auto.
  - destruct ht, t, e, b; try discriminate; try contradiction; injection ST as <-; auto.
  - destruct u, r; try discriminate; try contradiction; injection ST as <-; auto.
  - destruct pc; try discriminate. split; discriminate.
  - split; [|auto]. intros ->. destruct (pm =? 0)%N; [discriminate|]. injection ST as <-. auto.
  - destruct (existsb (N.eqb x) lv); [|discriminate]. injection ST as <-. auto.
  - injection ST as <-. auto.
Qed.

Lemma todo_le : forall s ev s', clean ht num s -> astep ht true s ev = Some s' -> no_failure ev -> todo s <> 0 -> todo s' <= todo s.
Proof.
  intros [b t u pc pm st lv ch ex] ev s' CL ST NF T. destruct CL as [CE CP CC CT CU CM CB]. cbn in CE, CC. subst ex ch.
  unfold astep in ST. unfold todo in *. cbn in *.
  destruct ev as [a|e|r|tcp ok| |x| | | |]; cbn in *; try contradiction; try discriminate.
  - destruct ht; [|discriminate]. injection ST as <-. cbn. lia.
  - destruct ht, t, e, b; try discriminate; try contradiction; injection ST as <-; cbn; lia.
  - destruct u, r; try discriminate; try contradiction; injection ST as <-; cbn; lia.
  - destruct pc; try discriminate. contradiction.
  - destruct pc; try discriminate; [destruct (pm =? 0)%N; [discriminate|]| |]; injection ST as <-; cbn; lia.
  - destruct (existsb (N.eqb x) lv); [|discriminate]. injection ST as <-. cbn. lia.
  - injection ST as <-. cbn. lia.
Qed.

Lemma todo_task : forall s s', clean ht num s -> astep ht true s AeTask = Some s' -> todo s' < todo s.
Proof.
  intros [b t u pc pm st lv ch ex] s' CL ST. destruct CL as [CE CP CC CT CU CM CB]. cbn in CE, CC. subst ex ch.
  unfold astep in ST. unfold todo in *. cbn in *.
  destruct pc; try discriminate; [destruct (pm =? 0)%N; [discriminate|]| |]; injection ST as <-; cbn; lia.
Qed.

Lemma task_possible : forall s, clean ht num s -> todo s <> 0 -> exists s', astep ht true s AeTask = Some s'.
Proof.
  intros [b t u pc pm st lv ch ex] CL T. destruct CL as [CE CP CC CT CU CM CB]. cbn in *. subst ex ch. unfold todo, astep in *. cbn in *.
  destruct pc; try lia; try contradiction; [|eauto..]. destruct (N.eqb_spec pm 0); [lia|eauto].
Qed.

Lemma select_possible : forall s r, clean ht num s -> ac_udp s = JnDone r -> todo s = 0 ->
  exists s', astep ht true s (AeSelect false true) = Some s'.
Proof.
  intros [b t u pc pm st lv ch ex] r CL E T. destruct CL as [CE CP CC CT CU CM CB]. cbn in *. subst ex ch u. destruct (CU r eq_refl) as (a & ->).
  unfold todo, astep in *. cbn in *. destruct pc; try lia; try contradiction. cbn. eauto.
Qed.

Lemma select_takes : forall s s', clean ht num s -> astep ht true s (AeSelect false true) = Some s' -> ac_udp s' = JnWait.
Proof.
  intros [b t u pc pm st lv ch ex] s' CL ST. destruct CL as [CE CP CC CT CU CM CB]. cbn in *. subst ex ch. unfold astep in ST. cbn in ST.
  destruct pc; try discriminate. destruct u as [|r]; [discriminate|]. destruct (CU r eq_refl) as (a & ->). cbn in ST. injection ST as <-. reflexivity.
Qed.
End Acceptor.

(** *** Steps that are not the knock's *)

Section System.
Variable mac : list byte -> list byte -> list byte.
Variable sc conf : config.
Variable c : chain_name.
Variable has_tcp : bool.
Variable num : N.
Variable here : sockaddr.
Hypothesis NUM : (1 <= num)%N.

Notation step := (crowd_step mac sc conf c has_tcp num here any_order).
Notation cs := (csim mac sc has_tcp num here).
Notation pend := pending.

(** The client's datagrams that letmeind has read. *)
Definition queued (u : udp_sys) : list (list N) :=
  match conn_get (u_conn (us_udp u)) here with Some x => uc_queue x | None => [] end.

Lemma shape : forall a s s', step a s s' -> a <> Knock ->
  (cw_up s' = cw_up s
   /\ (cw_buf s' = cw_buf s \/ (exists x, cw_buf s = x :: cw_buf s') \/ exists b p, p <> here /\ cw_buf s' = cw_buf s ++ [(b, p)]))
  \/ exists x b y, cw_up s = x ++ b :: y /\ cw_up s' = x ++ y /\ cw_buf s' = cw_buf s ++ [(b, here)] /\ cw_udp s' = cw_udp s.
Proof.
  intros a s s' ST NK.
  inversion ST; subst; cbn; try contradiction;
    try (left; split; [reflexivity|]; match goal with R : reads _ _ _ |- _ => inversion R; subst; eauto end; fail);
    try (left; split; [reflexivity|]; left; reflexivity).
  - right. do 3 eexists. repeat split; reflexivity.
  - left. split; [reflexivity|]. right. right. match goal with R : room _ _ _ _ _ _ |- _ => destruct R as (NH & _) end. eauto.
Qed.

Lemma acc_shape : forall a s s', step a s s' -> a <> Knock ->
  (cw_acc s' = cw_acc s /\ cw_session s' = cw_session s)
  \/ exists ev, astep has_tcp true (cw_acc s) ev = Some (cw_acc s') /\ no_failure ev
       /\ cw_session s' = new_udp_session mac sc here (cw_acc s) ev (cw_session s).
Proof.
  intros a s s' ST NK. inversion ST; subst; cbn; try contradiction; try (left; split; reflexivity).
  - destruct (returned r); [contradiction|]. left. split; reflexivity.
  - destruct r; match goal with P : passed _ _ _ _ |- _ => cbn in P end; subst; try (left; split; reflexivity).
    right. eexists. split; [eassumption|]. split; [exact Logic.I|]. unfold new_udp_session. destruct (ac_pc acc) as [| |[[|] ?]| |]; reflexivity.
  - right. eexists. split; [eassumption|]. split; [apply own_no_failure; assumption|reflexivity].
  - right. eexists. split; [eassumption|]. destruct ev; match goal with H : others_connection _ _ |- _ => cbn in H; try contradiction end;
      (split; [exact Logic.I|]); unfold new_udp_session; destruct (ac_pc acc) as [| |[[|] ?]| |]; reflexivity.
Qed.

(** Nothing of the knock itself changes. *)
Lemma zero_pair : forall f f' n, full_steps conf c n f f' -> n = 0 -> fu_pair f' = fu_pair f.
Proof.
  intros f f' n R. induction R as [f|n i f f1 f2 R IH ST]; intros E; [reflexivity|].
  assert (i = 0) by lia. assert (n = 0) by lia. rewrite <- IH by assumption. subst i. inversion ST; reflexivity.
Qed.

(** The session, or letmeind for it, waits for a datagram of the client that is on its way. *)
Definition awaits (s : crowd) : Prop :=
  exists f k, cs s f /\ narrow (fu_pair f) /\ pr_server (fu_pair f) = SRecv k /\ pr_up (fu_pair f) <> [].

Lemma awaits_step : forall a s s', step a s s' -> a <> Knock -> awaits s -> awaits s'.
Proof.
  intros a s s' ST NK (f & k & S & NA & ES & EU).
  pose proof (csim_step mac sc conf c has_tcp num here any_order NUM (fun o X => X) a s s' ST f S NA) as X.
  destruct a; [contradiction| |].
  - exists f, k. auto.
  - destruct X as (f' & R & S'). pose proof (zero_pair _ _ _ R eq_refl) as E. exists f', k. rewrite E. auto.
Qed.

(** One datagram, in one of three places. *)
Lemma one_place : forall s, awaits s ->
  crowd_ok has_tcp num here (cw_acc s) (cw_udp s) (cw_buf s) (cw_session s)
  /\ (exists k, prog mac sc here (cw_session s) = SRecv k)
  /\ length (queued (cw_udp s)) + length (filter (fun x => sa_eqb (snd x) here) (cw_buf s)) + length (cw_up s) = 1.
Proof.
  intros s (f & k & S & (NL & _) & ES & EU). inversion S as [acc u buf cl se up dn d h rq rp op BU K ZU E1 E2]. subst s f. cbn in *.
  split; [exact K|]. split; [eauto|]. unfold queued. unfold pending in NL, EU. rewrite !app_length, map_length in NL.
  assert (NZ : length ((match conn_get (u_conn (us_udp u)) here with Some x => uc_queue x | None => [] end ++
       map (fun x => firstn MSG_SIZE (fst x)) (filter (fun x => sa_eqb (snd x) here) buf)) ++ up) <> 0)
    by (intros E; apply length_zero_iff_nil in E; contradiction).
  rewrite !app_length, map_length in NZ. lia.
Qed.

Notation hq := (fun s => queued (cw_udp s)).

Lemma in_filter : forall (buf : list (list N * sockaddr)), length (filter (fun x => sa_eqb (snd x) here) buf) <> 0 -> In here (map snd buf).
Proof.
  induction buf as [|[b p] buf IH]; cbn; [lia|]. destruct (sa_eqb p here) eqn:E; [apply sa_eqb_spec in E; auto|auto].
Qed.
Lemma filter_in : forall (buf : list (list N * sockaddr)), In here (map snd buf) -> length (filter (fun x => sa_eqb (snd x) here) buf) <> 0.
Proof.
  induction buf as [|[b p] buf IH]; cbn; [auto|]. intros [->|I]; [rewrite sa_eqb_refl; cbn; lia|]. destruct (sa_eqb p here); [cbn; lia|auto].
Qed.

Lemma queued_stays : forall a s s', step a s s' -> a <> Knock -> awaits s -> queued (cw_udp s) <> [] -> queued (cw_udp s') <> [].
Proof.
  intros a s s' ST NK AW Q. pose proof (one_place s AW) as (_ & _ & L). pose proof (one_place s' (awaits_step a s s' ST NK AW)) as (_ & _ & L').
  assert (length (queued (cw_udp s)) <> 0) by (intros E; apply length_zero_iff_nil in E; contradiction).
  intros E. rewrite E in L'. cbn in L'.
  destruct (shape a s s' ST NK) as [(EU & B)|(x & b & y & EU & _)].
  - rewrite EU in L'. destruct B as [B|[((xb & xp) & B)|(b & p & NP & B)]]; rewrite B in *; cbn in L, L'.
    + lia.
    + destruct (sa_eqb xp here); cbn in L; lia.
    + rewrite filter_app in L'. cbn in L'. rewrite sa_eqb_neq in L' by exact NP. rewrite app_nil_r in L'. lia.
  - rewrite EU, app_length in L. cbn in L. lia.
Qed.

Definition place (s : crowd) : nat := pos here (map snd (cw_buf s)).

Lemma buf_step : forall a s s', step a s s' -> a <> Knock -> awaits s -> In here (map snd (cw_buf s)) ->
  queued (cw_udp s') <> []
  \/ (In here (map snd (cw_buf s')) /\ place s' <= place s /\ (reads_socket s s' -> place s' < place s)).
Proof.
  intros a s s' ST NK AW I. pose proof (one_place s AW) as (_ & _ & L). pose proof (one_place s' (awaits_step a s s' ST NK AW)) as (_ & _ & L').
  pose proof (filter_in _ I) as F. unfold place, reads_socket.
  destruct (shape a s s' ST NK) as [(EU & B)|(x & b & y & EU & _)].
  - destruct B as [B|[((xb & xp) & B)|(b & p & NP & B)]].
    + right. rewrite B. split; [exact I|]. split; [lia|]. intros (x & X). exfalso. apply (f_equal (@length _)) in X. cbn in X. lia.
    + rewrite B in I, L, F. cbn in I, L, F. destruct (sa_eqb xp here) eqn:E.
      * left. cbn in L. rewrite EU in L'. intros Q. rewrite Q in L'. cbn in L'. lia.
      * right. destruct I as [->|I]; [rewrite sa_eqb_refl in E; discriminate|]. split; [exact I|]. rewrite B. cbn. rewrite E. lia.
    + right. rewrite B, map_app. split; [apply in_or_app; auto|]. rewrite pos_app by exact I. split; [lia|].
      intros (x & X). exfalso. apply (f_equal (@length _)) in X. cbn in X. rewrite app_length in X. cbn in X. lia.
  - exfalso. rewrite EU, app_length in L. cbn in L. lia.
Qed.

(** *** What is possible *)

Lemma accept_possible : forall s rd buf' order, awaits s -> ac_udp (cw_acc s) = JnWait -> reads (cw_buf s) rd buf' -> any_order order ->
  exists u' r s', udp_step num (cw_udp s) (UeAccept rd order) = Some (u', r) /\ step Letmeind s s' /\ cw_udp s' = u' /\ cw_buf s' = buf'.
Proof.
  intros s rd buf' order AW JW RD AO. pose proof (one_place s AW) as (K & _). destruct s as [acc u buf cl se up dn d h rq rp]. cbn in *.
  assert (ST : exists u' r, udp_step num u (UeAccept rd order) = Some (u', r)).
  { unfold udp_step. rewrite (do_dead _ _ _ _ (ck_disp _ _ _ _ _ _ _ K)). destruct (try_accept num (us_udp u) rd order) as [v r]; eauto. }
  destruct ST as (u' & r & ST).
  assert (PA : exists acc', passed has_tcp acc r acc').
  { destruct r; try (exists acc; reflexivity). cbn. unfold astep. rewrite (cl_exit _ _ _ (ck_clean _ _ _ _ _ _ _ K)), JW. eauto. }
  destruct PA as (acc' & PA). exists u', r, (Crowd acc' u' buf' cl se up dn d h rq rp). split; [exact ST|]. split; [|auto].
  eapply cs_pass; eassumption.
Qed.

(** An order that finds the client first. *)
Definition here_first (l : list (sockaddr * uconn)) : list (sockaddr * uconn) :=
  filter (fun x => sa_eqb (fst x) here) l ++ filter (fun x => negb (sa_eqb (fst x) here)) l.

Lemma here_first_order : any_order here_first.
Proof.
  intros l. unfold here_first. induction l as [|[p x] l IH]; cbn; [constructor|].
  destruct (sa_eqb p here); cbn; [constructor; exact IH|]. etransitivity; [symmetry; apply Permutation_middle|]. constructor. exact IH.
Qed.

Lemma here_found : forall m x, conn_get m here = Some x -> uc_accepted x = false -> NoDup (keys m) -> first_new (here_first m) = Some here.
Proof.
  intros m x G A ND. assert (I : In (here, x) (filter (fun x => sa_eqb (fst x) here) m)).
  { apply filter_In. split; [apply get_in; exact G|apply sa_eqb_refl]. }
  assert (P : forall y, In y (filter (fun x => sa_eqb (fst x) here) m) -> y = (here, x)).
  { intros [p y] J. apply filter_In in J. destruct J as (J & E). apply sa_eqb_spec in E. cbn in E. subst p.
    pose proof (in_get _ _ _ ND J) as G2. congruence. }
  unfold here_first. destruct (filter (fun x => sa_eqb (fst x) here) m) as [|y r]; [destruct I|].
  rewrite (P y (or_introl eq_refl)). cbn. rewrite A. reflexivity.
Qed.

Lemma pick_possible : forall s, awaits s -> ac_udp (cw_acc s) = JnWait -> queued (cw_udp s) <> [] -> ~ In here (map fst (us_sess (cw_udp s))) ->
  exists s', step Letmeind s s' /\ picks_client here s s'.
Proof.
  intros s AW JW Q NI. pose proof (one_place s AW) as (K & _). pose proof (ck_disp _ _ _ _ _ _ _ K) as D.
  destruct (accept_possible s RdWouldBlock (cw_buf s) here_first AW JW (rd_none _) here_first_order) as (u' & r & s' & ST & SS & EU & EB).
  exists s'. split; [exact SS|]. unfold picks_client. rewrite EU.
  unfold queued in Q. destruct (conn_get (u_conn (us_udp (cw_udp s))) here) as [x|] eqn:G; [|contradiction].
  assert (A : uc_accepted x = false).
  { destruct (uc_accepted x) eqn:A; [|reflexivity]. destruct (do_acc _ _ _ _ D here x G A) as (j & O).
    exfalso. apply NI. apply fst_nth in O. eapply nth_error_In. exact O. }
  unfold udp_step in ST. rewrite (do_dead _ _ _ _ D) in ST. unfold try_accept in ST. cbn [try_recv] in ST.
  rewrite (here_found _ x G A (do_nodup _ _ _ _ D)), G in ST. injection ST as <- <-. reflexivity.
Qed.

(** The session has a datagram to receive. *)
Definition ready (s : crowd) : Prop := awaits s /\ cw_session s <> None /\ queued (cw_udp s) <> [].

Lemma ready_go : forall s, ready s -> exists s', step Knock s s' /\ cw_hist s' = cw_hist s.
Proof.
  intros s (AW & SE & Q). pose proof (one_place s AW) as (K & (k & EP) & _). destruct s as [acc u buf cl se up dn d h rq rp]. cbn in *.
  destruct se as [[[n j] p]|]; [|contradiction]. cbn in EP. subst p.
  destruct (session_ok _ _ _ _ _ _ _ _ _ (SRecv k) K ltac:(discriminate)) as (_ & O).
  pose proof (ck_disp _ _ _ _ _ _ _ K) as D. destruct (do_open _ _ _ _ D j here O) as (x & G & A).
  unfold queued in Q. rewrite G in Q. destruct x as [[|b q] a]; [contradiction|].
  assert (ST : exists u', udp_step num u (UeRecv j RdWouldBlock) = Some (u', UrDatagram b)).
  { unfold udp_step, try_recv_from. rewrite (do_dead _ _ _ _ D), O. cbn [try_recv]. rewrite G.
    pose proof (do_nr _ _ _ _ D) as NR. pose proof (qlen_total (u_conn (us_udp u)) here) as QT. unfold qlen in QT. rewrite G in QT. cbn [uc_queue length] in QT.
    destruct (N.eqb_spec (u_nr (us_udp u)) 0); [lia|]. eauto. }
  destruct ST as (u' & ST). eexists. split.
  - exact (cs_srecv mac sc conf c has_tcp num here any_order acc u buf cl n j k up dn d h rq rp _ _ u' _ (rd_none buf) ST).
  - reflexivity.
Qed.

Lemma ready_stays : forall a s s', step a s s' -> a <> Knock -> ready s -> ready s'.
Proof.
  intros a s s' ST NK (AW & SE & Q). split; [eapply awaits_step; eassumption|]. split; [|eapply queued_stays; eassumption].
  destruct (acc_shape a s s' ST NK) as [(_ & ->)|(ev & _ & _ & ->)]; [exact SE|]. unfold new_udp_session.
  destruct (ac_pc (cw_acc s)) as [| |[[|] a']| |], ev; try exact SE. destruct (sa_eqb a' here); [discriminate|exact SE].
Qed.

(** *** Eventually the session has its datagram *)

Section Eventually.
Variable at_ : nat -> crowd.
Variable own : nat -> nat.
Notation one := (crowd_one mac sc conf c has_tcp num here).
Hypothesis NEXT : forall k, one (own k) (at_ k) (at_ (k + 1)) \/ (own k = 0 /\ at_ (k + 1) = at_ k).
Hypothesis FAIR : serves_fairly has_tcp here one at_.
Variable t0 : nat.

Definition goal : Prop := exists k, t0 <= k /\ (own k = 1 \/ ready (at_ k)).

Lemma next : forall k, t0 <= k -> goal \/ at_ (k + 1) = at_ k \/ exists a, a <> Knock /\ step a (at_ k) (at_ (k + 1)).
Proof.
  intros k L. destruct (NEXT k) as [(a & ST & O)|(_ & E)]; [|auto].
  destruct a; [left; exists k; auto|right; right; exists Letmeind; split; [discriminate|exact ST]|right; right; exists Others; split; [discriminate|exact ST]].
Qed.

Definition I (k : nat) : Prop := t0 <= k /\ awaits (at_ k).

Lemma i_clean : forall k, I k -> clean has_tcp num (cw_acc (at_ k)).
Proof. intros k (_ & AW). apply (ck_clean _ _ _ _ _ _ _ (proj1 (one_place _ AW))). Qed.

Lemma i_next : forall k, I k -> goal \/ I (k + 1).
Proof.
  intros k (L & AW). destruct (next k L) as [G|[E|(a & NK & ST)]]; [auto| |].
  - right. split; [lia|]. rewrite E. exact AW.
  - right. split; [lia|]. eapply awaits_step; eassumption.
Qed.

Lemma enabled_by : forall (P : kind) k a s', step a (at_ k) s' -> P (at_ k) s' -> enabled one at_ P k.
Proof. intros P k a s' ST H. eexists _, s'. split; [exists a; split; [exact ST|reflexivity]|exact H]. Qed.

Lemma task_enabled : forall k ev s1 (P : kind), own_step ev -> astep has_tcp true (cw_acc (at_ k)) ev = Some s1 ->
  (forall s', cw_acc s' = s1 -> P (at_ k) s') -> enabled one at_ P k.
Proof.
  intros k ev s1 P OW ST H. destruct (at_ k) as [acc u buf cl se up dn d h rq rp] eqn:E.
  apply (enabled_by P k Letmeind (Crowd s1 u buf cl (new_udp_session mac sc here acc ev se) up dn d h rq rp)); rewrite E.
  - eapply cs_task; eassumption.
  - apply H. reflexivity.
Qed.

Lemma acc_next : forall k, I k ->
  goal \/ (I (k + 1) /\ (cw_acc (at_ (k + 1)) = cw_acc (at_ k) /\ cw_session (at_ (k + 1)) = cw_session (at_ k)
     \/ exists ev, astep has_tcp true (cw_acc (at_ k)) ev = Some (cw_acc (at_ (k + 1))) /\ no_failure ev
          /\ cw_session (at_ (k + 1)) = new_udp_session mac sc here (cw_acc (at_ k)) ev (cw_session (at_ k)))).
Proof.
  intros k IK. destruct (i_next k IK) as [G|I1]; [auto|]. destruct (next k (proj1 IK)) as [G|[E|(a & NK & ST)]]; [auto| |].
  - right. split; [exact I1|]. left. rewrite E. auto.
  - right. split; [exact I1|]. eapply acc_shape; eassumption.
Qed.

(** A finished UDP handle is taken by the select. *)
Lemma selected : forall a t, I t -> ac_udp (cw_acc (at_ t)) = JnDone (Ok a) ->
  goal \/ exists j, t <= j /\ I j /\ ac_udp (cw_acc (at_ j)) = JnWait /\ ac_pc (cw_acc (at_ j)) = HpAcquire (Conn false a).
Proof.
  intros a t IT ET.
  set (goal2 := goal \/ exists j, t <= j /\ I j /\ ac_udp (cw_acc (at_ j)) = JnWait /\ ac_pc (cw_acc (at_ j)) = HpAcquire (Conn false a)).
  set (J := fun k => t <= k /\ I k /\ ac_udp (cw_acc (at_ k)) = JnDone (Ok a)).
  assert (ST : forall k, J k -> goal2 \/ J (k + 1)).
  { intros k (L & IK & E). destruct (acc_next k IK) as [G|(I1 & [(EA & _)|(ev & AS & NF & _)])]; [left; left; exact G| |].
    - right. split; [lia|]. split; [exact I1|congruence].
    - destruct (join_step has_tcp num _ _ _ _ (i_clean k IK) AS NF E) as [E1|(a' & EO & E1 & E2)].
      + right. split; [lia|]. split; [exact I1|exact E1].
      + injection EO as <-. left. right. exists (k + 1). split; [lia|]. auto. }
  assert (JT : J t) by (split; [lia|]; auto).
  change goal2. apply (progress J goal2 (fun _ => 0) (taken at_ (selects_udp has_tcp))) with (t := t); [| | |exact JT].
  - intros k JK. destruct (ST k JK); auto.
  - intros k JK TK. left. destruct (ST k JK) as [G|(_ & _ & E1)]; [exact G|]. exfalso.
    pose proof (select_takes has_tcp num _ _ (i_clean k (proj1 (proj2 JK))) TK) as E2. congruence.
  - intros k JK. destruct (sf_select _ _ _ _ FAIR k) as [X|(t1 & L1 & NEVER)]; [auto|]. left.
    destruct (walk J goal2 ST k t1 L1 JK) as [G|J1]; [exact G|].
    assert (TODO : forall k, t1 <= k -> J k -> todo (cw_acc (at_ k)) <> 0).
    { intros j LJ (_ & IJ & EJ) T. destruct (select_possible has_tcp num NUM _ _ (i_clean j IJ) EJ T) as (s1 & S1).
      apply (NEVER j LJ). eapply task_enabled; [|exact S1|]; [exact Logic.I|]. intros s' <-. exact S1. }
    apply (progress (fun j => t1 <= j /\ J j) goal2 (fun j => todo (cw_acc (at_ j))) (taken at_ (handles has_tcp))) with (t := t1);
      [| | |auto].
    + intros j (LJ & JJ). destruct (ST j JJ) as [G|JJ1]; [auto|]. pose proof JJ as (_ & IJ & EJ).
      destruct (acc_next j IJ) as [G|(I1 & D)]; [left; left; exact G|]. right. split; [split; [lia|exact JJ1]|].
      destruct D as [(EA & _)|(ev & AS & NF & _)]; [rewrite EA; lia|].
      eapply (todo_le has_tcp num NUM); [apply i_clean; exact IJ|exact AS|exact NF|apply TODO; assumption].
    + intros j (LJ & _ & IJ & _) TK. right. eapply (todo_task has_tcp num NUM); [apply i_clean; exact IJ|exact TK].
    + intros j (LJ & JJ). destruct (walk J goal2 ST) with (t := j) (k := j) as [G|_]; [lia|exact JJ|auto|].
      assert (W : forall d, goal2 \/ (J (j + d))).
      { intros d. apply (walk J goal2 ST j); [lia|exact JJ]. }
      destruct (sf_task _ _ _ _ FAIR j) as (m & LM & [TK|NE]); [right; eauto|].
      destruct (W (m - j)) as [G|JM]; [auto|]. replace (j + (m - j)) with m in JM by lia. exfalso. apply NE.
      destruct (task_possible has_tcp num NUM _ (i_clean m (proj1 (proj2 JM))) (TODO m ltac:(lia) JM)) as (s1 & S1).
      eapply task_enabled; [|exact S1|]; [exact Logic.I|]. intros s' <-. exact S1.
Qed.

(** Again and again the accept task is at work. *)
Lemma accepting : forall t, I t -> goal \/ exists j, t <= j /\ ac_udp (cw_acc (at_ j)) = JnWait.
Proof.
  intros t IT. destruct (ac_udp (cw_acc (at_ t))) as [|r] eqn:E; [right; exists t; auto|].
  destruct (cl_udp _ _ _ (i_clean t IT) r E) as (a & ->). destruct (selected a t IT E) as [G|(j & L & _ & W & _)]; [auto|right; eauto].
Qed.

(** The client's connection is in the hands of the socket handler task. *)
Lemma in_hand_starts : forall t, I t -> queued (cw_udp (at_ t)) <> [] ->
  (ac_pc (cw_acc (at_ t)) = HpAcquire (Conn false here) \/ ac_pc (cw_acc (at_ t)) = HpHold (Conn false here)) -> goal.
Proof.
  set (J := fun k => I k /\ queued (cw_udp (at_ k)) <> []
    /\ (ac_pc (cw_acc (at_ k)) = HpAcquire (Conn false here) \/ ac_pc (cw_acc (at_ k)) = HpHold (Conn false here))).
  assert (TD : forall k, J k -> todo (cw_acc (at_ k)) <> 0).
  { intros k (_ & _ & [E|E]); unfold todo; rewrite E; discriminate. }
  assert (Q1 : forall k, I k -> queued (cw_udp (at_ k)) <> [] -> goal \/ queued (cw_udp (at_ (k + 1))) <> []).
  { intros k IK Q. destruct (next k (proj1 IK)) as [G|[E|(a & NK & ST)]]; [auto|right; rewrite E; exact Q|].
    right. eapply queued_stays; [exact ST|exact NK|apply IK|exact Q]. }
  assert (ST : forall k, J k -> goal \/ (J (k + 1) /\ todo (cw_acc (at_ (k + 1))) <= todo (cw_acc (at_ k)))).
  { intros k JK. pose proof (TD k JK) as T. destruct JK as (IK & Q & P). destruct (Q1 k IK Q) as [G|Q']; [auto|].
    destruct (acc_next k IK) as [G|(I1 & [(EA & _)|(ev & AS & NF & ES)])]; [auto| |].
    - right. rewrite EA. split; [|lia]. split; [exact I1|]. split; [exact Q'|]. rewrite EA. exact P.
    - destruct (hand_step has_tcp num _ _ _ (Conn false here) (i_clean k IK) AS NF) as (H1 & H2).
      pose proof (todo_le has_tcp num NUM _ _ _ (i_clean k IK) AS NF T) as TL.
      destruct P as [P|P]; [right; split; [split; [exact I1|]; split; [exact Q'|apply H1; exact P]|exact TL]|].
      destruct (H2 P) as [P'| ->]; [right; split; [split; [exact I1|]; auto|exact TL]|].
      left. exists (k + 1). split; [apply I1|]. right. split; [apply I1|]. split; [|exact Q'].
      rewrite ES. unfold new_udp_session. rewrite P, sa_eqb_refl. discriminate. }
  intros t IT Q P. apply (progress J goal (fun k => todo (cw_acc (at_ k))) (taken at_ (handles has_tcp))) with (t := t).
  - exact ST.
  - intros k (IK & _) TK. right. eapply (todo_task has_tcp num NUM); [apply i_clean; exact IK|exact TK].
  - intros k JK. destruct (sf_task _ _ _ _ FAIR k) as (m & LM & [TK|NE]); [right; eauto|].
    destruct (walk J goal ltac:(intros j JJ; destruct (ST j JJ) as [G|(X & _)]; auto) k m LM JK) as [G|JM]; [auto|]. exfalso. apply NE.
    destruct (task_possible has_tcp num NUM _ (i_clean m (proj1 JM)) (TD m JM)) as (s1 & S1).
    eapply task_enabled; [|exact S1|]; [exact Logic.I|]. intros s' <-. exact S1.
  - split; [exact IT|]. auto.
Qed.

Lemma queued_next : forall k, I k -> queued (cw_udp (at_ k)) <> [] -> goal \/ queued (cw_udp (at_ (k + 1))) <> [].
Proof.
  intros k IK Q. destruct (next k (proj1 IK)) as [G|[E|(a & NK & ST)]]; [auto|right; rewrite E; exact Q|].
  right. eapply queued_stays; [exact ST|exact NK|apply IK|exact Q].
Qed.

Lemma queued_later : forall t k, t <= k -> I t -> queued (cw_udp (at_ t)) <> [] -> goal \/ (I k /\ queued (cw_udp (at_ k)) <> []).
Proof.
  intros t k L IT Q. apply (walk (fun k => I k /\ queued (cw_udp (at_ k)) <> []) goal) with (t := t); [|exact L|auto].
  intros j (IJ & QJ). destruct (i_next j IJ) as [G|I1]; [auto|]. destruct (queued_next j IJ QJ); auto.
Qed.

(** letmeind has read the datagram. *)
Lemma queued_comes : forall t, I t -> queued (cw_udp (at_ t)) <> [] -> goal.
Proof.
  assert (DEC : forall l, In here l \/ ~ In here l).
  { intros l. destruct (in_dec sa_dec here l); auto. }
  assert (C2 : forall t, I t -> queued (cw_udp (at_ t)) <> [] -> cw_session (at_ t) <> None \/ In here (map fst (us_sess (cw_udp (at_ t)))) -> goal).
  { intros t IT Q X. destruct (cw_session (at_ t)) as [se|] eqn:SE.
    - exists t. split; [apply IT|]. right. split; [apply IT|]. split; [congruence|exact Q].
    - destruct X as [X|X]; [contradiction|]. destruct (one_place _ (proj2 IT)) as (K & _).
      rewrite (ck_link _ _ _ _ _ _ _ K) in X. pose proof (ck_where _ _ _ _ _ _ _ K) as WH. rewrite SE in WH. destruct WH as (NS & _).
      apply in_app_or in X. destruct X as [X|X]; [contradiction|]. unfold waiting_udp in X. apply in_app_or in X. destruct X as [X|X].
      + apply (in_hand_starts t IT Q). unfold in_hand in X. destruct (ac_pc (cw_acc (at_ t))) as [|[[|] a]|[[|] a]| |]; cbn in X; try contradiction;
          destruct X as [->|[]]; auto.
      + unfold in_join in X. destruct (ac_udp (cw_acc (at_ t))) as [|[a|e|]] eqn:EU; try destruct X as [X|[]]; try contradiction. subst a.
        destruct (selected here t IT EU) as [G|(j & L & IJ & _ & P)]; [exact G|].
        destruct (queued_later t j L IT Q) as [G|(_ & QJ)]; [exact G|]. apply (in_hand_starts j IJ QJ). auto. }
  set (J := fun k => (I k /\ queued (cw_udp (at_ k)) <> []) /\ cw_session (at_ k) = None /\ ~ In here (map fst (us_sess (cw_udp (at_ k))))).
  assert (ENTER : forall k, I k -> queued (cw_udp (at_ k)) <> [] -> goal \/ J k).
  { intros k IK Q. destruct (cw_session (at_ k)) eqn:SE; [left; apply (C2 k IK Q); left; congruence|].
    destruct (DEC (map fst (us_sess (cw_udp (at_ k))))) as [X|X]; [left; apply (C2 k IK Q); auto|]. right. split; [split; assumption|]. auto. }
  assert (ST : forall k, J k -> goal \/ J (k + 1)).
  { intros k ((IK & Q) & _). destruct (i_next k IK) as [G|I1]; [auto|]. destruct (queued_next k IK Q) as [G|Q1]; [auto|]. apply ENTER; assumption. }
  intros t IT Q. destruct (ENTER t IT Q) as [G|JT]; [exact G|].
  apply (progress J goal (fun _ => 0) (taken at_ (picks_client here))) with (t := t); [| | |exact JT].
  - intros k JK. destruct (ST k JK); auto.
  - intros k JK TK. left. destruct (ST k JK) as [G|(_ & _ & N1)]; [exact G|]. exfalso. apply N1. unfold taken, picks_client in TK. rewrite TK, map_app.
    apply in_or_app. right. left. reflexivity.
  - intros k JK. destruct (sf_pick _ _ _ _ FAIR k) as [X|(t1 & L1 & NEVER)]; [auto|]. left.
    destruct (walk J goal ST k t1 L1 JK) as [G|J1]; [exact G|].
    destruct (accepting t1 (proj1 (proj1 J1))) as [G|(j & LJ & W)]; [exact G|].
    destruct (walk J goal ST t1 j LJ J1) as [G|((IJ & QJ) & _ & NJ)]; [exact G|]. exfalso. apply (NEVER j LJ).
    destruct (pick_possible _ (proj2 IJ) W QJ NJ) as (s' & SS & P). eapply enabled_by; eassumption.
Qed.

(** It is in letmeind's socket. *)
Lemma buffered_comes : forall t, I t -> In here (map snd (cw_buf (at_ t))) -> goal.
Proof.
  set (J := fun k => I k /\ In here (map snd (cw_buf (at_ k)))).
  assert (ST : forall k, J k -> goal \/ (J (k + 1) /\ place (at_ (k + 1)) <= place (at_ k)
                                         /\ (reads_socket (at_ k) (at_ (k + 1)) -> place (at_ (k + 1)) < place (at_ k)))).
  { intros k (IK & B). destruct (i_next k IK) as [G|I1]; [auto|]. destruct (next k (proj1 IK)) as [G|[E|(a & NK & SS)]]; [auto| |].
    - right. unfold J. rewrite E. split; [split; [exact I1|exact B]|]. split; [lia|]. intros (x & X). exfalso. apply (f_equal (@length _)) in X. cbn in X. lia.
    - destruct (buf_step a _ _ SS NK (proj2 IK) B) as [Q|(B1 & P)]; [left; apply (queued_comes (k + 1) I1 Q)|]. right. split; [split; assumption|exact P]. }
  intros t IT B. apply (progress J goal (fun k => place (at_ k)) (taken at_ reads_socket)) with (t := t).
  - intros k JK. destruct (ST k JK) as [G|(X & Y & _)]; auto.
  - intros k JK TK. destruct (ST k JK) as [G|(_ & _ & Y)]; auto.
  - intros k JK. destruct (sf_socket _ _ _ _ FAIR k) as [X|(t1 & L1 & NEVER)]; [auto|]. left.
    assert (ST' : forall k, J k -> goal \/ J (k + 1)) by (intros j JJ; destruct (ST j JJ) as [G|(X & _)]; auto).
    destruct (walk J goal ST' k t1 L1 JK) as [G|J1]; [exact G|].
    destruct (accepting t1 (proj1 J1)) as [G|(j & LJ & W)]; [exact G|].
    destruct (walk J goal ST' t1 j LJ J1) as [G|(IJ & BJ)]; [exact G|]. exfalso. apply (NEVER j LJ).
    destruct (cw_buf (at_ j)) as [|[b p] buf] eqn:EB; [destruct BJ|].
    destruct (accept_possible (at_ j) (RdDatagram b p) buf here_first (proj2 IJ) W ltac:(rewrite EB; constructor) here_first_order)
      as (u' & r & s' & _ & SS & _ & EB'). eapply enabled_by; [exact SS|]. exists (b, p). congruence.
  - split; assumption.
Qed.

(** It is on its way. *)
Lemma awaited_comes : forall t, I t -> goal.
Proof.
  assert (THERE : forall k, I k -> cw_up (at_ k) = [] -> goal).
  { intros k IK E. destruct (one_place _ (proj2 IK)) as (_ & _ & L). rewrite E in L. cbn in L.
    destruct (queued (cw_udp (at_ k))) as [|b q] eqn:Q.
    - apply (buffered_comes k IK). apply in_filter. cbn in L. lia.
    - apply (queued_comes k IK). rewrite Q. discriminate. }
  intros t IT. destruct (cw_up (at_ t)) as [|b y] eqn:EU; [apply (THERE t IT EU)|].
  set (J := fun k => I k /\ cw_up (at_ k) <> []).
  assert (ST : forall k, J k -> goal \/ (J (k + 1) /\ length (cw_up (at_ (k + 1))) <= length (cw_up (at_ k)))).
  { intros k (IK & U). destruct (i_next k IK) as [G|I1]; [auto|].
    assert (LE : goal \/ length (cw_up (at_ (k + 1))) <= length (cw_up (at_ k))).
    { destruct (next k (proj1 IK)) as [G|[E|(a & NK & SS)]]; [auto|right; rewrite E; lia|]. right.
      destruct (shape a _ _ SS NK) as [(E & _)|(x & b' & z & E1 & E2 & _)]; [rewrite E; lia|]. rewrite E1, E2, !app_length. cbn. lia. }
    destruct LE as [G|LE]; [auto|]. destruct (cw_up (at_ (k + 1))) as [|b' z] eqn:E; [left; apply (THERE _ I1 E)|].
    right. split; [split; [exact I1|rewrite E; discriminate]|exact LE]. }
  apply (progress J goal (fun k => length (cw_up (at_ k))) (taken at_ arrives)) with (t := t).
  - exact ST.
  - intros k _ TK. right. exact TK.
  - intros k JK. destruct (sf_network _ _ _ _ FAIR k) as (m & LM & [TK|NE]); [right; eauto|].
    destruct (walk J goal ltac:(intros j JJ; destruct (ST j JJ) as [G|(X & _)]; auto) k m LM JK) as [G|(IM & UM)]; [auto|]. exfalso. apply NE.
    destruct (at_ m) as [acc u buf cl se up dn d h rq rp] eqn:E. cbn in UM. destruct up as [|b' z]; [contradiction|].
    apply (enabled_by arrives m Letmeind (Crowd acc u (buf ++ [(b', here)]) cl se z dn d h rq rp)); rewrite E.
    + exact (cs_up mac sc conf c has_tcp num here any_order acc u buf cl se [] b' z dn d h rq rp).
    + unfold arrives. cbn. lia.
  - split; [exact IT|rewrite EU; discriminate].
Qed.
End Eventually.

(** The knock goes on at once, or a datagram is awaited. *)
Lemma csim_now : forall s f f', cs s f -> narrow (fu_pair f) -> full_step conf c 1 f f' ->
  (exists s', step Knock s s' /\ (cw_hist s' = cw_hist s \/ cw_hist s' = fu_hist f')) \/ awaits s.
Proof.
  intros s f f' S NA ST. pose proof S as S1. inversion S as [acc u buf cl se up dn d h rq rp op BU K ZU E1 E2]. subst s f.
  inversion ST; subst.
  - match goal with H : pair_step _ _ |- _ => inversion H; subst end.
    + left. eexists. split; [eapply cs_lookup; eassumption|left; reflexivity].
    + inversion BU; subst. left. eexists. split; [eapply cs_connect; eassumption|left; reflexivity].
    + left. eexists. split; [eapply cs_crand; eassumption|left; reflexivity].
    + left. eexists. split; [eapply cs_csend; eassumption|left; reflexivity].
    + left. eexists. split; [eapply (cs_crecv mac sc conf c has_tcp num here any_order acc u buf k se up [])|left; reflexivity].
    + right. match goal with H : SRecv ?k = prog _ _ _ _ |- _ => exists (Full (Pair cl (prog mac sc here se) (pending u buf here ++ up) dn op) d h rq rp), k end.
      split; [assumption|]. split; [exact NA|]. cbn. split; [congruence|]. match goal with H : _ :: _ = pending _ _ _ ++ up |- _ => rewrite <- H; discriminate end.
    + destruct (prog_some _ _ _ se _ ltac:(eassumption) ltac:(discriminate)) as (n & j & ->). left. eexists. split; [eapply cs_ssend; eassumption|left; reflexivity].
    + destruct (prog_some _ _ _ se _ ltac:(eassumption) ltac:(discriminate)) as (n & j & ->). left. eexists. split; [eapply cs_srand; eassumption|left; reflexivity].
    + destruct (prog_some _ _ _ se _ ltac:(eassumption) ltac:(discriminate)) as (n & j & ->). left. eexists. split; [eapply cs_fwconnect; eassumption|left; reflexivity].
    + match goal with H : away_from_socket _ _, E : SFwSend _ _ = _ |- _ => rewrite <- E in H; destruct H as (_ & H); cbn in H end.
      exfalso. eapply snoc_neq; eassumption.
    + match goal with H : away_from_socket _ _, E : SFwRecv _ = _ |- _ => rewrite <- E in H end.
      exfalso. eapply away_opened. eassumption.
  - destruct (prog_some _ _ _ se _ ltac:(eassumption) ltac:(discriminate)) as (n & j & ->). left. eexists. split; [eapply cs_fwsend; eassumption|left; reflexivity].
  - left. eexists. split; [eapply cs_handle; eassumption|right; reflexivity].
  - destruct (prog_some _ _ _ se _ ltac:(eassumption) ltac:(discriminate)) as (n & j & ->). left. eexists. split; [eapply cs_fwrecv|left; reflexivity].
Qed.

(** Every moment of an execution is reached in finitely many steps. *)
Lemma crowd_prefix : forall s0 at_ own, execution (crowd_one mac sc conf c has_tcp num here) s0 at_ own ->
  forall k, exists w, crowd_run mac sc conf c has_tcp num here any_order w s0 (at_ k) /\ knock_steps w = done own k.
Proof.
  intros s0 at_ own [E0 EN]. induction k as [|k (w & R & N)].
  - exists []. rewrite E0. split; [constructor|reflexivity].
  - replace (S k) with (k + 1) by lia. destruct (EN k) as [(a & ST & O)|(O & E)].
    + exists (w ++ [a]). split; [econstructor; eassumption|]. replace (k + 1) with (S k) by lia. cbn.
      unfold knock_steps in *. rewrite filter_app, app_length, N, O. destruct a; cbn; lia.
    + exists w. rewrite E. split; [exact R|]. replace (k + 1) with (S k) by lia. cbn. lia.
Qed.

(** *** A finite execution and then nothing *)

Notation run := (crowd_run mac sc conf c has_tcp num here any_order).
Notation one := (crowd_one mac sc conf c has_tcp num here).

Lemma crowd_idle : forall w s s', run w s s' ->
  exists at_ own len, execution one s at_ own
    /\ (forall k, len <= k -> at_ k = s' /\ own k = 0)
    /\ (forall k, exists w', run w' (at_ k) s').
Proof.
  intros w s s' R. induction R as [s|w a s s1 s2 R IH ST].
  - exists (fun _ => s), (fun _ => 0), 0. split; [constructor; auto|]. split; [auto|]. intros k. exists []. constructor.
  - destruct IH as (at_ & own & len & [E0 EN] & IDLE & REST). set (i := match a with Knock => 1 | _ => 0 end).
    exists (fun k => if k <=? len then at_ k else s2), (fun k => if k <? len then own k else if k =? len then i else 0), (len + 1).
    split; [constructor|split].
    + cbn. exact E0.
    + intros k. destruct (Nat.ltb_spec k len) as [L|L].
      * rewrite (proj2 (Nat.leb_le k len)), (proj2 (Nat.leb_le (k + 1) len)) by lia. apply EN.
      * destruct (Nat.eqb_spec k len) as [->|N].
        -- rewrite Nat.leb_refl, (proj2 (Nat.leb_gt (len + 1) len)) by lia. left. destruct (IDLE len (le_n _)) as (-> & _). exists a. auto.
        -- rewrite !(proj2 (Nat.leb_gt _ len)) by lia. right. auto.
    + intros k L. rewrite (proj2 (Nat.leb_gt k len)), (proj2 (Nat.ltb_ge k len)), (proj2 (Nat.eqb_neq k len)) by lia. auto.
    + intros k. destruct (Nat.leb_spec k len) as [L|L]; [|exists []; constructor].
      destruct (REST k) as (m & X). exists (m ++ [a]). econstructor; eassumption.
Qed.

Lemma crowd_hist : forall w s s', run w s s' -> exists x, cw_hist s' = cw_hist s ++ x.
Proof.
  intros w s s' R. induction R as [s|w a s s1 s2 R (x & E) ST]; [exists []; symmetry; apply app_nil_r|].
  assert (X : exists y, cw_hist s2 = cw_hist s1 ++ y) by (inversion ST; subst; cbn; try (exists []; symmetry; apply app_nil_r); eauto).
  destruct X as (y & ->). exists (x ++ y). rewrite E, app_assoc. reflexivity.
Qed.

(** letmeind's tasks do what there is to do. *)
Lemma drain_weight : forall m acc u buf cl se up dn d h rq rp, clean has_tcp num acc -> weight acc = m ->
  exists w acc' se', quiet w /\ run w (Crowd acc u buf cl se up dn d h rq rp) (Crowd acc' u buf cl se' up dn d h rq rp) /\ weight acc' = 0.
Proof.
  induction m as [|m IH]; intros acc u buf cl se up dn d h rq rp CL W.
  - exists [], acc, se. split; [constructor|]. split; [constructor|exact W].
  - destruct (not_stuck has_tcp true num acc CL NUM) as (ev & a1 & O & E); [lia|].
    pose proof (weight_step has_tcp true num _ _ _ CL O E) as WS.
    destruct (IH a1 u buf cl (new_udp_session mac sc here acc ev se) up dn d h rq rp (clean_step _ _ _ _ _ _ CL (own_no_failure _ O) E)) as (w & a2 & se2 & Q & R & Z); [lia|].
    exists ([Letmeind] ++ w), a2, se2. split; [apply Forall_app; split; [repeat constructor|exact Q]|]. split; [|exact Z].
    eapply run_more; [apply run_one; eapply cs_task; eassumption|exact R].
Qed.

(** Everything has been read and everybody has been served. *)
Lemma settle : forall m s f, cs s f -> narrow (fu_pair f) -> length (cw_buf s) = m ->
  exists w s', quiet w /\ run w s s' /\ cs s' f /\ weight (cw_acc s') = 0 /\ cw_buf s' = [] /\ cw_hist s' = cw_hist s.
Proof.
  induction m as [|m IH]; intros s f S NA E; pose proof S as S0;
    inversion S as [acc u buf cl se up dn d h rq rp op BU K ZU E1 E2]; rewrite <- E1 in E; cbn in E;
    destruct (drain_weight _ acc u buf cl se up dn d h rq rp (ck_clean _ _ _ _ _ _ _ K) eq_refl) as (w & acc1 & se1 & Q & R & Z);
    (assert (S1 : cs (Crowd acc1 u buf cl se1 up dn d h rq rp) f)
      by (eapply (quiet_run mac sc conf c has_tcp num here any_order NUM (fun o X => X)); [rewrite <- E1 in S0; exact R|exact Q|rewrite E1; exact S0|exact NA])).
  - rewrite E2. exists w. eexists. split; [exact Q|]. split; [exact R|]. split; [exact S1|]. split; [exact Z|]. cbn.
    split; [apply length_zero_iff_nil; exact E|reflexivity].
  - destruct buf as [|[b p] buf]; [discriminate|].
    assert (K1 : crowd_ok has_tcp num here acc1 u ((b, p) :: buf) se1) by (inversion S1; subst; assumption).
    assert (JW : ac_udp acc1 = JnWait).
    { destruct (ac_udp acc1) as [|r] eqn:EJ; [reflexivity|]. destruct (cl_udp _ _ _ (ck_clean _ _ _ _ _ _ _ K1) r EJ) as (a & ->).
      unfold weight in Z. rewrite EJ in Z. cbn in Z. lia. }
    destruct (udp_step num u (UeAccept (RdDatagram b p) here_first)) as [[u' r]|] eqn:ST.
    2:{ unfold udp_step in ST. rewrite (do_dead _ _ _ _ (ck_disp _ _ _ _ _ _ _ K1)) in ST.
        destruct (try_accept num (us_udp u) (RdDatagram b p) here_first); discriminate. }
    assert (PA : exists acc2, passed has_tcp acc1 r acc2).
    { destruct r; try (exists acc1; reflexivity). cbn. unfold astep. rewrite (cl_exit _ _ _ (ck_clean _ _ _ _ _ _ _ K1)), JW. eauto. }
    destruct PA as (acc2 & PA).
    assert (STEP : step Letmeind (Crowd acc1 u ((b, p) :: buf) cl se1 up dn d h rq rp) (Crowd acc2 u' buf cl se1 up dn d h rq rp)).
    { eapply cs_pass; [exact JW|constructor|exact here_first_order|exact ST|exact PA]. }
    pose proof (csim_step mac sc conf c has_tcp num here any_order NUM (fun o X => X) Letmeind _ _ STEP f S1 NA) as S2. cbn in S2.
    destruct (IH _ f S2 NA ltac:(cbn; cbn in E; lia)) as (w2 & s' & Q2 & R2 & S' & Z' & B' & H').
    exists (w ++ [Letmeind] ++ w2), s'. split; [apply Forall_app; split; [exact Q|]; apply Forall_app; split; [repeat constructor|exact Q2]|].
    split; [eapply run_more; [exact R|]; eapply run_more; [apply run_one; exact STEP|exact R2]|]. rewrite E2. auto.
Qed.

(** Then no kind of step is possible that fairness asks for. *)
Lemma at_rest : forall s f r1 r2 at_ own len, cs s f -> narrow (fu_pair f) ->
  pr_client (fu_pair f) = CRet r1 -> pr_server (fu_pair f) = SRet r2 -> fu_request f = [] ->
  weight (cw_acc s) = 0 -> cw_buf s = [] ->
  execution one (at_ 0) at_ own -> (forall k, len <= k -> at_ k = s /\ own k = 0) ->
  knock_fair one cw_hist at_ own /\ serves_fairly has_tcp here one at_.
Proof.
  intros s f r1 r2 at_ own len S NA EC ES EQ W EB EX IDLE.
  inversion S as [acc u buf cl se up dn d h rq rp op BU K ZU E1 E2]. subst s f. cbn in EC, ES, EQ, W, EB. subst cl rq buf.
  destruct NA as (_ & NE). cbn in NE. specialize (NE r2 ES). apply app_eq_nil in NE. destruct NE as (P0 & ->).
  pose proof (ck_clean _ _ _ _ _ _ _ K) as CL.
  destruct se as [[[n j] p]|]; cbn in ES; [|unfold server_run, recv_msg in ES; discriminate]. subst p.
  assert (I1 : astep has_tcp true acc AeTask = None).
  { unfold weight in W. unfold astep. rewrite (cl_exit _ _ _ CL). destruct (ac_pc acc); try reflexivity; lia. }
  assert (I2 : astep has_tcp true acc (AeSelect false true) = None).
  { unfold weight, in_join in W. unfold astep. rewrite (cl_exit _ _ _ CL).
    destruct (ac_udp acc) as [|x] eqn:EU; [destruct (ac_pc acc); reflexivity|].
    destruct (cl_udp _ _ _ CL x EU) as (a & ->). cbn in W. lia. }
  assert (I3 : forall a s', step a (Crowd acc u [] (CRet r1) (Some (n, j, SRet r2)) [] dn d h [] rp) s' -> a <> Knock /\ ~ picks_client here (Crowd acc u [] (CRet r1) (Some (n, j, SRet r2)) [] dn d h [] rp) s').
  { assert (SAME : forall v : list (sockaddr * bool), v <> v ++ [(here, false)])
      by (intros v X; apply (f_equal (@length _)) in X; rewrite app_length in X; cbn in X; lia).
    assert (MAP : forall v v' : list (sockaddr * bool), map fst v' = map fst v -> v' <> v ++ [(here, false)])
      by (intros v v' E X; apply (f_equal (@length _)) in E; rewrite !map_length in E; subst v'; rewrite app_length in E; cbn in E; lia).
    intros a s' ST. unfold picks_client. pose proof (ck_disp _ _ _ _ _ _ _ K) as D. inversion ST; subst; cbn; try (split; [discriminate|apply SAME]).
    - split; [discriminate|]. apply MAP. pose proof (ck_where _ _ _ _ _ _ _ K) as (_ & _ & b & NB & _).
      eapply (close_ok num here NUM _ _ _ _ _ _ _ D NB ltac:(eassumption)).
    - split; [discriminate|]. destruct (accept_ok num here NUM _ _ _ _ _ _ _ D ltac:(eassumption) ltac:(eassumption) ltac:(eassumption))
        as (_ & _ & [(_ & ->)|(q & _ & -> & NP & _)]); [apply SAME|]. intros X. apply app_inj_tail in X. destruct X as (_ & X). injection X as ->.
      apply NP. exact P0.
    - split; [discriminate|]. destruct (recv_ok num here NUM _ _ _ _ _ _ _ _ D ltac:(eassumption) ltac:(eassumption) ltac:(eassumption)) as (_ & -> & _).
      apply SAME.
    - split; [discriminate|]. apply MAP. eapply (close_ok num here NUM _ _ _ _ _ _ _ D ltac:(eassumption) ltac:(eassumption)). }
  assert (AT : forall t, exists k, t <= k /\ at_ k = Crowd acc u [] (CRet r1) (Some (n, j, SRet r2)) [] dn d h [] rp).
  { intros t. exists (Nat.max t len). split; [lia|]. apply IDLE. lia. }
  split; [|constructor].
  - intros t. destruct (AT t) as (k & L & E). exists k. split; [exact L|]. right. rewrite E. intros (s' & (a & ST & O) & _).
    destruct (I3 a s' ST) as (NK & _). destruct a; congruence.
  - intros t. destruct (AT t) as (k & L & E). exists k. split; [exact L|]. right. unfold enabled, arrives. rewrite E. intros (i & s' & _ & X). cbn in X. lia.
  - intros t. destruct (AT t) as (k & L & E). exists k. split; [exact L|]. right. unfold enabled, handles. rewrite E. intros (i & s' & _ & X). cbn in X. congruence.
  - intros t. right. exists (Nat.max t len). split; [lia|]. intros k L. destruct (IDLE k ltac:(lia)) as (E & _). unfold enabled, reads_socket. rewrite E.
    intros (i & s' & _ & x & X). discriminate X.
  - intros t. right. exists (Nat.max t len). split; [lia|]. intros k L. destruct (IDLE k ltac:(lia)) as (E & _). unfold enabled. rewrite E.
    intros (i & s' & (a & ST & _) & X). destruct (I3 a s' ST) as (_ & NP). exact (NP X).
  - intros t. right. exists (Nat.max t len). split; [lia|]. intros k L. destruct (IDLE k ltac:(lia)) as (E & _). unfold enabled, selects_udp. rewrite E.
    intros (i & s' & _ & X). cbn in X. congruence.
Qed.
End System.
