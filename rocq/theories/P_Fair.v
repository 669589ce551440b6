(** Fair executions reach the end of a knock. *)

From Coq Require Import String ZArith NArith List Bool Lia Wf_nat.
From Verif Require Import M_Base M_Proto M_IpAddr M_FwProto M_ConfTypes M_Server M_Client M_Firewall M_Udp M_Accept
  S_Wire S_Session S_Client S_Pair S_Firewall S_E2e S_Bytes S_Accept S_Rush S_Fair
  P_Base P_Udp P_Both P_Bytes P_Dgram P_Accept P_Busy P_Rush.
Import ListNotations.
Local Open Scope nat_scope.

(** *** Bounded work *)

Section Bounded.
Context {S : Type} (step : nat -> S -> S -> Prop) (hist_of : S -> hist) (s0 : S) (at_ : nat -> S) (own : nat -> nat).
Context (EX : execution step s0 at_ own) (FAIR : knock_fair step hist_of at_ own).

Fixpoint done (k : nat) : nat := match k with 0 => 0 | Datatypes.S k => done k + own k end.

Lemma done_mono : forall d k, done k <= done (k + d).
Proof.
  induction d as [|d IH]; intros k; [rewrite Nat.add_0_r; lia|]. replace (k + Datatypes.S d) with (Datatypes.S (k + d)) by lia.
  cbn. specialize (IH k). lia.
Qed.

Lemma done_le : forall k j, k <= j -> done k <= done j.
Proof. intros k j L. replace j with (k + (j - k)) by lia. apply done_mono. Qed.

(** If the knock takes at most [B] steps, and whenever it can not go on it is over
    or waits for something that comes once and for all, then it is over some time. *)
Lemma fair_end : forall B (fin wait : S -> Prop),
  (forall k, done k <= B) ->
  (forall k, fin (at_ k) \/ (exists s', step 1 (at_ k) s' /\ clock_monotone (hist_of s')) \/ wait (at_ k)) ->
  (forall t, wait (at_ t) -> exists k, t <= k /\ forall j, k <= j -> ~ wait (at_ j)) ->
  exists k, fin (at_ k).
Proof.
  intros B fin wait BD PR WT.
  assert (G : forall b t, B + 1 <= done t + b -> exists k, fin (at_ k)).
  { induction b as [|b IH]; intros t E; [specialize (BD t); lia|].
    assert (GO : forall t1, t <= t1 -> (exists k, fin (at_ k)) \/ (exists k, t1 <= k /\ wait (at_ k))).
    { intros t1 L1. destruct (FAIR t1) as (k & L & [O|N]).
      - left. apply (IH (Datatypes.S k)). pose proof (done_le t k ltac:(lia)) as M. cbn. lia.
      - destruct (PR k) as [F|[P|W]]; [left; eauto|contradiction|right; eauto]. }
    destruct (GO t (le_n t)) as [F|(k & L & W)]; [exact F|].
    destruct (WT k W) as (k1 & L1 & NW). destruct (GO k1 ltac:(lia)) as [F|(k2 & L2 & W2)]; [exact F|].
    exfalso. exact (NW k2 L2 W2). }
  apply (G (B + 1) 0). lia.
Qed.
End Bounded.

(** *** A helpful event *)

Lemma wait_for : forall (J : nat -> Prop) (goal : Prop) (mu : nat -> nat) (taken dis : nat -> Prop) t,
  (forall k, J k -> goal \/ (J (k + 1) /\ mu (k + 1) <= mu k)) ->
  (forall k, J k -> mu k = mu t -> dis k -> False) ->
  (forall k, J k -> mu k = mu t -> taken k -> goal \/ mu (k + 1) < mu t) ->
  (exists k, t <= k /\ (taken k \/ dis k)) ->
  J t -> goal \/ exists k, t <= k /\ J k /\ mu k < mu t.
Proof.
  intros J goal mu taken dis t ST DIS TK (k & L & X) JT.
  assert (W : forall d, goal \/ (exists j, t <= j /\ J j /\ mu j < mu t) \/ (J (t + d) /\ mu (t + d) = mu t)).
  { induction d as [|d IH]; [rewrite Nat.add_0_r; auto|].
    destruct IH as [IH|[IH|(JD & MD)]]; auto.
    replace (t + Datatypes.S d) with (t + d + 1) by lia.
    destruct (ST _ JD) as [G|(J1 & M1)]; [auto|].
    destruct (Nat.eq_dec (mu (t + d + 1)) (mu t)); [auto|]. right. left. exists (t + d + 1). split; [lia|]. split; [exact J1|lia]. }
  destruct (W (k - t)) as [G|[G|(JK & MK)]]; auto. replace (t + (k - t)) with k in * by lia.
  destruct X as [X|X]; [|exfalso; eapply DIS; eassumption].
  destruct (TK k JK MK X) as [G|G]; [auto|]. destruct (ST k JK) as [H|(J1 & _)]; [auto|].
  right. exists (k + 1). split; [lia|]. split; assumption.
Qed.

(** *** The place in the queue *)

Section Queue.
Variable has_udp : bool.
Variable here : sockaddr.
Variable num : N.
Hypothesis NUM : (1 <= num)%N.

Fixpoint pos (w : list sockaddr) : nat :=
  match w with [] => 0 | a :: r => if sa_eqb a here then 0 else 1 + pos r end.

Definition hold (s : acceptor) : nat :=
  match ac_pc s with
  | HpHold (Conn true _) => 1
  | HpAcquire (Conn true _) => 2
  | _ => match ac_tcp s with JnDone _ => 3 | JnWait => 4 end
  end.

Definition away (s : acceptor) : nat := 4 * pos (waiting_tcp s) + hold s.

Lemma hold_range : forall s, 1 <= hold s <= 4.
Proof. intros s. unfold hold. destruct (ac_pc s) as [|[[|] a]|[[|] a]| |], (ac_tcp s); lia. Qed.

Lemma same_hold : forall s s', away s' = away s -> hold s' = hold s.
Proof. intros s s' E. unfold away in E. pose proof (hold_range s). pose proof (hold_range s'). lia. Qed.

Lemma pos_app : forall w l, In here w -> pos (w ++ l) = pos w.
Proof.
  induction w as [|a w IH]; intros l I; [destruct I|]. cbn. destruct (sa_eqb a here) eqn:E; [reflexivity|].
  destruct I as [->|I]; [rewrite sa_eqb_refl in E; discriminate|]. rewrite IH by exact I. reflexivity.
Qed.

Lemma away_step : forall s ev s', clean true num s -> astep true has_udp s ev = Some s' -> no_failure ev ->
  ~ starts s ev here -> In here (waiting_tcp s) ->
  In here (waiting_tcp s') /\ away s' <= away s
  /\ (hold s = 4 -> ev = AeTcp None -> away s' < away s)
  /\ (hold s = 3 -> ev = AeSelect true true -> away s' < away s)
  /\ (hold s <= 2 -> ev = AeTask -> away s' < away s).
Proof.
  intros s ev s' CL ST NF NS W.
  destruct (head_step _ _ _ _ _ ST NF) as [(a & PC & -> & E & _)|(NP & E & _)].
  - assert (NE : a <> here) by (intros ->; apply NS; split; [exact PC|reflexivity]).
    rewrite E in W. destruct W as [W|W]; [contradiction|]. split; [exact W|].
    assert (away s' < away s).
    { unfold away. rewrite E. cbn [pos]. destruct (sa_eqb a here) eqn:EA; [apply sa_eqb_spec in EA; contradiction|].
      pose proof (hold_range s'). unfold hold at 2. rewrite PC. lia. }
    repeat split; intros; try lia; discriminate.
  - assert (P : pos (waiting_tcp s') = pos (waiting_tcp s)) by (rewrite E; apply pos_app; exact W).
    split; [rewrite E; apply in_or_app; auto|].
    assert (H : hold s' <= hold s /\ (hold s = 4 -> ev = AeTcp None -> hold s' < hold s)
      /\ (hold s = 3 -> ev = AeSelect true true -> hold s' < hold s) /\ (hold s <= 2 -> ev = AeTask -> hold s' < hold s)).
    { clear E P W NS. destruct s as [b t u pc pm st lv ch ex]. destruct CL as [CE CP CC CT CU CM CB]. cbn in CE, CP, CC, CT, CU, CM, CB. subst ex ch.
      unfold astep in ST. cbn in ST. unfold hold.
      destruct ev as [a|e|r|tcp ok| |x| | | |]; cbn in *; try contradiction.
      - injection ST as <-. cbn. repeat split; intros; try discriminate; lia.
      - destruct t, e, b; try discriminate; try contradiction; injection ST as <-. cbn.
        destruct pc as [|[[|] ?]|[[|] ?]| |]; repeat split; intros; try discriminate; lia.
      - destruct has_udp, u, r; try discriminate; try contradiction; injection ST as <-. cbn. repeat split; intros; try discriminate; lia.
      - destruct pc; try discriminate. destruct tcp.
        + destruct t as [|[a|e|]]; try discriminate; destruct ok; try contradiction; cbn in ST; injection ST as <-; cbn;
            repeat split; intros; try discriminate; try lia; destruct (CT _ eq_refl); discriminate.
        + destruct u as [|[a|e|]]; try discriminate; cbn in ST; injection ST as <-; cbn; destruct t; repeat split; intros; try discriminate; try lia.
      - destruct pc as [|[[|] x]|[[|] x]| |]; try discriminate.
        + destruct (N.eqb_spec pm 0); [discriminate|]. injection ST as <-. cbn. repeat split; intros; try discriminate; lia.
        + destruct (N.eqb_spec pm 0); [discriminate|]. injection ST as <-. cbn. repeat split; intros; try discriminate; try lia; destruct t; lia.
        + exfalso. eapply NP; reflexivity.
        + injection ST as <-. cbn. repeat split; intros; try discriminate; try lia; destruct t; lia.
        + injection ST as <-. cbn. repeat split; intros; try discriminate; try lia; destruct t; lia.
      - destruct (existsb (N.eqb x) lv); [|discriminate]. injection ST as <-. cbn. repeat split; intros; try discriminate; lia.
      - injection ST as <-. cbn. repeat split; intros; try discriminate; lia.
      - discriminate. }
    unfold away. rewrite P. destruct H as (H1 & H2 & H3 & H4). repeat split; intros; try lia.
Qed.

(** What is needed is possible. *)
Lemma helpful : forall s, clean true num s -> In here (waiting_tcp s) ->
  (hold s = 4 -> astep true has_udp s (AeTcp None) <> None)
  /\ (hold s = 3 -> ac_pc s = HpAccept -> astep true has_udp s (AeSelect true true) <> None)
  /\ (hold s <= 2 \/ ac_pc s <> HpAccept -> astep true has_udp s AeTask <> None).
Proof.
  intros [b t u pc pm st lv ch ex] CL W. destruct CL as [CE CP CC CT CU CM CB]. cbn in *. subst ex ch.
  unfold hold, waiting_tcp, in_hand, in_join in *. cbn in *. unfold astep. cbn. split; [|split].
  - intros H. destruct pc as [|[[|] x]|[[|] x]| |]; try discriminate; destruct t; try discriminate; cbn in W; destruct b; try discriminate; try contradiction.
  - intros H ->. destruct t as [|r]; try discriminate. destruct (CT _ eq_refl) as (a & ->). cbn. discriminate.
  - intros H. destruct pc as [|x|x| |]; try discriminate.
    + destruct H as [H|H]; [|contradiction]. destruct t; lia.
    + destruct (N.eqb_spec pm 0); [|discriminate]. lia.
    + contradiction.
Qed.

(** Steps of the handler task until it selects again. *)
Definition todo (s : acceptor) : nat := match ac_pc s with HpAcquire _ => 3 | HpHold _ => 2 | HpDrop => 1 | _ => 0 end.

Lemma todo_step : forall s ev s', clean true num s -> astep true has_udp s ev = Some s' -> no_failure ev -> todo s <> 0 ->
  todo s' <= todo s /\ (ev = AeTask -> todo s' < todo s).
Proof.
  intros [b t u pc pm st lv ch ex] ev s' CL ST NF T. destruct CL as [CE CP CC CT CU CM CB]. cbn in CE, CC. subst ex ch.
  unfold astep in ST. unfold todo in *. cbn in *.
  destruct ev as [a|e|r|tcp ok| |x| | | |]; cbn in *; try contradiction.
  - injection ST as <-. cbn. split; [lia|discriminate].
  - destruct t, e, b; try discriminate; try contradiction; injection ST as <-; cbn; (split; [lia|discriminate]).
  - destruct has_udp, u, r; try discriminate; try contradiction; injection ST as <-; cbn; (split; [lia|discriminate]).
  - destruct pc; try discriminate. contradiction.
  - destruct pc; try discriminate; [destruct (pm =? 0)%N; [discriminate|]| |]; injection ST as <-; cbn; split; intros; lia.
  - destruct (existsb (N.eqb x) lv); [|discriminate]. injection ST as <-. cbn. split; [lia|discriminate].
  - injection ST as <-. cbn. split; [lia|discriminate].
  - discriminate.
Qed.

(** *** Eventually the connection has its session *)

Section Eventually.
Variable acc : nat -> acceptor.
Variable none : nat -> Prop.     (* no session yet *)
Hypothesis FAIR : accepts_fairly has_udp acc.
Hypothesis CLEAN : forall k, clean true num (acc k).
Variable goal : Prop.
Hypothesis STEP : forall k, none k ->
  goal \/ (none (k + 1) /\ (acc (k + 1) = acc k
             \/ exists ev, astep true has_udp (acc k) ev = Some (acc (k + 1)) /\ no_failure ev /\ ~ starts (acc k) ev here)).

Definition J (k : nat) : Prop := none k /\ In here (waiting_tcp (acc k)).
Definition mu (k : nat) : nat := away (acc k).

Lemma j_step : forall k, J k -> goal \/ (J (k + 1) /\ mu (k + 1) <= mu k).
Proof.
  intros k (N & W). destruct (STEP k N) as [G|(N1 & [E|(ev & ST & NF & NS)])]; [auto| |].
  - right. unfold J, mu. rewrite E. auto.
  - right. destruct (away_step _ _ _ (CLEAN k) ST NF NS W) as (W1 & L & _). unfold J, mu. auto.
Qed.

(** An event that makes the queue shorter by the client's own connection is the
    start of its session. *)
Lemma not_here : forall k ev, J k -> happens has_udp acc ev k -> starts (acc k) ev here -> goal.
Proof.
  intros k ev (N & W) HP (PC & ->). destruct (STEP k N) as [G|(N1 & D)]; [exact G|]. exfalso. unfold happens in HP.
  assert (L1 : length (waiting_tcp (acc k)) = 1 + length (waiting_tcp (acc (k + 1)))).
  { destruct (head_step _ _ _ _ _ HP Logic.I) as [(a & _ & _ & E & _)|(NP & _)]; [rewrite E; reflexivity|].
    exfalso. eapply NP; [exact PC|reflexivity]. }
  destruct D as [E|(ev & ST & NF & NS)]; [rewrite E in L1; lia|].
  destruct (head_step _ _ _ _ _ ST NF) as [(a & PC' & -> & _)|(_ & E & _)].
  - apply NS. split; [exact PC|reflexivity].
  - rewrite E, app_length in L1. lia.
Qed.

Lemma helped : forall t ev, J t -> weakly_fair has_udp acc ev -> no_failure ev ->
  (forall k, J k -> hold (acc k) = hold (acc t) -> astep true has_udp (acc k) ev <> None) ->
  (forall k s', J k -> hold (acc k) = hold (acc t) -> astep true has_udp (acc k) ev = Some s' -> ~ starts (acc k) ev here ->
     away s' < away (acc k)) ->
  goal \/ exists k, t <= k /\ J k /\ mu k < mu t.
Proof.
  intros t ev JT WF NF EN DEC.
  apply (wait_for J goal mu (happens has_udp acc ev) (impossible has_udp acc ev) t).
  - apply j_step.
  - intros k JK E D. apply (EN k JK (same_hold _ _ E)). exact D.
  - intros k JK E H.
    assert (D : starts (acc k) ev here \/ ~ starts (acc k) ev here).
    { unfold starts. destruct (ac_pc (acc k)) as [| |[[|] a]| |]; try (right; intros (X & _); discriminate X).
      destruct ev; try (right; intros (_ & X); discriminate X).
      destruct (sa_eqb a here) eqn:EA; [apply sa_eqb_spec in EA; subst a; left; auto|].
      right. intros (X & _). injection X as ->. rewrite sa_eqb_refl in EA. discriminate. }
    destruct D as [D|D]; [left; exact (not_here _ _ JK H D)|]. right. rewrite <- E. apply DEC; auto. apply same_hold. exact E.
  - apply WF.
  - exact JT.
Qed.

(** The TCP handle is ready: the task comes to the select and takes it. *)
Lemma selected : forall t, J t -> hold (acc t) = 3 -> goal \/ exists k, t <= k /\ J k /\ mu k < mu t.
Proof.
  intros t JT H3. destruct FAIR as [_ TASK SEL].
  assert (WALK : forall d, goal \/ (exists j, t <= j /\ J j /\ mu j < mu t) \/ (J (t + d) /\ mu (t + d) = mu t)).
  { induction d as [|d IH]; [rewrite Nat.add_0_r; auto|].
    destruct IH as [IH|[IH|(JD & MD)]]; auto.
    replace (t + Datatypes.S d) with (t + d + 1) by lia.
    destruct (j_step _ JD) as [G|(J1 & M1)]; [auto|].
    destruct (Nat.eq_dec (mu (t + d + 1)) (mu t)); [auto|]. right. left. exists (t + d + 1). split; [lia|]. split; [exact J1|lia]. }
  destruct (SEL t) as [(k & L & HP)|(t' & L & NEVER)].
  - destruct (WALK (k - t)) as [G|[G|(JK & MK)]]; auto. replace (t + (k - t)) with k in * by lia.
    destruct (j_step k JK) as [G|(J1 & _)]; [auto|]. right. exists (k + 1). split; [lia|]. split; [exact J1|].
    rewrite <- MK. unfold mu. destruct JK as (_ & W).
    destruct (away_step _ _ _ (CLEAN k) HP Logic.I) as (_ & _ & _ & D & _);
      [intros (_ & X); discriminate X|exact W|]. apply D; [|reflexivity]. rewrite <- H3. apply same_hold. exact MK.
  - set (goal2 := goal \/ exists k, t <= k /\ J k /\ mu k < mu t).
    set (J2 := fun k => t' <= k /\ J k /\ mu k = mu t).
    assert (JT' : goal2 \/ J2 t').
    { destruct (WALK (t' - t)) as [G|[G|G]]; [left; left; exact G|left; right; exact G|]. replace (t + (t' - t)) with t' in G by lia.
      right. split; [lia|exact G]. }
    destruct JT' as [G|JT']; [exact G|].
    assert (BUSY : forall k, J2 k -> ac_pc (acc k) <> HpAccept).
    { intros k (L2 & (N & W) & M) PC. destruct (helpful _ (CLEAN k) W) as (_ & P & _).
      apply P; [rewrite <- H3; apply same_hold; exact M|exact PC|]. apply NEVER. exact L2. }
    assert (TODO : forall k, J2 k -> todo (acc k) <> 0).
    { intros k JK. pose proof (BUSY k JK) as B. pose proof (cl_pc _ _ _ (CLEAN k)) as C. unfold todo. destruct (ac_pc (acc k)); congruence. }
    assert (ST2 : forall k, J2 k -> goal2 \/ (J2 (k + 1) /\ todo (acc (k + 1)) <= todo (acc k))).
    { intros k JK. pose proof (TODO k JK) as T. destruct JK as (L2 & JK & M).
      destruct (STEP k (proj1 JK)) as [G|(_ & X)]; [left; left; exact G|].
      destruct (j_step k JK) as [G|(J1 & M1)]; [left; left; exact G|].
      destruct (Nat.eq_dec (mu (k + 1)) (mu t)) as [E|E]; [|left; right; exists (k + 1); split; [lia|]; split; [exact J1|lia]].
      right. split; [split; [lia|]; split; assumption|].
      destruct X as [X|(ev & ST & NF & _)]; [rewrite X; lia|]. apply (todo_step _ _ _ (CLEAN k) ST NF T). }
    assert (LOOP : forall m k, J2 k -> todo (acc k) < m -> goal2).
    { induction m as [|m IH]; intros k JK LT; [lia|].
      destruct (wait_for J2 goal2 (fun k => todo (acc k)) (happens has_udp acc AeTask) (impossible has_udp acc AeTask) k ST2) as [G|(k2 & _ & J' & LT2)].
      - intros j JJ _ D. destruct JJ as (L2 & (N & W) & M) eqn:EJ. clear EJ. destruct (helpful _ (CLEAN j) W) as (_ & _ & P).
        apply P; [right; apply BUSY; split; [exact L2|]; split; [split; assumption|exact M]|exact D].
      - intros j JJ E HP. right. pose proof (TODO j JJ) as T. rewrite <- E. apply (todo_step _ _ _ (CLEAN j) HP Logic.I T). reflexivity.
      - apply TASK.
      - exact JK.
      - exact G.
      - apply (IH k2 J'). lia. }
    exact (LOOP _ t' JT' (Nat.lt_succ_diag_r _)).
Qed.

Lemma session_comes : forall t, J t -> goal.
Proof.
  assert (G : forall m t, J t -> mu t < m -> goal).
  { induction m as [|m IH]; intros t JT LT; [lia|].
    assert (X : goal \/ exists k, t <= k /\ J k /\ mu k < mu t).
    { pose proof FAIR as [KER TASK SEL]. pose proof (hold_range (acc t)) as R.
      destruct (Nat.eq_dec (hold (acc t)) 4) as [H|H].
      - apply (helped t (AeTcp None) JT KER Logic.I).
        + intros k (N & W) E. apply (helpful _ (CLEAN k) W). congruence.
        + intros k s' (N & W) E ST NS. destruct (away_step _ _ _ (CLEAN k) ST Logic.I NS W) as (_ & _ & D & _). apply D; [congruence|reflexivity].
      - destruct (Nat.eq_dec (hold (acc t)) 3) as [H3|H3]; [apply selected; assumption|].
        apply (helped t AeTask JT TASK Logic.I).
        + intros k (N & W) E. apply (helpful _ (CLEAN k) W). left. lia.
        + intros k s' (N & W) E ST NS. destruct (away_step _ _ _ (CLEAN k) ST Logic.I NS W) as (_ & _ & _ & _ & D). apply D; [lia|reflexivity]. }
    destruct X as [X|(k & _ & JK & L)]; [exact X|]. apply (IH k JK). lia. }
  intros t JT. exact (G _ t JT (Nat.lt_succ_diag_r _)).
Qed.
End Eventually.
End Queue.

(** *** The whole system *)

Section System.
Variable mac : list byte -> list byte -> list byte.
Variable sc conf : config.
Variable c : chain_name.
Variable has_udp : bool.
Variable here : sockaddr.
Variable num : N.
Hypothesis NUM : (1 <= num)%N.

Lemma rush_prefix : forall r0 at_ own, execution (rush_step mac sc conf c has_udp here) r0 at_ own -> forall k,
  rush_steps mac sc conf c has_udp here (done own k) r0 (at_ k).
Proof.
  intros r0 at_ own [E0 EN] k. induction k as [|k IH]; [rewrite E0; constructor|].
  cbn. specialize (EN k). rewrite Nat.add_1_r in EN. destruct EN as [ST|(O & ->)]; [econstructor; eassumption|].
  rewrite O, Nat.add_0_r. exact IH.
Qed.

Lemma byte_prefix : forall s0 at_ own, execution (byte_step conf c) s0 at_ own -> forall k,
  byte_steps conf c (done own k) s0 (at_ k).
Proof.
  intros s0 at_ own [E0 EN] k. induction k as [|k IH]; [rewrite E0; constructor|].
  cbn. specialize (EN k). rewrite Nat.add_1_r in EN. destruct EN as [ST|(O & ->)]; [econstructor; eassumption|].
  rewrite O, Nat.add_0_r. exact IH.
Qed.

Lemma full_prefix : forall s0 at_ own, execution (full_step conf c) s0 at_ own -> forall k,
  full_steps conf c (done own k) s0 (at_ k).
Proof.
  intros s0 at_ own [E0 EN] k. induction k as [|k IH]; [rewrite E0; constructor|].
  cbn. specialize (EN k). rewrite Nat.add_1_r in EN. destruct EN as [ST|(O & ->)]; [econstructor; eassumption|].
  rewrite O, Nat.add_0_r. exact IH.
Qed.

Lemma name_kept : forall i r r', rush_step mac sc conf c has_udp here i r r' -> ru_name r <> None -> ru_name r' <> None.
Proof. intros i r r' ST. inversion ST; subst; cbn; auto; discriminate. Qed.

(** A connection in the queue gets its session once and for all. *)
Lemma rush_waits_no_longer : forall r0 at_ own, execution (rush_step mac sc conf c has_udp here) r0 at_ own ->
  inv here num r0 -> accepts_fairly has_udp (fun k => ru_acc (at_ k)) ->
  forall t, ru_name (at_ t) = None /\ In here (waiting_tcp (ru_acc (at_ t))) ->
  exists k, t <= k /\ forall j, k <= j -> ~ (ru_name (at_ j) = None /\ In here (waiting_tcp (ru_acc (at_ j)))).
Proof.
  intros r0 at_ own EX V0 FAIR t W.
  assert (CL : forall k, clean true num (ru_acc (at_ k))).
  { intros k. apply (in_clean here num). apply (inv_run mac sc conf c has_udp here num NUM _ _ _ (rush_prefix _ _ _ EX k) V0). }
  assert (G : exists k, ru_name (at_ k) <> None).
  { apply (session_comes has_udp here num NUM (fun k => ru_acc (at_ k)) (fun k => ru_name (at_ k) = None) FAIR CL
             (exists k, ru_name (at_ k) <> None)) with (t := t); [|exact W].
    intros k N. destruct (ex_next _ _ _ _ EX k) as [ST|(_ & ->)]; [|right; auto].
    inversion ST as [acc name s s' a port kk acc' EC BS EC' AS E1 E2 E3|acc name j s s' BS NC E1 E2 E3|acc s ev acc' name AS SS E1 E2 E3|acc name s ev acc' AS NS OE E1 E2 E3];
      rewrite <- E2 in N; cbn [ru_name] in N.
    - right. cbn. split; [exact N|]. right. exists (AeArrive here). split; [exact AS|]. split; [exact Logic.I|]. intros (_ & X). discriminate X.
    - right. cbn. auto.
    - left. exists (k + 1). rewrite <- E3. discriminate.
    - right. cbn. split; [exact N|]. right. exists ev. split; [exact AS|]. split; [apply OE|exact NS]. }
  destruct G as (k0 & G).
  assert (KEEP : forall d, ru_name (at_ (k0 + d)) <> None).
  { induction d as [|d IH]; [rewrite Nat.add_0_r; exact G|]. replace (k0 + S d) with (k0 + d + 1) by lia.
    destruct (ex_next _ _ _ _ EX (k0 + d)) as [ST|(_ & ->)]; [eapply name_kept; eassumption|exact IH]. }
  exists (Nat.max t k0). split; [lia|]. intros j L (N & _). apply (KEEP (j - k0)). replace (k0 + (j - k0)) with j by lia. exact N.
Qed.

(** *** A finite execution and then nothing *)

Lemma then_idle : forall n r r', rush_steps mac sc conf c has_udp here n r r' ->
  exists at_ own len, execution (rush_step mac sc conf c has_udp here) r at_ own
    /\ (forall k, len <= k -> at_ k = r' /\ own k = 0)
    /\ (forall k, exists m, rush_steps mac sc conf c has_udp here m (at_ k) r').
Proof.
  intros n r r' R. induction R as [r|n i r r1 r2 R IH ST].
  - exists (fun _ => r), (fun _ => 0), 0. split; [constructor; auto|]. split; [auto|]. intros k. exists 0. constructor.
  - destruct IH as (at_ & own & len & [E0 EN] & IDLE & REST).
    exists (fun k => if k <=? len then at_ k else r2), (fun k => if k <? len then own k else if k =? len then i else 0), (len + 1).
    split; [constructor|split].
    + cbn. exact E0.
    + intros k. destruct (Nat.ltb_spec k len) as [L|L].
      * rewrite (proj2 (Nat.leb_le k len)), (proj2 (Nat.leb_le (k + 1) len)) by lia. apply EN.
      * destruct (Nat.eqb_spec k len) as [->|N].
        -- rewrite Nat.leb_refl, (proj2 (Nat.leb_gt (len + 1) len)) by lia. left. destruct (IDLE len (le_n _)) as (-> & _). exact ST.
        -- rewrite !(proj2 (Nat.leb_gt _ len)) by lia. right. auto.
    + intros k L. rewrite (proj2 (Nat.leb_gt k len)), (proj2 (Nat.ltb_ge k len)), (proj2 (Nat.eqb_neq k len)) by lia. auto.
    + intros k. destruct (Nat.leb_spec k len) as [L|L]; [|exists 0; constructor].
      destruct (REST k) as (m & X). exists (m + i). econstructor; eassumption.
Qed.

Lemma byte_hist : forall i s s', byte_step conf c i s s' -> exists x, sb_hist s' = sb_hist s ++ x.
Proof.
  intros i s s' ST. inversion ST; subst; cbn; try (exists []; rewrite app_nil_r; reflexivity); eexists; reflexivity.
Qed.

Lemma rush_hist : forall n r r', rush_steps mac sc conf c has_udp here n r r' ->
  exists x, sb_hist (ru_streams r') = sb_hist (ru_streams r) ++ x.
Proof.
  intros n r r' R. induction R as [r|n i r r1 r2 R (x & IH) ST]; [exists []; rewrite app_nil_r; reflexivity|].
  assert (X : exists y, sb_hist (ru_streams r2) = sb_hist (ru_streams r1) ++ y).
  { inversion ST; subst; cbn; try (exists []; rewrite app_nil_r; reflexivity); eapply byte_hist; eassumption. }
  destruct X as (y & X). exists (x ++ y). rewrite X, IH, app_assoc. reflexivity.
Qed.

Lemma monotone_prefix : forall a b, clock_monotone (a ++ b) -> clock_monotone a.
Proof.
  intros a b M p x q y r t u E. intros A B. eapply (M p x q y (r ++ b) t u); [rewrite E, <- !app_assoc; cbn; rewrite <- app_assoc; reflexivity|exact A|exact B].
Qed.

(** What remains in letmeinfwd's reply is written. *)
Lemma flush : forall s, exists m s', byte_steps conf c m s s' /\ sb_dout s' = None /\ sb_hist s' = sb_hist s
  /\ sb_client s' = sb_client s /\ sb_server s' = sb_server s /\ sb_request s' = sb_request s /\ sb_din s' = sb_din s
  /\ sb_daemon s' = sb_daemon s /\ sb_cout s' = sb_cout s /\ sb_sout s' = sb_sout s.
Proof.
  intros [cl co ci p so si d h do_ di up dn rq rp]. destruct do_ as [y|].
  - exists (0 + (match y with [] => 0 | _ => 1 end) + 1), (Streams cl co ci p so si d h None di up dn rq (rp ++ y)).
    split; [|cbn; repeat split; reflexivity]. econstructor; [|apply bs_dsent]. destruct y as [|a y].
    + rewrite app_nil_r. constructor.
    + econstructor; [constructor|]. rewrite <- (app_nil_r (a :: y)) at 1. apply bs_dwrite. discriminate.
  - exists 0, (Streams cl co ci p so si d h None di up dn rq rp). split; [constructor|cbn; repeat split; reflexivity].
Qed.

Lemma over : forall s r1 r2 s', sb_client s = CRet r1 -> sb_server s = SRet r2 -> sb_dout s = None -> sb_request s = [] ->
  ~ byte_step conf c 1 s s'.
Proof.
  intros s r1 r2 s' EC ES ED ER ST. inversion ST; subst; cbn in EC, ES, ED, ER; try discriminate;
    match goal with H : ?x <> [], E : ?x ++ _ = [] |- _ => destruct x; [contradiction|discriminate E] end.
Qed.

(** letmeind accepts everybody who waits. *)
Lemma drain_all : forall m s, clean true num s -> weight s = m ->
  exists h s', Forall own_step h /\ arun true has_udp s h = Some s' /\ weight s' = 0.
Proof.
  induction m as [|m IH]; intros s CL W.
  - exists [], s. split; [constructor|]. split; [reflexivity|exact W].
  - destruct (not_stuck true has_udp num s CL NUM) as (ev & s1 & O & E); [lia|].
    pose proof (weight_step true has_udp num _ _ _ CL O E) as WS.
    destruct (IH s1 (clean_step _ _ _ _ _ _ CL (own_no_failure _ O) E)) as (h & s' & F & R & Z); [lia|].
    exists (ev :: h), s'. split; [constructor; assumption|]. split; [cbn; rewrite E; exact R|exact Z].
Qed.

Lemma own_rush_named : forall h r acc' n, inv here num r -> ru_name r = Some n ->
  Forall own_step h -> arun true has_udp (ru_acc r) h = Some acc' ->
  rush_steps mac sc conf c has_udp here 0 r (Rush acc' (Some n) (ru_streams r)).
Proof.
  induction h as [|ev h IH] using rev_ind; intros r acc' n V N F R.
  - injection R as <-. destruct r as [a b s]. cbn in *. subst b. constructor.
  - apply arun_snoc in R. destruct R as (a1 & R & ST). apply Forall_app in F. destruct F as (F & G). inversion G as [|? ? OW]; subst.
    pose proof (own_no_failure _ OW) as NF. pose proof (IH r a1 n V N F R) as B.
    destruct (inv_run mac sc conf c has_udp here num NUM _ _ _ B V) as (_ & [P _ _]). cbn in P.
    change 0 with (0 + 0). econstructor; [exact B|]. apply rs_accept with (ev := ev); [exact ST| |].
    + intros (PC & ->). unfold spot in P. cbn in P. inversion P as [| |cl0 n0 p0 up0 T NI NT]; subst.
      apply NI. unfold waiting_tcp, in_hand. rewrite PC. cbn. left. reflexivity.
    + split; [exact NF|]. destruct ev; cbn in *; auto; contradiction.
Qed.

(** Nothing is left to do. *)
Lemma rest_fair : forall at_ own len r, execution (rush_step mac sc conf c has_udp here) (at_ 0) at_ own ->
  (forall k, len <= k -> at_ k = r /\ own k = 0) ->
  (forall s', ~ byte_step conf c 1 (ru_streams r) s') -> clean true num (ru_acc r) -> weight (ru_acc r) = 0 ->
  knock_fair (rush_step mac sc conf c has_udp here) (fun r => sb_hist (ru_streams r)) at_ own
  /\ accepts_fairly has_udp (fun k => ru_acc (at_ k)).
Proof.
  intros at_ own len r EX IDLE OVER CL W.
  assert (I1 : astep true has_udp (ru_acc r) (AeTcp None) = None).
  { unfold weight in W. unfold astep. rewrite (cl_exit _ _ _ CL). destruct (ac_tcp (ru_acc r)); [|reflexivity].
    destruct (ac_backlog (ru_acc r)); [reflexivity|cbn in W; lia]. }
  assert (I2 : astep true has_udp (ru_acc r) AeTask = None).
  { unfold weight in W. unfold astep. rewrite (cl_exit _ _ _ CL). destruct (ac_pc (ru_acc r)); try reflexivity; lia. }
  assert (I3 : astep true has_udp (ru_acc r) (AeSelect true true) = None).
  { unfold weight, in_join in W. unfold astep. rewrite (cl_exit _ _ _ CL).
    destruct (ac_tcp (ru_acc r)) as [|x] eqn:ET; [destruct (ac_pc (ru_acc r)); reflexivity|].
    destruct (cl_tcp _ _ _ CL x ET) as (a & ->). cbn in W. lia. }
  split; [|constructor].
  - intros t. exists (Nat.max t len). split; [lia|]. right. destruct (IDLE (Nat.max t len) ltac:(lia)) as (-> & _).
    intros (r' & ST & _). inversion ST; subst; cbn in OVER; eapply OVER; eassumption.
  - intros t. exists (Nat.max t len). split; [lia|]. right. unfold impossible. destruct (IDLE (Nat.max t len) ltac:(lia)) as (-> & _). exact I1.
  - intros t. exists (Nat.max t len). split; [lia|]. right. unfold impossible. destruct (IDLE (Nat.max t len) ltac:(lia)) as (-> & _). exact I2.
  - intros t. right. exists (Nat.max t len). split; [lia|]. intros k L. unfold impossible. destruct (IDLE k ltac:(lia)) as (-> & _). exact I3.
Qed.

End System.
