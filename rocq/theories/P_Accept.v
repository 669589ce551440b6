(** Proofs about the accepting tasks of letmeind. *)

From Coq Require Import String ZArith NArith List Bool Lia ZifyBool ZifyNat ZifyN.
From Verif Require Import M_Base M_IpAddr M_Udp M_Daemon M_Accept S_Accept P_Base P_Daemon.
Import ListNotations.
Local Open Scope N_scope.

Section Accept.
Variable has_tcp has_udp : bool.
Local Notation step := (astep has_tcp has_udp).
Local Notation run := (arun has_tcp has_udp).

Lemma arun_app : forall a s b, run s (a ++ b) = match run s a with Some s1 => run s1 b | None => None end.
Proof. induction a as [|e a IH]; intros s b; [reflexivity|]. cbn. destruct (step s e); [apply IH|reflexivity]. Qed.

Lemma arun_snoc : forall s h ev s', run s (h ++ [ev]) = Some s' ->
  exists s1, run s h = Some s1 /\ step s1 ev = Some s'.
Proof.
  intros s h ev s' R. rewrite arun_app in R. destruct (run s h) as [s1|]; [|discriminate]. exists s1. split; [reflexivity|].
  cbn in R. destruct (step s1 ev); [exact R|discriminate].
Qed.

(** *** The same as a history of M_Daemon *)

Definition absd (s : acceptor) : daemon :=
  let n := N.of_nat (length (ac_started s)) in
  Daemon (match ac_pc s with
          | HpAccept => PcAccept | HpAcquire _ => PcAcquire n | HpHold _ => PcHold n
          | HpDrop => PcDrop | HpEnd => PcEnd
          end)
         (ac_permits s) (ac_live s)
         (match ac_pc s with HpAcquire _ | HpHold _ => n + 1 | _ => n end)
         (ac_chan s) (ac_exit s).

Definition dev (s : acceptor) (ev : aevent) : list devent :=
  match ev with
  | AeSelect tcp ok =>
      match (if tcp then ac_tcp s else ac_udp s) with
      | JnDone r => [EvAccept (match new_connection tcp ok r with Ok _ => Ok tt | Err e => Err e | Panic => Panic end)]
      | JnWait => []
      end
  | AeTask => [EvTask]
  | AeFinish c => [EvFinish c (Ok tt)]
  | AeTerm => [EvTerm] | AeInt => [EvInt] | AeHup => [EvHup] | AeChannel => [EvChannel]
  | _ => []
  end.

Ltac cases ST :=
  unfold astep in ST;
  match type of ST with match ac_exit ?s with _ => _ end = _ => destruct (ac_exit s) as [xx|] eqn:EX; [discriminate ST|] end.

Lemma refine : forall s ev s', step s ev = Some s' -> drun (absd s) (dev s ev) = Some (absd s').
Proof.
  intros [b t u pc pm st lv ch ex] ev s' ST. cases ST. cbn in EX. subst ex. unfold absd, dev, drun, dstep.
  destruct ev as [a|e|r|tcp ok| |c| | | |]; cbn in *.
  - destruct has_tcp; [|discriminate]. injection ST as <-. reflexivity.
  - destruct has_tcp, t, e, b; try discriminate; injection ST as <-; reflexivity.
  - destruct has_udp, u, r; try discriminate; injection ST as <-; reflexivity.
  - destruct pc, (if tcp then t else u) as [|r]; try discriminate.
    destruct (new_connection tcp ok r) as [c|e|]; [| |discriminate]; injection ST as <-; reflexivity.
  - destruct pc as [|c|c| |]; try discriminate.
    + destruct (pm =? 0); [discriminate|]. injection ST as <-. reflexivity.
    + injection ST as <-. cbn. rewrite app_length. cbn. repeat f_equal. lia.
    + injection ST as <-. reflexivity.
  - destruct (existsb (N.eqb c) lv); [|discriminate]. injection ST as <-. reflexivity.
  - injection ST as <-. reflexivity.
  - injection ST as <-. reflexivity.
  - injection ST as <-. reflexivity.
  - destruct ch; [discriminate|]. injection ST as <-. reflexivity.
Qed.

(** The history of M_Daemon, with the origin of each of its events. *)
Lemma refine_run : forall num h s, run (acceptor_start num) h = Some s ->
  exists h1, drun (daemon_start num) h1 = Some (absd s)
    /\ (In EvTerm h1 -> In AeTerm h) /\ (In EvInt h1 -> In AeInt h) /\ (forall r, ~ In (EvMaintain r) h1)
    /\ (forall e, In (EvAccept (Err e)) h1 ->
          In (AeTcp (Some e)) h \/ In (AeUdp (Err e)) h \/ (e = "Set TCP_NODELAY"%string /\ In (AeSelect true false) h))
    /\ (forall e, ac_tcp s = JnDone (Err e) -> In (AeTcp (Some e)) h)
    /\ (forall e, ac_udp s = JnDone (Err e) -> In (AeUdp (Err e)) h).
Proof.
  intros num h. induction h as [|ev h IH] using rev_ind; intros s R.
  - injection R as <-. exists []. split; [reflexivity|]. cbn. repeat split; intros; try contradiction; try discriminate; auto.
  - apply arun_snoc in R. destruct R as (s1 & R & ST).
    destruct (IH s1 R) as (h1 & D & T & I & MN & A & JT & JU). clear IH.
    exists (h1 ++ dev s1 ev). rewrite drun_app, D. split; [apply refine; exact ST|].
    assert (OLD : forall x, In x h -> In x (h ++ [ev])) by (intros; apply in_or_app; auto).
    assert (NEW : In ev (h ++ [ev])) by (apply in_or_app; right; left; reflexivity).
    split; [|split; [|split; [|split]]].
    + intros J. apply in_app_or in J. destruct J as [J|J]; [auto|]. unfold dev in J.
      destruct ev as [a|e|r|tcp ok| |c| | | |]; cbn in J; try (destruct J as [J|[]]; discriminate J); try contradiction; auto.
      destruct (if tcp then ac_tcp s1 else ac_udp s1); [contradiction|destruct J as [J|[]]; discriminate J].
    + intros J. apply in_app_or in J. destruct J as [J|J]; [auto|]. unfold dev in J.
      destruct ev as [a|e|r|tcp ok| |c| | | |]; cbn in J; try (destruct J as [J|[]]; discriminate J); try contradiction; auto.
      destruct (if tcp then ac_tcp s1 else ac_udp s1); [contradiction|destruct J as [J|[]]; discriminate J].
    + intros r J. apply in_app_or in J. destruct J as [J|J]; [eapply MN; exact J|]. unfold dev in J.
      destruct ev as [a|e|r0|tcp ok| |c| | | |]; cbn in J; try (destruct J as [J|[]]; discriminate J); try contradiction.
      destruct (if tcp then ac_tcp s1 else ac_udp s1); [contradiction|destruct J as [J|[]]; discriminate J].
    + intros e J. apply in_app_or in J. destruct J as [J|J].
      { destruct (A e J) as [X|[X|(X & Y)]]; auto. }
      unfold dev in J. destruct ev as [a|e0|r|tcp ok| |c| | | |]; cbn in J; try (destruct J as [J|[]]; discriminate J); try contradiction.
      destruct (if tcp then ac_tcp s1 else ac_udp s1) as [|r] eqn:EJ; [contradiction|]. destruct J as [J|[]]. injection J as J.
      destruct r as [a|e1|]; cbn in J; [|injection J as <-|discriminate].
      * destruct (tcp && negb ok) eqn:TN; [|discriminate]. injection J as <-. apply andb_prop in TN. destruct TN as (-> & TN).
        destruct ok; [discriminate|]. auto.
      * destruct tcp; auto.
    + cases ST. split; intros e J; destruct ev as [a|e0|r|tcp ok| |c| | | |].
      * destruct has_tcp; [|discriminate]. injection ST as <-. auto.
      * destruct has_tcp, (ac_tcp s1), e0, (ac_backlog s1); try discriminate; injection ST as <-; cbn in J; try discriminate J; injection J as ->; exact NEW.
      * destruct has_udp, (ac_udp s1), r; try discriminate; injection ST as <-; auto.
      * destruct (ac_pc s1), (if tcp then ac_tcp s1 else ac_udp s1); try discriminate. destruct (new_connection tcp ok r); [| |discriminate];
          injection ST as <-; cbn in J; destruct tcp; try discriminate; auto.
      * destruct (ac_pc s1); try discriminate; [destruct (ac_permits s1 =? 0); [discriminate|]| |]; injection ST as <-; auto.
      * destruct (existsb _ _); [|discriminate]. injection ST as <-. auto.
      * injection ST as <-. auto.
      * injection ST as <-. auto.
      * injection ST as <-. auto.
      * destruct (ac_chan s1); [discriminate|]. injection ST as <-. auto.
      * destruct has_tcp; [|discriminate]. injection ST as <-. auto.
      * destruct has_tcp, (ac_tcp s1), e0, (ac_backlog s1); try discriminate; injection ST as <-; auto.
      * destruct has_udp, (ac_udp s1), r; try discriminate; injection ST as <-; cbn in J; try discriminate. injection J as ->. exact NEW.
      * destruct (ac_pc s1), (if tcp then ac_tcp s1 else ac_udp s1); try discriminate. destruct (new_connection tcp ok r); [| |discriminate];
          injection ST as <-; cbn in J; destruct tcp; try discriminate; auto.
      * destruct (ac_pc s1); try discriminate; [destruct (ac_permits s1 =? 0); [discriminate|]| |]; injection ST as <-; auto.
      * destruct (existsb _ _); [|discriminate]. injection ST as <-. auto.
      * injection ST as <-. auto.
      * injection ST as <-. auto.
      * injection ST as <-. auto.
      * destruct (ac_chan s1); [discriminate|]. injection ST as <-. auto.
Qed.

(** *** No connection is lost, duplicated or mixed up *)

Lemma started_snoc : forall tcp c st, map co_peer (filter (fun c => Bool.eqb (co_tcp c) tcp) (st ++ [c]))
  = map co_peer (filter (fun c => Bool.eqb (co_tcp c) tcp) st) ++ (if Bool.eqb (co_tcp c) tcp then [co_peer c] else []).
Proof.
  intros tcp c st. rewrite filter_app, map_app. f_equal. cbn. destruct (Bool.eqb (co_tcp c) tcp); reflexivity.
Qed.

(** What one step does to the queues. *)
Definition dropping (s : acceptor) (ev : aevent) : list sockaddr :=
  match ev with AeSelect true false => in_join (ac_tcp s) | _ => [] end.

Lemma queue_step : forall s ev s', step s ev = Some s' ->
  started true s ++ waiting_tcp s ++ tcp_arrivals [ev] = started true s' ++ dropping s ev ++ waiting_tcp s'
  /\ started false s ++ waiting_udp s ++ udp_arrivals [ev] = started false s' ++ waiting_udp s'
  /\ (dropping s ev <> [] -> ac_pc s' = HpEnd)
  /\ (ac_pc s = HpEnd -> ac_pc s' = HpEnd /\ dropping s ev = []).
Proof.
  intros [b t u pc pm st lv ch ex] ev s' ST. cases ST. cbn in EX. subst ex.
  unfold started, waiting_tcp, waiting_udp, dropping, in_hand, in_join, tcp_arrivals, udp_arrivals.
  destruct ev as [a|e|r|tcp ok| |c| | | |]; cbn in *.
  - destruct has_tcp; [|discriminate]. injection ST as <-. cbn. rewrite !app_nil_r, <- !app_assoc. repeat split; auto; congruence.
  - destruct has_tcp, t, e, b; try discriminate; injection ST as <-; cbn; rewrite ?app_nil_r; repeat split; auto; congruence.
  - destruct has_udp, u, r; try discriminate; injection ST as <-; cbn; rewrite ?app_nil_r; repeat split; auto; congruence.
  - destruct pc; try discriminate. destruct tcp.
    + destruct t as [|[a|e|]]; try discriminate.
      * destruct ok; cbn in ST; injection ST as <-; cbn; rewrite ?app_nil_r; repeat split; auto; congruence.
      * cbn in ST. injection ST as <-. cbn. rewrite ?app_nil_r. destruct ok; repeat split; auto; congruence.
    + destruct u as [|[a|e|]]; try discriminate; cbn in ST; injection ST as <-; cbn; rewrite ?app_nil_r; repeat split; auto; congruence.
  - destruct pc as [|c|c| |]; try discriminate.
    + destruct (pm =? 0); [discriminate|]. injection ST as <-. cbn. rewrite ?app_nil_r. repeat split; auto; congruence.
    + injection ST as <-. cbn. rewrite !started_snoc, ?app_nil_r, <- ?app_assoc. repeat split; auto; congruence.
    + injection ST as <-. cbn. rewrite ?app_nil_r. repeat split; auto; congruence.
  - destruct (existsb (N.eqb c) lv); [|discriminate]. injection ST as <-. cbn. rewrite ?app_nil_r. repeat split; auto; congruence.
  - injection ST as <-. cbn. rewrite ?app_nil_r. repeat split; auto; congruence.
  - injection ST as <-. cbn. rewrite ?app_nil_r. repeat split; auto; congruence.
  - injection ST as <-. cbn. rewrite ?app_nil_r. repeat split; auto; congruence.
  - destruct ch; [discriminate|]. injection ST as <-. cbn. rewrite ?app_nil_r. repeat split; auto; congruence.
Qed.

Lemma waiting_grows : forall s ev s', step s ev = Some s' -> dropping s ev = [] ->
  exists x, started true s' = started true s ++ x /\ x ++ waiting_tcp s' = waiting_tcp s ++ tcp_arrivals [ev].
Proof.
  intros [b t u pc pm st lv ch ex] ev s' ST DR. pose proof (queue_step _ _ _ ST) as (Q & _). rewrite DR in Q. cbn [app] in Q.
  assert (E : exists x, started true s' = started true (Acceptor b t u pc pm st lv ch ex) ++ x).
  { cases ST. cbn in EX. subst ex. unfold started. cbn in *.
    destruct ev as [a|e|r|tcp ok| |c| | | |]; cbn in *.
    - destruct has_tcp; [|discriminate]. injection ST as <-. exists []. rewrite app_nil_r. reflexivity.
    - destruct has_tcp, t, e, b; try discriminate; injection ST as <-; exists []; rewrite app_nil_r; reflexivity.
    - destruct has_udp, u, r; try discriminate; injection ST as <-; exists []; rewrite app_nil_r; reflexivity.
    - destruct pc, (if tcp then t else u) as [|r]; try discriminate.
      destruct (new_connection tcp ok r) as [c|e|]; [| |discriminate]; injection ST as <-; exists []; rewrite app_nil_r; reflexivity.
    - destruct pc as [|c|c| |]; try discriminate.
      + destruct (pm =? 0); [discriminate|]. injection ST as <-. exists []. rewrite app_nil_r. reflexivity.
      + injection ST as <-. cbn. rewrite started_snoc. eexists. reflexivity.
      + injection ST as <-. exists []. rewrite app_nil_r. reflexivity.
    - destruct (existsb (N.eqb c) lv); [|discriminate]. injection ST as <-. exists []. rewrite app_nil_r. reflexivity.
    - injection ST as <-. exists []. rewrite app_nil_r. reflexivity.
    - injection ST as <-. exists []. rewrite app_nil_r. reflexivity.
    - injection ST as <-. exists []. rewrite app_nil_r. reflexivity.
    - destruct ch; [discriminate|]. injection ST as <-. exists []. rewrite app_nil_r. reflexivity. }
  destruct E as (x & E). exists x. split; [exact E|]. rewrite E, <- app_assoc in Q. apply app_inv_head in Q. symmetry. exact Q.
Qed.

Lemma arrivals_app : forall a b, tcp_arrivals (a ++ b) = tcp_arrivals a ++ tcp_arrivals b.
Proof. intros. apply flat_map_app. Qed.
Lemma arrivals_app_udp : forall a b, udp_arrivals (a ++ b) = udp_arrivals a ++ udp_arrivals b.
Proof. intros. apply flat_map_app. Qed.

Lemma queues : forall num h s, run (acceptor_start num) h = Some s ->
  exists dropped, tcp_arrivals h = started true s ++ dropped ++ waiting_tcp s
    /\ udp_arrivals h = started false s ++ waiting_udp s
    /\ (length dropped <= 1)%nat
    /\ (dropped <> [] -> ac_pc s = HpEnd /\ In (AeSelect true false) h).
Proof.
  intros num h. induction h as [|ev h IH] using rev_ind; intros s R.
  - injection R as <-. exists []. cbn. repeat split; auto; congruence.
  - apply arun_snoc in R. destruct R as (s1 & R & ST). destruct (IH s1 R) as (dr & A & U & L & D).
    pose proof (queue_step _ _ _ ST) as (QT & QU & QD & QE). rewrite arrivals_app, arrivals_app_udp, A, U.
    destruct dr as [|x dr].
    + exists (dropping s1 ev). cbn [app]. rewrite <- !app_assoc. split; [exact QT|]. split; [exact QU|]. split.
      * unfold dropping. destruct ev as [| | |[|] [|]| | | | | |]; cbn; try lia. unfold in_join. destruct (ac_tcp s1) as [|[]]; cbn; lia.
      * intros X. split; [auto|]. unfold dropping in X. destruct ev as [| | |[|] [|]| | | | | |]; try congruence.
        apply in_or_app. right. left. reflexivity.
    + destruct (D ltac:(discriminate)) as (E & I). destruct (QE E) as (E' & Z).
      pose proof (waiting_grows _ _ _ ST Z) as (y & G & W).
      assert (y = []) as ->.
      { clear - ST E G. cases ST. unfold started in G.
        assert (EQ : ac_started s = ac_started s1).
        { destruct ev as [a|e|r|tcp ok| |c| | | |].
          - destruct has_tcp; [|discriminate]. injection ST as <-. reflexivity.
          - destruct has_tcp, (ac_tcp s1), e, (ac_backlog s1); try discriminate; injection ST as <-; reflexivity.
          - destruct has_udp, (ac_udp s1), r; try discriminate; injection ST as <-; reflexivity.
          - rewrite E in ST. discriminate.
          - rewrite E in ST. discriminate.
          - destruct (existsb _ _); [|discriminate]. injection ST as <-. reflexivity.
          - injection ST as <-. reflexivity.
          - injection ST as <-. reflexivity.
          - injection ST as <-. reflexivity.
          - destruct (ac_chan s1); [discriminate|]. injection ST as <-. reflexivity. }
        rewrite EQ in G. rewrite <- (app_nil_r (map co_peer _)) in G at 1. apply app_inv_head in G. symmetry. exact G. }
      cbn [app] in W. rewrite app_nil_r in G. exists (x :: dr). rewrite G, W, <- !app_assoc. cbn [app].
      split; [reflexivity|]. split; [exact QU|]. split; [exact L|]. intros _. split; [exact E'|]. apply in_or_app. auto.
Qed.

(** *** Which handlers run *)

Lemma live_step : forall s ev s', step s ev = Some s' -> forall c,
  (In c (ac_live s') <-> (In c (ac_live s) /\ ev <> AeFinish c)
                         \/ (c = N.of_nat (length (ac_started s)) /\ (length (ac_started s) < length (ac_started s'))%nat))
  /\ (length (ac_started s) <= length (ac_started s') <= length (ac_started s) + 1)%nat
  /\ (ev = AeFinish c -> In c (ac_live s)).
Proof.
  intros [b t u pc pm st lv ch ex] ev s' ST c. cases ST. cbn in EX. subst ex.
  assert (SAME : forall l : list N, (In c l <-> (In c l /\ ev <> AeFinish c) \/ (c = N.of_nat (length st) /\ (length st < length st)%nat))
    \/ ev = AeFinish c).
  { intros l. destruct ev as [a|e|r|tcp ok| |x| | | |]; try (left; split; [intros I; left; split; [exact I|discriminate]|intros [(I & _)|(_ & X)]; [exact I|lia]]).
    destruct (N.eq_dec x c) as [->|N]; [right; reflexivity|]. left. split; [intros I; left; split; [exact I|congruence]|intros [(I & _)|(_ & X)]; [exact I|lia]]. }
  destruct ev as [a|e|r|tcp ok| |x| | | |]; cbn in *.
  - destruct (SAME lv) as [E|E]; [|discriminate E]. destruct has_tcp; [|discriminate]. injection ST as <-. cbn. split; [exact E|]. split; [lia|discriminate].
  - destruct (SAME lv) as [E|E]; [|discriminate E]. destruct has_tcp, t, e, b; try discriminate; injection ST as <-; cbn; (split; [exact E|]); (split; [lia|discriminate]).
  - destruct (SAME lv) as [E|E]; [|discriminate E]. destruct has_udp, u, r; try discriminate; injection ST as <-; cbn; (split; [exact E|]); (split; [lia|discriminate]).
  - destruct (SAME lv) as [E|E]; [|discriminate E]. destruct pc, (if tcp then t else u) as [|r]; try discriminate.
    destruct (new_connection tcp ok r) as [k|e|]; [| |discriminate]; injection ST as <-; cbn; (split; [exact E|]); (split; [lia|discriminate]).
  - destruct (SAME lv) as [E|E]; [|discriminate E]. destruct pc as [|k|k| |]; try discriminate.
    + destruct (pm =? 0); [discriminate|]. injection ST as <-. cbn. split; [exact E|]. split; [lia|discriminate].
    + injection ST as <-. cbn. rewrite app_length. cbn. split; [|split; [lia|discriminate]].
      rewrite in_app_iff. cbn. split.
      * intros [I|[<-|[]]]; [left; split; [exact I|discriminate]|]. right. split; [reflexivity|lia].
      * intros [(I & _)|(-> & _)]; auto.
    + injection ST as <-. cbn. split; [exact E|]. split; [lia|discriminate].
  - destruct (existsb (N.eqb x) lv) eqn:EB; [|discriminate]. injection ST as <-. cbn. change (filter (fun y => negb (y =? x)) lv) with (remove_conn x lv). rewrite remove_conn_in. split; [|split; [lia|]].
    + split; [intros (I & N); left; split; [exact I|congruence]|]. intros [(I & N)|(_ & X)]; [split; [exact I|congruence]|lia].
    + intros [= ->]. apply existsb_exists in EB. destruct EB as (y & I & Q). apply N.eqb_eq in Q. subst y. exact I.
  - destruct (SAME lv) as [E|E]; [|discriminate E]. injection ST as <-. cbn. split; [exact E|]. split; [lia|discriminate].
  - destruct (SAME lv) as [E|E]; [|discriminate E]. injection ST as <-. cbn. split; [exact E|]. split; [lia|discriminate].
  - destruct (SAME lv) as [E|E]; [|discriminate E]. injection ST as <-. cbn. split; [exact E|]. split; [lia|discriminate].
  - destruct (SAME lv) as [E|E]; [|discriminate E]. destruct ch; [discriminate|]. injection ST as <-. cbn. split; [exact E|]. split; [lia|discriminate].
Qed.

Lemma live_run : forall num h s, run (acceptor_start num) h = Some s -> forall c,
  (In c (ac_live s) <-> (N.to_nat c < length (ac_started s))%nat /\ ~ In (AeFinish c) h)
  /\ (In (AeFinish c) h -> (N.to_nat c < length (ac_started s))%nat).
Proof.
  intros num h. induction h as [|ev h IH] using rev_ind; intros s R c.
  - injection R as <-. cbn. split; [|intros []]. split; [intros []|intros (X & _); lia].
  - apply arun_snoc in R. destruct R as (s1 & R & ST). destruct (IH s1 R c) as (A & B). destruct (live_step _ _ _ ST c) as (L & G & F).
    rewrite in_app_iff. cbn [In]. split.
    + rewrite L, A. split.
      * intros [((X & Y) & N)|(X & Y)].
        -- split; [lia|]. intros [Z|[Z|[]]]; [exact (Y Z)|congruence].
        -- split; [lia|]. intros [Z|[Z|[]]]; [specialize (B Z); lia|]. subst ev. apply A in F; [|reflexivity]. lia.
      * intros (X & Y). destruct (Nat.lt_ge_cases (N.to_nat c) (length (ac_started s1))) as [K|K].
        -- left. split; [split; [exact K|tauto]|]. intros ->. tauto.
        -- right. split; lia.
    + intros [Z|[Z|[]]]; [specialize (B Z); lia|]. subst ev. apply A in F; [|reflexivity]. lia.
Qed.

(** *** Every connection gets its turn *)

Definition weight (s : acceptor) : nat :=
  (5 * length (ac_backlog s) + 4 * length (in_join (ac_tcp s)) + 4 * length (in_join (ac_udp s))
   + match ac_pc s with HpAcquire _ => 3 | HpHold _ => 2 | HpDrop => 1 | _ => 0 end)%nat.

Record clean (num : N) (s : acceptor) : Prop := {
  cl_exit : ac_exit s = None;
  cl_pc : ac_pc s <> HpEnd;
  cl_chan : ac_chan s = [];
  cl_tcp : forall r, ac_tcp s = JnDone r -> exists a, r = Ok a;
  cl_udp : forall r, ac_udp s = JnDone r -> exists a, r = Ok a;
  cl_permits : match ac_pc s with HpHold _ | HpDrop => ac_permits s + 1 = num | _ => ac_permits s = num end;
  cl_backlog : ac_backlog s <> [] -> has_tcp = true
}.

Lemma clean_start : forall num, clean num (acceptor_start num).
Proof. intros num. constructor; cbn; auto; congruence. Qed.

Lemma clean_step : forall num s ev s', clean num s -> no_failure ev -> step s ev = Some s' -> clean num s'.
Proof.
  intros num [b t u pc pm st lv ch ex] ev s' C NF ST. destruct C as [CE CP CC CT CU CM CB]. cbn in *.
  cases ST. clear EX.
  destruct ev as [a|e|r|tcp ok| |c| | | |]; cbn in *; try contradiction.
  - destruct has_tcp eqn:HT; [|discriminate]. injection ST as <-; constructor; cbn; auto; try congruence.
  - destruct has_tcp eqn:HT, t, e, b; try discriminate; try contradiction; injection ST as <-; constructor; cbn; auto; try congruence.
    + intros r [= <-]. eauto.
  - destruct has_udp, u, r; try discriminate; try contradiction; injection ST as <-. constructor; cbn; auto.
    intros r [= <-]. eauto.
  - destruct pc, (if tcp then t else u) as [|r] eqn:EJ; try discriminate.
    assert (exists a, r = Ok a) as (a & ->) by (destruct tcp; [apply CT|apply CU]; exact EJ).
    cbn in ST. destruct tcp, ok; try contradiction; cbn in ST; injection ST as <-; constructor; cbn; auto; congruence.
  - destruct pc as [|c|c| |]; try discriminate.
    + destruct (N.eqb_spec pm 0); [discriminate|]. injection ST as <-. constructor; cbn; auto; [congruence|lia].
    + injection ST as <-. constructor; cbn; auto. congruence.
    + injection ST as <-. constructor; cbn; auto. congruence.
  - destruct (existsb (N.eqb c) lv); [|discriminate]. injection ST as <-. constructor; cbn; auto.
  - injection ST as <-. constructor; cbn; auto.
  - subst ch. discriminate.
Qed.

Lemma clean_run : forall num h s s', clean num s -> Forall no_failure h -> run s h = Some s' -> clean num s'.
Proof.
  intros num h. induction h as [|ev h IH]; intros s s' C F R.
  - injection R as <-. exact C.
  - cbn in R. destruct (step s ev) as [s1|] eqn:E; [|discriminate]. inversion F; subst.
    eapply IH; [eapply clean_step; eauto|assumption|exact R].
Qed.

Lemma own_no_failure : forall ev, own_step ev -> no_failure ev.
Proof. intros [a|[e|]|r|[|] [|]| |c| | | |]; cbn; tauto. Qed.

Lemma weight_step : forall num s ev s', clean num s -> own_step ev -> step s ev = Some s' -> (weight s' + 1 = weight s)%nat.
Proof.
  intros num [b t u pc pm st lv ch ex] ev s' C OW ST. destruct C as [CE CP CC CT CU CM CB]. cbn in *.
  cases ST. clear EX. unfold weight, in_join.
  destruct ev as [a|e|r|tcp ok| |c| | | |]; cbn in *; try contradiction.
  - destruct has_tcp, t, e, b; try discriminate; try contradiction; injection ST as <-. cbn. lia.
  - destruct pc, (if tcp then t else u) as [|r] eqn:EJ; try discriminate.
    assert (exists a, r = Ok a) as (a & ->) by (destruct tcp; [apply CT|apply CU]; exact EJ).
    cbn in ST. destruct ok; [|contradiction]. destruct tcp; cbn in ST; injection ST as <-; subst; cbn; lia.
  - destruct pc as [|c|c| |]; try discriminate.
    + destruct (N.eqb_spec pm 0); [discriminate|]. injection ST as <-. cbn. lia.
    + injection ST as <-. cbn. lia.
    + injection ST as <-. cbn. lia.
Qed.

Lemma weight_run : forall num h s s', clean num s -> Forall own_step h -> run s h = Some s' ->
  (weight s' + length h = weight s)%nat.
Proof.
  intros num h. induction h as [|ev h IH]; intros s s' C F R.
  - injection R as <-. cbn. lia.
  - cbn in R. destruct (step s ev) as [s1|] eqn:E; [|discriminate]. inversion F; subst. cbn [length].
    rewrite <- (weight_step num _ _ _ C H1 E).
    rewrite <- (IH s1 s' (clean_step _ _ _ _ C (own_no_failure _ H1) E) H2 R). lia.
Qed.

Lemma not_stuck : forall num s, clean num s -> 1 <= num -> weight s <> 0%nat -> exists ev s', own_step ev /\ step s ev = Some s'.
Proof.
  intros num [b t u pc pm st lv ch ex] C L W. destruct C as [CE CP CC CT CU CM CB]. cbn in *. subst ex ch.
  unfold weight, in_join in W. cbn in W.
  destruct pc as [|c|c| |]; cbn in *; [| | | |congruence].
  - destruct u as [|r].
    + destruct t as [|r].
      * destruct b as [|a b]; [cbn in W; lia|]. rewrite CB by discriminate.
        exists (AeTcp None). eexists. split; [exact I|]. reflexivity.
      * destruct (CT r eq_refl) as (a & ->). exists (AeSelect true true). eexists. split; [exact I|]. reflexivity.
    + destruct (CU r eq_refl) as (a & ->). exists (AeSelect false true). eexists. split; [exact I|]. reflexivity.
  - exists AeTask. unfold astep. cbn. destruct (N.eqb_spec pm 0); [lia|]. eexists. split; [exact I|reflexivity].
  - exists AeTask. eexists. split; [exact I|reflexivity].
  - exists AeTask. eexists. split; [exact I|reflexivity].
Qed.

Lemma weightless : forall num s, clean num s -> weight s = 0%nat -> waiting_tcp s = [] /\ waiting_udp s = [].
Proof.
  intros num [b t u pc pm st lv ch ex] C W. unfold weight in W. unfold waiting_tcp, waiting_udp, in_hand. cbn in *.
  destruct b; cbn in W; [|lia]. destruct (in_join t); cbn in W; [|lia]. destruct (in_join u); cbn in W; [|lia].
  destruct pc; try lia; split; reflexivity.
Qed.

Lemma weight_bound : forall s, (weight s <= 5 * (length (waiting_tcp s) + length (waiting_udp s)) + 1)%nat.
Proof.
  intros s. unfold weight, waiting_tcp, waiting_udp, in_hand. rewrite !app_length.
  destruct (ac_pc s) as [|[[|] a]|[[|] a]| |]; cbn; lia.
Qed.

Lemma drain : forall num n s, clean num s -> 1 <= num -> weight s = n ->
  exists h s', Forall own_step h /\ run s h = Some s' /\ waiting_tcp s' = [] /\ waiting_udp s' = [].
Proof.
  intros num. induction n as [|n IH]; intros s C L W.
  - exists [], s. split; [constructor|]. split; [reflexivity|]. eapply weightless; eassumption.
  - destruct (not_stuck num s C L) as (ev & s1 & O & E); [lia|].
    pose proof (weight_step num _ _ _ C O E) as WS.
    destruct (IH s1 (clean_step _ _ _ _ C (own_no_failure _ O) E) L) as (h & s' & F & R & Z); [lia|].
    exists (ev :: h), s'. split; [constructor; assumption|]. split; [cbn; rewrite E; exact R|exact Z].
Qed.

End Accept.
