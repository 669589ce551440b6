(** Lemmas about the main programs of the daemons. *)

From Coq Require Import String ZArith NArith List Bool Lia ZifyBool ZifyNat ZifyN.
From Verif Require Import M_Base M_Daemon P_Base.
Import ListNotations.
Local Open Scope N_scope.

Lemma drun_app : forall a d b, drun d (a ++ b) = match drun d a with Some d1 => drun d1 b | None => None end.
Proof.
  induction a as [|e a IH]; intros d b; [reflexivity|]. simpl. destruct (dstep d e); [apply IH|reflexivity].
Qed.

(** The successful accepts of a history. *)
Fixpoint accepts (h : list devent) : N :=
  match h with [] => 0 | EvAccept (Ok _) :: r => accepts r + 1 | _ :: r => accepts r end.
Lemma accepts_app : forall a b, accepts (a ++ b) = accepts a + accepts b.
Proof. induction a as [|[[u|e|]| |c r|r| | | |] a IH]; intros b; simpl; rewrite ?IH; lia. Qed.

(** Invariant of a daemon that was started with [num] permits. *)
Record dinv (num : N) (h : list devent) (d : daemon) : Prop := {
  di_permits : match dm_pc d with
               | PcHold _ | PcDrop => dm_permits d + 1 = num
               | _ => dm_permits d = num
               end;
  di_next : dm_next d = accepts h;
  di_live : forall c, In c (dm_live d) -> c < dm_next d;
  di_held : forall c, dm_pc d = PcAcquire c \/ dm_pc d = PcHold c -> c < dm_next d /\ ~ In c (dm_live d);
  di_nodup : NoDup (dm_live d);
  di_chan : forall e, In e (dm_chan d) -> In (EvAccept (Err e)) h \/ In (EvMaintain (Err e)) h;
  di_end : dm_pc d = PcEnd -> exists e, In (EvAccept (Err e)) h
}.

Lemma dinv_start : forall num, dinv num [] (daemon_start num).
Proof.
  intros num. constructor; simpl; auto; try discriminate; try apply NoDup_nil;
    try (intros c [X|X]; discriminate); intros c [].
Qed.

Lemma remove_conn_in : forall c x l, In x (remove_conn c l) <-> In x l /\ x <> c.
Proof. intros c x l. unfold remove_conn. rewrite filter_In. destruct (N.eqb_spec x c); simpl; intuition congruence. Qed.

Lemma NoDup_snoc : forall (A : Type) (l : list A) x, NoDup l -> ~ In x l -> NoDup (l ++ [x]).
Proof.
  intros A l x H N. induction H as [|y l NI ND IH]; simpl; [constructor; [tauto|constructor]|].
  constructor.
  - intros I. apply in_app_or in I. destruct I as [I|[<-|[]]]; [tauto|]. apply N. left. reflexivity.
  - apply IH. intros I. apply N. right. exact I.
Qed.

Lemma NoDup_filter : forall (A : Type) (f : A -> bool) l, NoDup l -> NoDup (filter f l).
Proof.
  intros A f l H. induction H as [|y l NI ND IH]; simpl; [constructor|].
  destruct (f y); [|exact IH]. constructor; [|exact IH]. rewrite filter_In. tauto.
Qed.

Lemma dinv_step : forall num h d ev d', dinv num h d -> dstep d ev = Some d' -> dinv num (h ++ [ev]) d'.
Proof.
  intros num h d ev d' [IP IN IL IH ID IC IE] ST. unfold dstep in ST.
  destruct (dm_exit d) as [x|] eqn:EX; [discriminate|].
  assert (CH : forall e, In e (dm_chan d) -> In (EvAccept (Err e)) (h ++ [ev]) \/ In (EvMaintain (Err e)) (h ++ [ev])).
  { intros e I. destruct (IC e I) as [J|J]; [left|right]; apply in_or_app; auto. }
  assert (EN : dm_pc d = PcEnd -> exists e, In (EvAccept (Err e)) (h ++ [ev])).
  { intros P. destruct (IE P) as (e & J). exists e. apply in_or_app. auto. }
  destruct ev as [r| |c r|r| | | |].
  - destruct (dm_pc d) eqn:PC; try discriminate. destruct r as [u|e|]; try discriminate; injection ST as <-.
    + constructor; simpl; auto; try discriminate.
      * rewrite accepts_app, IN. simpl. lia.
      * intros c I. specialize (IL c I). lia.
      * intros c [X|X]; [|discriminate]. injection X as <-. split; [lia|]. intros I. specialize (IL _ I). lia.
    + constructor; simpl; auto.
      * rewrite accepts_app, IN. simpl. lia.
      * intros c [X|X]; discriminate.
      * intros x I. apply in_app_or in I. destruct I as [I|[<-|[]]]; [auto|]. left. apply in_or_app. right. left. reflexivity.
      * intros _. exists e. apply in_or_app. right. left. reflexivity.
  - assert (AC : accepts (h ++ [EvTask]) = accepts h) by (rewrite accepts_app; simpl; lia).
    destruct (dm_pc d) eqn:PC; try discriminate.
    + destruct (N.eqb_spec (dm_permits d) 0); [discriminate|]. injection ST as <-. constructor; simpl; auto; try discriminate.
      * lia.
      * rewrite AC. exact IN.
      * intros x [X|X]; [discriminate|]. injection X as <-. apply IH. auto.
    + injection ST as <-. constructor; simpl; auto; try discriminate.
      * rewrite AC. exact IN.
      * intros x I. apply in_app_or in I. destruct I as [I|[<-|[]]]; [auto|]. apply IH. auto.
      * intros x [X|X]; discriminate.
      * apply NoDup_snoc; [exact ID|]. apply IH. auto.
    + injection ST as <-. constructor; simpl; auto; try discriminate.
      * rewrite AC. exact IN.
      * intros x [X|X]; discriminate.
  - assert (AC : accepts (h ++ [EvFinish c r]) = accepts h) by (rewrite accepts_app; simpl; lia).
    destruct (existsb (N.eqb c) (dm_live d)); [|discriminate]. injection ST as <-. constructor; simpl; auto.
    + rewrite AC. exact IN.
    + intros x I. apply remove_conn_in in I. apply IL. tauto.
    + intros x X. destruct (IH x X) as (A & B). split; [exact A|]. rewrite remove_conn_in. tauto.
    + apply NoDup_filter. exact ID.
  - destruct r as [u|e|]; try discriminate; injection ST as <-; constructor; simpl; auto;
      try (rewrite accepts_app; simpl; lia).
    intros x I. apply in_app_or in I. destruct I as [I|[<-|[]]]; [auto|]. right. apply in_or_app. right. left. reflexivity.
  - injection ST as <-. constructor; simpl; auto; rewrite accepts_app; simpl; lia.
  - injection ST as <-. constructor; simpl; auto; rewrite accepts_app; simpl; lia.
  - injection ST as <-. constructor; simpl; auto; rewrite accepts_app; simpl; lia.
  - destruct (dm_chan d) as [|e r] eqn:CHAN; [discriminate|]. injection ST as <-. constructor; simpl; auto.
    + rewrite accepts_app; simpl; lia.
    + intros x I. apply CH. right. exact I.
Qed.

Lemma dinv_run : forall num h d, drun (daemon_start num) h = Some d -> dinv num h d.
Proof.
  intros num h. induction h as [|ev h IH] using rev_ind; intros d R.
  - injection R as <-. apply dinv_start.
  - rewrite drun_app in R. destruct (drun (daemon_start num) h) as [d1|] eqn:E; [|discriminate].
    simpl in R. destruct (dstep d1 ev) as [d2|] eqn:ST; [|discriminate]. injection R as <-.
    eapply dinv_step; eauto.
Qed.

(** Why a daemon ends. *)
Lemma exit_reason : forall num h d r, drun (daemon_start num) h = Some d -> dm_exit d = Some r ->
  exists h0 ev, h = h0 ++ [ev]
    /\ ((ev = EvTerm /\ r = Ok tt) \/ (ev = EvInt /\ r = Err "Interrupted by SIGINT.")
        \/ (ev = EvChannel /\ exists e, r = Err e /\ (In (EvAccept (Err e)) h0 \/ In (EvMaintain (Err e)) h0))).
Proof.
  intros num h. induction h as [|ev h _] using rev_ind; intros d r R X.
  - injection R as <-. discriminate.
  - rewrite drun_app in R. destruct (drun (daemon_start num) h) as [d1|] eqn:E; [|discriminate].
    simpl in R. destruct (dstep d1 ev) as [d2|] eqn:ST; [|discriminate]. injection R as <-.
    exists h, ev. split; [reflexivity|]. pose proof (dinv_run _ _ _ E) as I.
    unfold dstep in ST. destruct (dm_exit d1) eqn:EX; [discriminate|].
    destruct ev as [q| |c q|q| | | |].
    + destruct (dm_pc d1), q; try discriminate; injection ST as <-; discriminate.
    + destruct (dm_pc d1); try discriminate; [destruct (_ =? _); [discriminate|]| |]; injection ST as <-; discriminate.
    + destruct (existsb _ _); [|discriminate]. injection ST as <-; discriminate.
    + destruct q; try discriminate; injection ST as <-; [congruence|discriminate].
    + injection ST as <-. injection X as <-. auto.
    + injection ST as <-. injection X as <-. auto.
    + injection ST as <-. congruence.
    + destruct (dm_chan d1) as [|e l] eqn:CH; [discriminate|]. injection ST as <-. injection X as <-.
      right. right. split; [reflexivity|]. exists e. split; [reflexivity|]. apply (di_chan _ _ _ I). rewrite CH. left. reflexivity.
Qed.

(** Serving one more connection. *)
Definition serve_one : list devent := [EvAccept (Ok tt); EvTask; EvTask; EvTask].
Fixpoint serve (k : nat) : list devent := match k with O => [] | S k => serve_one ++ serve k end.

Lemma serve_one_run : forall d, dm_exit d = None -> dm_pc d = PcAccept -> 1 <= dm_permits d ->
  exists d', drun d serve_one = Some d' /\ dm_exit d' = None /\ dm_pc d' = PcAccept
    /\ dm_permits d' = dm_permits d /\ dm_live d' = dm_live d ++ [dm_next d] /\ dm_chan d' = dm_chan d.
Proof.
  intros [pc pm live next chan ex] X P L. simpl in *. subst. unfold dstep. simpl.
  destruct (N.eqb_spec pm 0); [lia|]. eexists. split; [reflexivity|]. simpl. repeat split. lia.
Qed.

Lemma serve_run : forall k d, dm_exit d = None -> dm_pc d = PcAccept -> 1 <= dm_permits d ->
  exists d', drun d (serve k) = Some d' /\ dm_exit d' = None /\ dm_pc d' = PcAccept
    /\ dm_permits d' = dm_permits d /\ length (dm_live d') = (k + length (dm_live d))%nat.
Proof.
  induction k as [|k IH]; intros d X P L; [exists d; simpl; auto|].
  destruct (serve_one_run d X P L) as (d1 & R1 & X1 & P1 & M1 & L1 & _).
  destruct (IH d1 X1 P1) as (d2 & R2 & X2 & P2 & M2 & L2); [lia|].
  exists d2. cbn [serve]. rewrite drun_app, R1. rewrite R2, M2, L2, L1, app_length. simpl. repeat split; auto. lia.
Qed.

Lemma serve_events : forall k ev, In ev (serve k) -> ev = EvAccept (Ok tt) \/ ev = EvTask.
Proof.
  induction k as [|k IH]; intros ev I; [destruct I|]. cbn [serve] in I. apply in_app_or in I.
  destruct I as [I|I]; [|auto]. simpl in I. intuition.
Qed.

(** The accept task never blocks for good. *)
Lemma can_serve : forall num h d, drun (daemon_start num) h = Some d -> 1 <= num -> dm_exit d = None ->
  dm_pc d <> PcEnd ->
  exists k d1 d2, (k <= 3)%nat /\ drun d (repeat EvTask k) = Some d1
    /\ drun d1 serve_one = Some d2 /\ In (dm_next d1) (dm_live d2) /\ incl (dm_live d) (dm_live d2).
Proof.
  intros num h d R L X NE. pose proof (dinv_run _ _ _ R) as [IP _ _ _ _ _ _].
  assert (G : exists k d1, (k <= 3)%nat /\ drun d (repeat EvTask k) = Some d1 /\ dm_exit d1 = None /\ dm_pc d1 = PcAccept
     /\ 1 <= dm_permits d1 /\ incl (dm_live d) (dm_live d1)).
  { destruct d as [pc pm live next chan ex]. simpl in *. subst ex. destruct pc as [|c|c| |].
    - exists 0%nat. eexists. split; [lia|]. split; [reflexivity|]. simpl. repeat split; auto; [lia|apply incl_refl].
    - exists 3%nat. cbn. unfold dstep. simpl. destruct (N.eqb_spec pm 0); [lia|]. eexists. split; [lia|].
      split; [reflexivity|]. simpl. repeat split; auto; [lia|apply incl_appl, incl_refl].
    - exists 2%nat. cbn. eexists. split; [lia|].
      split; [reflexivity|]. simpl. repeat split; auto; [lia|apply incl_appl, incl_refl].
    - exists 1%nat. cbn. eexists. split; [lia|].
      split; [reflexivity|]. simpl. repeat split; auto; [lia|apply incl_refl].
    - congruence. }
  destruct G as (k & d1 & K & R1 & X1 & P1 & L1 & IN).
  destruct (serve_one_run d1 X1 P1 L1) as (d2 & R2 & _ & _ & _ & LV & _).
  exists k, d1, d2. split; [exact K|]. split; [exact R1|]. split; [exact R2|]. rewrite LV. split.
  - apply in_or_app. right. left. reflexivity.
  - apply incl_appl. exact IN.
Qed.
