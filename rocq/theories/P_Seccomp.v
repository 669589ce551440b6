(** Lemmas about the seccomp filters. *)

From Coq Require Import String ZArith NArith List Bool Lia ZifyBool ZifyNat ZifyN.
From Verif Require Import M_Base M_ConfTypes M_Seccomp S_Seccomp P_Base.
Import ListNotations.
Local Open Scope N_scope.

(** The rules and the presence of a call in a list of additions. *)
Definition is_for (s : string) (a : addition) : bool :=
  match a with Sys t => String.eqb t s | SysArgs t _ => String.eqb t s end.
Fixpoint rules_for (s : string) (l : list addition) : list (list condition) :=
  match l with
  | [] => []
  | SysArgs t (Ok x) :: r => if String.eqb t s then x :: rules_for s r else rules_for s r
  | _ :: r => rules_for s r
  end.

Lemma rules_of_add_sys : forall m t s, rules_of (add_sys m t) s =
  if String.eqb t s then Some (match rules_of m s with Some rs => rs | None => [] end) else rules_of m s.
Proof.
  induction m as [|[k rs] m IH]; intros t s; simpl.
  - destruct (String.eqb t s); reflexivity.
  - destruct (String.eqb_spec k t) as [->|N]; simpl.
    + destruct (String.eqb t s); reflexivity.
    + destruct (String.eqb_spec k s) as [->|N2]; [|apply IH].
      destruct (String.eqb_spec t s); [congruence|reflexivity].
Qed.
Lemma rules_of_add_args : forall m t x s, rules_of (add_sys_args_match m t x) s =
  if String.eqb t s then Some ((match rules_of m s with Some rs => rs | None => [] end) ++ [x]) else rules_of m s.
Proof.
  induction m as [|[k rs] m IH]; intros t x s; simpl.
  - destruct (String.eqb t s); reflexivity.
  - destruct (String.eqb_spec k t) as [->|N]; simpl.
    + destruct (String.eqb t s); reflexivity.
    + destruct (String.eqb_spec k s) as [->|N2]; [|apply IH].
      destruct (String.eqb_spec t s); [congruence|reflexivity].
Qed.

Lemma add_all_spec : forall l m m', add_all m l = Ok m' -> forall s,
  rules_of m' s =
  if existsb (is_for s) l
  then Some ((match rules_of m s with Some rs => rs | None => [] end) ++ rules_for s l)
  else rules_of m s.
Proof.
  induction l as [|[t|t [x|e|]] l IH]; intros m m' H s; simpl in H; try discriminate.
  - injection H as <-. reflexivity.
  - rewrite (IH _ _ H s), rules_of_add_sys. simpl.
    destruct (String.eqb t s), (existsb (is_for s) l) eqn:E; simpl; try reflexivity.
    f_equal. replace (rules_for s l) with (@nil (list condition)); [rewrite app_nil_r; reflexivity|].
    clear - E. induction l as [|[t|t [x|e|]] l IH]; simpl in *; auto;
      apply orb_false_iff in E; destruct E as (A & B); rewrite ?A; auto.
  - rewrite (IH _ _ H s), rules_of_add_args. simpl.
    destruct (String.eqb t s), (existsb (is_for s) l) eqn:E; simpl; try reflexivity.
    + rewrite <- app_assoc. reflexivity.
    + f_equal. f_equal. f_equal. clear - E. induction l as [|[t|t [x|e|]] l IH]; simpl in *; auto;
      apply orb_false_iff in E; destruct E as (A & B); rewrite ?A; auto.
Qed.

Lemma add_all_app : forall a m b, add_all m (a ++ b) = bind (add_all m a) (fun m1 => add_all m1 b).
Proof. induction a as [|[t|t [x|e|]] a IH]; intros m b; simpl; auto. Qed.

Lemma allow_all_adds : forall tg l m, allow_all tg m l = add_all m (flat_map (additions tg) l).
Proof.
  intros tg l. induction l as [|a l IH]; intros m; [reflexivity|]. cbn [allow_all flat_map]. rewrite add_all_app.
  destruct (add_all m (additions tg a)); simpl; auto.
Qed.

Lemma compile_adds : forall tg l deny f, compile tg l deny = Ok f <->
  l <> [] /\ fl_deny f = deny /\ add_all [] (adds tg l) = Ok (fl_map f).
Proof.
  intros tg l deny [m d]. unfold compile, adds. cbn [fl_deny fl_map].
  destruct l as [|a l]; [split; [discriminate|intros (X & _); congruence]|].
  rewrite add_all_app. destruct (add_all [] (basics tg)) as [m0| |]; cbn [bind];
    [|split; [discriminate|intros (_ & _ & X); discriminate]..].
  rewrite allow_all_adds. destruct (add_all m0 (flat_map (additions tg) (a :: l))) as [m1| |]; cbn [bind];
    [|split; [discriminate|intros (_ & _ & X); discriminate]..].
  split; [intros [= <- <-]; split; [discriminate|auto]|intros (_ & -> & [= ->]); reflexivity].
Qed.

Lemma rules_for_in : forall s l x, In x (rules_for s l) <-> In (SysArgs s (Ok x)) l.
Proof.
  intros s l x. induction l as [|[t|t [y|e|]] l IH]; simpl; try (rewrite IH; intuition congruence).
  - tauto.
  - destruct (String.eqb_spec t s) as [->|N]; simpl; rewrite IH; intuition congruence.
Qed.

Lemma add_all_ok_args : forall l m m', add_all m l = Ok m' -> forall t x, In (SysArgs t x) l -> exists y, x = Ok y.
Proof.
  induction l as [|[t|t [y|e|]] l IH]; intros m m' H u x I; simpl in H; try discriminate.
  - destruct I.
  - destruct I as [X|I]; [discriminate|]. eapply IH; eauto.
  - destruct I as [X|I]; [injection X as <- <-; eauto|]. eapply IH; eauto.
Qed.

(** The meaning of a filter. *)
Lemma filter_meaning : forall tg l deny f, compile tg l deny = Ok f -> forall s argv,
  allowed (fl_map f) s argv = true <->
  (In (Sys s) (adds tg l) /\ (forall x, ~ In (SysArgs s x) (adds tg l)))
  \/ exists x, In (SysArgs s (Ok x)) (adds tg l) /\ forallb (cond_holds argv) x = true.
Proof.
  intros tg l deny f C s argv. apply compile_adds in C. destruct C as (_ & _ & AD).
  pose proof (add_all_spec _ _ _ AD s) as R. pose proof (add_all_ok_args _ _ _ AD) as AOK. unfold allowed. rewrite R.
  cbn [rules_of]. set (L := adds tg l) in *.
  destruct (existsb (is_for s) L) eqn:E.
  - cbn [app]. destruct (rules_for s L) as [|x rs] eqn:F.
    + split; [|reflexivity]. intros _. left. apply existsb_exists in E. destruct E as (a & I & A).
      assert (NA : forall x, ~ In (SysArgs s x) L).
      { intros x J. destruct (AOK _ _ J) as (y & ->). apply rules_for_in in J. rewrite F in J. destruct J. }
      split; [|exact NA]. destruct a as [t|t y]; simpl in A; apply String.eqb_eq in A; subst t; [exact I|].
      exfalso. eapply NA; eauto.
    + rewrite <- F, existsb_exists. split.
      * intros (y & I & Y). right. exists y. split; [apply rules_for_in; exact I|exact Y].
      * intros [(_ & NA)|(y & I & Y)].
        -- exfalso. apply (NA (Ok x)). apply rules_for_in. rewrite F. left. reflexivity.
        -- exists y. split; [apply rules_for_in; exact I|exact Y].
  - split; [discriminate|]. intros H. exfalso.
    assert (EX : exists a, In a L /\ is_for s a = true).
    { destruct H as [(I & _)|(x & I & _)]; eexists; (split; [exact I|]); simpl; apply String.eqb_refl. }
    apply existsb_exists in EX. congruence.
Qed.

(** A filter with separated plain and restricted calls. *)
Definition plain_of (l : list addition) : list string :=
  flat_map (fun a => match a with Sys s => [s] | _ => [] end) l.
Definition args_of (l : list addition) : list (string * list condition) :=
  flat_map (fun a => match a with SysArgs s (Ok x) => [(s, x)] | _ => [] end) l.
Lemma plain_of_in : forall l s, In s (plain_of l) <-> In (Sys s) l.
Proof.
  intros l s. unfold plain_of. rewrite in_flat_map. split.
  - intros ([t|t x] & I & J); [destruct J as [<-|[]]; exact I|destruct J].
  - intros I. exists (Sys s). simpl. auto.
Qed.
Lemma args_of_in : forall l s x, In (s, x) (args_of l) <-> In (SysArgs s (Ok x)) l.
Proof.
  intros l s x. unfold args_of. rewrite in_flat_map. split.
  - intros ([t|t [y|e|]] & I & J); try (destruct J); try (injection H as <- <-; exact I); destruct H.
  - intros I. exists (SysArgs s (Ok x)). simpl. auto.
Qed.

Definition mem_str (s : string) (l : list string) : bool := existsb (String.eqb s) l.
Lemma mem_str_in : forall s l, mem_str s l = true <-> In s l.
Proof.
  intros s l. unfold mem_str. rewrite existsb_exists. split.
  - intros (t & I & E). apply String.eqb_eq in E. subst. exact I.
  - intros I. exists s. split; [exact I|apply String.eqb_refl].
Qed.
Definition same_strs (a b : list string) : bool :=
  forallb (fun s => mem_str s b) a && forallb (fun s => mem_str s a) b.
Lemma same_strs_spec : forall a b, same_strs a b = true -> forall s, In s a <-> In s b.
Proof.
  intros a b H s. apply andb_true_iff in H. destruct H as (A & B). rewrite forallb_forall in A, B.
  split; intros I; apply mem_str_in; auto.
Qed.

Lemma filter_exact : forall tg l deny f plain rules,
  compile tg l deny = Ok f ->
  same_strs (plain_of (adds tg l)) plain = true ->
  args_of (adds tg l) = rules ->
  forallb (fun r => negb (mem_str (fst r) plain)) rules = true ->
  forall s argv, allowed (fl_map f) s argv = true <->
    In s plain \/ exists x, In (s, x) rules /\ forallb (cond_holds argv) x = true.
Proof.
  intros tg l deny f plain rules C SP EA ND s argv. rewrite (filter_meaning _ _ _ _ C).
  rewrite forallb_forall in ND. pose proof (same_strs_spec _ _ SP s) as PS. rewrite plain_of_in in PS.
  apply compile_adds in C. destruct C as (_ & _ & AD). pose proof (add_all_ok_args _ _ _ AD) as AOK.
  assert (EX : (exists x, In (SysArgs s (Ok x)) (adds tg l) /\ forallb (cond_holds argv) x = true)
    <-> exists x, In (s, x) rules /\ forallb (cond_holds argv) x = true).
  { split; intros (x & I & H); exists x; (split; [|exact H]); subst rules; apply args_of_in; exact I. }
  rewrite EX, PS. split.
  - intros [(I & _)|H]; auto.
  - intros [I|H]; [|auto]. left. split; [exact I|]. intros x J. destruct (AOK _ _ J) as (y & ->).
    apply args_of_in in J. rewrite EA in J. apply ND in J. cbn [fst] in J.
    apply PS in I. apply PS in I. apply mem_str_in in I. rewrite I in J. discriminate.
Qed.
