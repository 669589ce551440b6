(** Reading a decimal number. *)

From Coq Require Import String ZArith NArith List Bool Lia QArith Qpower Qabs Lqa.
From Verif Require Import M_Base M_ConfTypes M_Text M_Str M_Float S_Text S_Float P_Str P_Float.
Import ListNotations.
Local Open Scope Z_scope.

(** *** Digits *)

Definition dig (c : N) (d : Z) : Prop := to_digit 10 c = Some (Z.to_N d) /\ 0 <= d <= 9.

Lemma digit_dig : forall c d, digit 10 c d <-> dig c (Z.of_N d).
Proof.
  intros c d. unfold dig. rewrite N2Z.id, to_digit_spec by lia. unfold digit. lia.
Qed.

Lemma numeral_list : forall ds v, numeral 10 ds v -> exists l, Forall2 dig ds l /\ digits_value l = Z.of_N v.
Proof.
  induction 1 as [|t v c d H (l & F & E) D].
  - exists []. split; [constructor|reflexivity].
  - exists (l ++ [Z.of_N d]). split; [apply Forall2_app; [exact F|]; constructor; [apply digit_dig; exact D|constructor]|].
    unfold digits_value in *. rewrite fold_left_app. cbn [fold_left]. rewrite E. lia.
Qed.

Lemma list_numeral : forall ds l, Forall2 dig ds l -> 0 <= digits_value l /\ numeral 10 ds (Z.to_N (digits_value l)).
Proof.
  intros ds l. revert ds. induction l as [|d l IH] using rev_ind; intros ds F.
  - inversion F. split; [cbn; lia|constructor].
  - apply Forall2_app_inv_r in F. destruct F as (a & b & F & G & ->). destruct (IH a F) as [P H].
    inversion G as [|c d' ? ? D N]; subst. inversion N; subst. unfold digits_value in *. rewrite fold_left_app. cbn [fold_left].
    destruct D as [D1 D2]. split; [lia|].
    set (v := fold_left (fun a d => 10 * a + d) l 0) in *.
    replace (Z.to_N (10 * v + d)) with (Z.to_N v * 10 + Z.to_N d)%N by lia.
    constructor; [exact H|]. apply digit_dig. unfold dig. rewrite Z2N.id by lia. auto.
Qed.

(** The text does not start with a digit. *)
Definition no_digit (r : text) : Prop := forall c r', r = c :: r' -> to_digit 10 c = None.

Lemma lead_digits_app : forall ds l r, Forall2 dig ds l -> no_digit r -> lead_digits (ds ++ r) = (l, r).
Proof.
  induction 1 as [|c d ds l [D1 D2] F IH]; intros N; cbn [app lead_digits].
  - destruct r as [|c r]; [reflexivity|]. cbn [lead_digits]. rewrite (N c r eq_refl). reflexivity.
  - rewrite D1, IH by exact N. rewrite Z2N.id by lia. reflexivity.
Qed.

Lemma lead_digits_inv : forall t l r, lead_digits t = (l, r) -> exists ds, t = ds ++ r /\ Forall2 dig ds l /\ no_digit r.
Proof.
  induction t as [|c t IH]; intros l r; cbn [lead_digits].
  - intros [= <- <-]. exists []. split; [reflexivity|]. split; [constructor|]. intros c r' X. discriminate X.
  - destruct (to_digit 10 c) as [d|] eqn:TD.
    + destruct (lead_digits t) as [l' r'] eqn:E. intros [= <- <-]. destruct (IH _ _ eq_refl) as (ds & -> & F & N).
      exists (c :: ds). split; [reflexivity|]. split; [|exact N]. constructor; [|exact F]. apply digit_dig. apply to_digit_spec in TD; [exact TD|lia].
    + intros [= <- <-]. exists []. split; [reflexivity|]. split; [constructor|]. intros c' r' [= <- _]. exact TD.
Qed.

Lemma dig_list_length : forall ds l, Forall2 dig ds l -> length ds = length l.
Proof. induction 1; cbn [length]; congruence. Qed.

(** *** Exponents *)

(** The exponent [e] is read as [e']. *)
Definition saturates (e e' : Z) : Prop := e' = e \/ 65536 <= e' <= e \/ e <= e' <= -65536.

Lemma exponent_digits_sat : forall ds l, Forall2 dig ds l ->
  exponent_digits l = digits_value l \/ 65536 <= exponent_digits l <= digits_value l.
Proof.
  intros ds l. revert ds. induction l as [|d l IH] using rev_ind; intros ds F; [left; reflexivity|].
  apply Forall2_app_inv_r in F. destruct F as (a & b & F & G & ->). inversion G as [|c d' ? ? [_ D] N]; subst.
  destruct (list_numeral _ _ F) as [P _]. specialize (IH a F). unfold exponent_digits, digits_value in *. rewrite !fold_left_app. cbn [fold_left].
  set (e := fold_left _ l 0) in *. set (v := fold_left _ l 0) in *. destruct (e <? 65536) eqn:C.
  - apply Z.ltb_lt in C. destruct IH as [E|E]; lia.
  - apply Z.ltb_ge in C. right. lia.
Qed.

(** *** The parts of a number *)

Definition parts (t : text) (neg : bool) (i : Z) (k : nat) (e : Z) : Prop :=
  exists sg int pt f ex,
    t = sg ++ int ++ pt ++ ex /\ sign_text sg (if neg then -1 else 1) /\ point_text pt f /\ exponent_text ex e
    /\ int ++ f <> [] /\ numeral 10 (int ++ f) (Z.to_N i) /\ 0 <= i /\ k = length f.

Lemma decimal_parts : forall t q, decimal_text t q <->
  exists neg i k e, parts t neg i k e /\ (q == inject_Z (if neg then - i else i) * Qpower (inject_Z 10) (e - Z.of_nat k))%Q.
Proof.
  intros t q. split.
  - intros (sg & s & int & pt & f & ex & i & e & -> & S & P & E & NE & NU & V).
    exists (s =? -1), (Z.of_N i), (length f), e. split.
    + exists sg, int, pt, f, ex. rewrite N2Z.id. repeat (split; [try assumption; try reflexivity|]); [|lia|reflexivity].
      inversion S; subst; exact S.
    + rewrite V. apply Qmult_comp; [|reflexivity]. assert (X : s * Z.of_N i = if s =? -1 then - Z.of_N i else Z.of_N i); [|rewrite X; reflexivity].
      inversion S; subst; try change (1 =? -1) with false; try change (-1 =? -1) with true; cbn iota; lia.
  - intros (neg & i & k & e & (sg & int & pt & f & ex & -> & S & P & E & NE & NU & I0 & ->) & V).
    exists sg, (if neg then -1 else 1), int, pt, f, ex, (Z.to_N i), e. repeat (split; [try assumption; reflexivity|]).
    rewrite V. apply Qmult_comp; [|reflexivity]. rewrite Z2N.id by exact I0.
    assert (X : (if neg then - i else i) = (if neg then -1 else 1) * i) by (destruct neg; lia). rewrite X. reflexivity.
Qed.

Lemma no_digit_exp : forall ex e, exponent_text ex e -> no_digit ex.
Proof.
  intros ex e H c r E. inversion H as [|c' sg s ds v [-> | ->]]; subst; [discriminate|..]; cbn in E; injection E as <- _; reflexivity.
Qed.
Lemma no_digit_point : forall pt f ex, point_text pt f -> no_digit ex -> no_digit (pt ++ ex).
Proof.
  intros pt f ex P N c r E. inversion P; subst; [apply (N c r E)|]. cbn in E. injection E as <- _. reflexivity.
Qed.

Lemma lead_sign_app : forall sg s r, sign_text sg s ->
  (sg = [] -> forall c r', r = c :: r' -> c <> 45%N /\ c <> 43%N) ->
  lead_sign (sg ++ r) = (s =? -1, r).
Proof.
  intros sg s r S H. inversion S; subst; cbn [app].
  - destruct r as [|c r]; [reflexivity|]. destruct (H eq_refl c r eq_refl) as [A B]. unfold lead_sign.
    apply N.eqb_neq in A, B. rewrite A, B. reflexivity.
  - reflexivity.
  - reflexivity.
Qed.

Lemma lead_sign_inv : forall t neg r, lead_sign t = (neg, r) -> exists sg, t = sg ++ r /\ sign_text sg (if neg then -1 else 1).
Proof.
  intros [|c t] neg r; cbn [lead_sign].
  - intros [= <- <-]. exists []. split; [reflexivity|constructor].
  - destruct (c =? 45)%N eqn:A.
    + apply N.eqb_eq in A. subst c. intros [= <- <-]. exists (lit "-"). split; [reflexivity|constructor].
    + destruct (c =? 43)%N eqn:B.
      * apply N.eqb_eq in B. subst c. intros [= <- <-]. exists (lit "+"). split; [reflexivity|constructor].
      * intros [= <- <-]. exists []. split; [reflexivity|constructor].
Qed.

Lemma dig_char : forall c d, dig c d -> c <> 45%N /\ c <> 43%N.
Proof. intros c d [D _]. split; intros ->; discriminate D. Qed.

Lemma exponent_part_of : forall ex e, exponent_text ex e -> exists e', exponent_part ex = Some e' /\ saturates e e'.
Proof.
  intros ex e H. inversion H as [|c sg s ds v C S NE NU]; subst.
  - exists 0. split; [reflexivity|left; reflexivity].
  - destruct (numeral_list _ _ NU) as (l & F & E).
    assert (X : exponent_part (c ++ sg ++ ds) = let (neg, r) := lead_sign (sg ++ ds) in
        match lead_digits r with ((_ :: _) as l, []) => Some (if neg then - exponent_digits l else exponent_digits l) | _ => None end).
    { destruct C as [-> | ->]; reflexivity. }
    rewrite X, (lead_sign_app sg s ds S).
    + rewrite <- (app_nil_r ds), (lead_digits_app ds l []); [|exact F|intros ? ? Y; discriminate Y].
      destruct l as [|d l]; [inversion F; subst; contradiction NE; reflexivity|].
      eexists. split; [reflexivity|]. pose proof (exponent_digits_sat _ _ F) as SA. rewrite E in SA. unfold saturates.
      inversion S; subst; try change (1 =? -1) with false; try change (-1 =? -1) with true; cbn iota; destruct SA; lia.
    + intros _ c' r' Y. subst ds. inversion F; subst. eapply dig_char; eauto.
Qed.

Lemma exponent_part_inv : forall ex e', exponent_part ex = Some e' -> exists e, exponent_text ex e.
Proof.
  intros [|c r] e'; cbn [exponent_part]; [intros _; exists 0; constructor|].
  destruct ((c =? 101)%N || (c =? 69)%N) eqn:C; [|discriminate].
  destruct (lead_sign r) as [neg r1] eqn:LS. destruct (lead_sign_inv _ _ _ LS) as (sg & -> & S).
  destruct (lead_digits r1) as [l r2] eqn:LD. destruct (lead_digits_inv _ _ _ LD) as (ds & -> & F & _).
  destruct l as [|d l]; [discriminate|]. destruct r2; [|discriminate]. intros _. destruct (list_numeral _ _ F) as [_ NU].
  rewrite app_nil_r. eexists. change (c :: sg ++ ds) with ([c] ++ sg ++ ds). econstructor; [|exact S| |exact NU].
  - apply orb_true_iff in C. destruct C as [C|C]; apply N.eqb_eq in C; subst c; [left|right]; reflexivity.
  - inversion F; subst; discriminate.
Qed.

Lemma Forall2_split : forall (a b : text) l, Forall2 dig (a ++ b) l ->
  exists x y, l = x ++ y /\ Forall2 dig a x /\ Forall2 dig b y.
Proof. intros a b l F. apply Forall2_app_inv_l in F. destruct F as (x & y & A & B & ->). eauto. Qed.

Lemma parse_decimal_of : forall t neg i k e, parts t neg i k e ->
  exists e', parse_decimal t = Some (Decimal neg i (e' - Z.of_nat k)) /\ saturates e e'.
Proof.
  intros t neg i k e (sg & int & pt & f & ex & -> & S & P & E & NE & NU & I0 & ->).
  destruct (numeral_list _ _ NU) as (l & F & V). rewrite Z2N.id in V by exact I0.
  destruct (Forall2_split _ _ _ F) as (li & lf & -> & FI & FF).
  destruct (exponent_part_of _ _ E) as (e' & EP & SA). exists e'. split; [|exact SA].
  pose proof (no_digit_exp _ _ E) as ND. unfold parse_decimal.
  rewrite (lead_sign_app sg _ (int ++ pt ++ ex) S).
  - rewrite (lead_digits_app int li (pt ++ ex) FI (no_digit_point _ _ _ P ND)).
    assert (X : match pt ++ ex with
                | c :: r' => if (c =? 46)%N then lead_digits r' else ([], pt ++ ex)
                | [] => ([], pt ++ ex)
                end = (lf, ex)).
    { inversion P; subst.
      - inversion FF; subst. cbn [app]. inversion E as [|c sg' s ds v [-> | ->]]; subst; reflexivity.
      - change ((lit "." ++ f) ++ ex) with (46%N :: (f ++ ex)). cbn [N.eqb Pos.eqb]. apply lead_digits_app; assumption. }
    rewrite X. destruct (li ++ lf) as [|d l] eqn:L.
    + exfalso. apply app_eq_nil in L. destruct L as [-> ->]. inversion FI; inversion FF; subst. apply NE. reflexivity.
    + rewrite EP, V. rewrite <- (dig_list_length _ _ FF). destruct neg; reflexivity.
  - intros -> c r' Y. destruct int as [|x int].
    + cbn [app] in *. inversion P; subst; [contradiction NE; reflexivity|]. cbn in Y. injection Y as <- _. split; discriminate.
    + cbn in Y. injection Y as -> _. inversion FI; subst. eapply dig_char; eauto.
Qed.

Lemma parse_decimal_inv : forall t x, parse_decimal t = Some x -> exists neg i k e, parts t neg i k e.
Proof.
  intros t x. unfold parse_decimal. destruct (lead_sign t) as [neg r] eqn:LS. destruct (lead_sign_inv _ _ _ LS) as (sg & -> & S).
  destruct (lead_digits r) as [li r1] eqn:LD. destruct (lead_digits_inv _ _ _ LD) as (int & -> & FI & ND).
  assert (PT : forall lf r2, match r1 with c :: r' => if (c =? 46)%N then lead_digits r' else ([], r1) | [] => ([], r1) end = (lf, r2) ->
     exists pt f, r1 = pt ++ r2 /\ point_text pt f /\ Forall2 dig f lf).
  { intros lf r2. destruct r1 as [|c r']; [intros [= <- <-]; exists [], []; split; [reflexivity|]; split; constructor|].
    destruct (c =? 46)%N eqn:C; [|intros [= <- <-]; exists [], []; split; [reflexivity|]; split; constructor].
    apply N.eqb_eq in C. subst c. intros H. destruct (lead_digits_inv _ _ _ H) as (f & -> & F & _).
    exists (lit "." ++ f), f. split; [reflexivity|]. split; [constructor|exact F]. }
  destruct (match r1 with c :: r' => if (c =? 46)%N then lead_digits r' else ([], r1) | [] => ([], r1) end) as [lf r2].
  destruct (PT lf r2 eq_refl) as (pt & f & -> & P & FF).
  destruct (li ++ lf) as [|d l] eqn:L; [discriminate|]. destruct (exponent_part r2) as [e'|] eqn:EP; [|discriminate]. intros _.
  destruct (exponent_part_inv _ _ EP) as (e & E). assert (F : Forall2 dig (int ++ f) (d :: l)) by (rewrite <- L; apply Forall2_app; assumption).
  destruct (list_numeral _ _ F) as [I0 NU].
  exists neg, (digits_value (d :: l)), (length f), e, sg, int, pt, f, r2. repeat (split; [first [assumption|reflexivity]|]).
  split; [inversion F; discriminate|]. split; [exact NU|]. split; [exact I0|reflexivity].
Qed.
