(** Proofs about durations that go through f64. *)

From Coq Require Import String ZArith NArith List Bool Lia QArith Qpower Qabs Lqa.
From Verif Require Import M_Base M_ConfTypes M_Text M_Str M_Float.
Import ListNotations.
Local Open Scope Z_scope.

(** *** Powers of two as rationals *)

Definition pw (e : Z) : Q := Qpower (inject_Z 2) e.

Lemma two_nz : ~ (inject_Z 2 == 0)%Q.
Proof. discriminate. Qed.

Lemma pw_add : forall a b, (pw (a + b) == pw a * pw b)%Q.
Proof. intros. apply Qpower_plus. exact two_nz. Qed.

Lemma pw_nat : forall e, 0 <= e -> (pw e == inject_Z (2 ^ e))%Q.
Proof. intros e H. unfold pw. symmetry. apply Zpower_Qpower. exact H. Qed.

Lemma pw_pos : forall e, (0 < pw e)%Q.
Proof.
  intros e. destruct (Z_le_gt_dec 0 e) as [H|H].
  - rewrite pw_nat by exact H. change 0%Q with (inject_Z 0). rewrite <- Zlt_Qlt. apply Z.pow_pos_nonneg; lia.
  - assert (E : (pw e * pw (- e) == 1)%Q) by (rewrite <- pw_add; replace (e + - e) with 0 by lia; reflexivity).
    assert (0 < pw (- e))%Q.
    { rewrite pw_nat by lia. change 0%Q with (inject_Z 0). rewrite <- Zlt_Qlt. apply Z.pow_pos_nonneg; lia. }
    destruct (Qlt_le_dec 0 (pw e)) as [L|L]; [exact L|]. exfalso.
    assert (pw e * pw (- e) <= 0 * pw (- e))%Q by (apply Qmult_le_compat_r; lra). lra.
Qed.

Lemma pw_opp : forall e, (pw e * pw (- e) == 1)%Q.
Proof. intros e. rewrite <- pw_add. replace (e + - e) with 0 by lia. reflexivity. Qed.

Lemma pw_mono : forall a b, a <= b -> (pw a <= pw b)%Q.
Proof.
  intros a b H. replace b with (a + (b - a)) by lia. rewrite pw_add. pose proof (pw_pos a).
  assert (1 <= pw (b - a))%Q.
  { rewrite pw_nat by lia. change 1%Q with (inject_Z 1). rewrite <- Zle_Qle. assert (0 < 2 ^ (b - a)) by (apply Z.pow_pos_nonneg; lia). lia. }
  nra.
Qed.

Definition frac (n d : Z) : Q := (inject_Z n / inject_Z d)%Q.

Lemma inj_pos : forall d, 0 < d -> (0 < inject_Z d)%Q.
Proof. intros d H. change 0%Q with (inject_Z 0). rewrite <- Zlt_Qlt. exact H. Qed.

Lemma frac_mul : forall n d, 0 < d -> (frac n d * inject_Z d == inject_Z n)%Q.
Proof. intros n d H. unfold frac. field. pose proof (inj_pos d H). intro E. rewrite E in *. lra. Qed.

(** Comparing with a fraction is comparing with its numerator. *)
Lemma frac_le : forall n d x, 0 < d -> (frac n d <= x <-> inject_Z n <= x * inject_Z d)%Q.
Proof.
  intros n d x H. rewrite <- (frac_mul n d H). pose proof (inj_pos d H). split; intros L.
  - apply Qmult_le_compat_r; lra.
  - apply Qmult_le_r in L; lra.
Qed.
Lemma frac_ge : forall n d x, 0 < d -> (x <= frac n d <-> x * inject_Z d <= inject_Z n)%Q.
Proof.
  intros n d x H. rewrite <- (frac_mul n d H). pose proof (inj_pos d H). split; intros L.
  - apply Qmult_le_compat_r; lra.
  - apply Qmult_le_r in L; lra.
Qed.

Lemma scaled_spec : forall num den e n d, 0 < den -> scaled num den e = (n, d) ->
  0 < d /\ (frac n d * pw e == frac num den)%Q /\ (0 <= num -> 0 <= n) /\ (0 < num -> 0 < n).
Proof.
  intros num den e n d H. unfold scaled. destruct (0 <=? e) eqn:E; intros [= <- <-].
  - apply Z.leb_le in E. assert (0 < 2 ^ e) by (apply Z.pow_pos_nonneg; lia). split; [nia|]. split; [|split; auto].
    unfold frac. rewrite pw_nat, inject_Z_mult by exact E. pose proof (inj_pos _ H0). pose proof (inj_pos _ H). field. split; lra.
  - apply Z.leb_gt in E. assert (0 < 2 ^ (- e)) by (apply Z.pow_pos_nonneg; lia). split; [exact H|]. split; [|split; nia].
    unfold frac. rewrite inject_Z_mult, <- pw_nat by lia. pose proof (inj_pos _ H). pose proof (pw_opp e). field_simplify; [|lra..].
    unfold Qdiv. rewrite <- (Qmult_assoc (inject_Z num)). rewrite (Qmult_comm (pw (- e))), H2. field. lra.
Qed.

(** *** Rounding to the nearest integer *)

Lemma nearest_spec : forall n d, 0 < d -> - d <= 2 * (d * nearest n d - n) <= d
  /\ (2 * (d * nearest n d - n) = d \/ 2 * (d * nearest n d - n) = - d -> Z.even (nearest n d) = true).
Proof.
  intros n d H. unfold nearest. pose proof (Z.div_mod n d ltac:(lia)) as E. pose proof (Z.mod_pos_bound n d H) as B.
  set (q := n / d) in *. set (r := n mod d) in *.
  destruct (2 * r <? d) eqn:C1; [apply Z.ltb_lt in C1; split; [nia|intros [X|X]; nia]|]. apply Z.ltb_ge in C1.
  destruct (d <? 2 * r) eqn:C2; [apply Z.ltb_lt in C2; split; [nia|intros [X|X]; nia]|]. apply Z.ltb_ge in C2.
  destruct (Z.even q) eqn:EV; [split; [nia|auto]|]. split; [nia|]. intros _.
  rewrite Z.even_add. rewrite EV. reflexivity.
Qed.

(** [nearest] is determined by its specification. *)
Lemma nearest_unique : forall n d m, 0 < d -> - d <= 2 * (d * m - n) <= d ->
  (2 * (d * m - n) = d \/ 2 * (d * m - n) = - d -> Z.even m = true) -> nearest n d = m.
Proof.
  intros n d m H B T. destruct (nearest_spec n d H) as [B' T']. set (k := nearest n d) in *.
  destruct (Z.eq_dec k m) as [|NE]; [assumption|exfalso].
  assert (HALF : 2 * (d * m - n) = d /\ 2 * (d * k - n) = - d /\ k = m - 1
              \/ 2 * (d * m - n) = - d /\ 2 * (d * k - n) = d /\ k = m + 1).
  { assert (k < m \/ m < k) as [L|L] by lia.
    - assert (d * k <= d * (m - 1)) by nia. left. assert (d * m - d * k <= d) by nia.
      assert (d * (m - k) <= d * 1) by nia. assert (m - k <= 1) by nia. assert (k = m - 1) by lia. subst. nia.
    - right. assert (d * (k - m) <= d * 1) by nia. assert (k - m <= 1) by nia. assert (k = m + 1) by lia. nia. }
  destruct HALF as [(A1 & A2 & E)|(A1 & A2 & E)]; rewrite E in *.
  - pose proof (T (or_introl A1)) as P1. pose proof (T' (or_intror A2)) as P2.
    rewrite Z.even_sub, P1 in P2. discriminate P2.
  - pose proof (T (or_intror A1)) as P1. pose proof (T' (or_introl A2)) as P2.
    rewrite Z.even_add, P1 in P2. discriminate P2.
Qed.

Lemma nearest_mul : forall k n d, 0 < k -> 0 < d -> nearest (k * n) (k * d) = nearest n d.
Proof.
  intros k n d K D. destruct (nearest_spec n d D) as [B T]. apply nearest_unique; [nia|nia|].
  intros [X|X]; apply T; [left|right]; nia.
Qed.

Lemma nearest_exact : forall k d, 0 < d -> nearest (d * k) d = k.
Proof. intros k d D. apply nearest_unique; [exact D|lia|]. intros [X|X]; lia. Qed.

Lemma nearest_shift : forall s n d, 0 < d -> Z.even s = true -> nearest (n + d * s) d = s + nearest n d.
Proof.
  intros s n d D EV. destruct (nearest_spec n d D) as [B T]. apply nearest_unique; [exact D|nia|].
  intros X. rewrite Z.even_add, EV, T; [reflexivity|]. destruct X as [X|X]; [left|right]; nia.
Qed.

Lemma nearest_mono : forall n1 d1 n2 d2, 0 < d1 -> 0 < d2 -> n1 * d2 <= n2 * d1 -> nearest n1 d1 <= nearest n2 d2.
Proof.
  intros n1 d1 n2 d2 D1 D2 L. rewrite <- (nearest_mul d2 n1 d1), <- (nearest_mul d1 n2 d2) by assumption.
  replace (d1 * d2) with (d2 * d1) by lia. set (d := d2 * d1) in *. assert (D : 0 < d) by (unfold d; nia).
  set (a := d2 * n1) in *. set (b := d1 * n2) in *. assert (AB : a <= b) by (unfold a, b; nia). clearbody d a b. clear - D AB.
  destruct (nearest_spec a d D) as [B1 T1]. destruct (nearest_spec b d D) as [B2 T2].
  set (p := nearest a d) in *. set (q := nearest b d) in *.
  destruct (Z_le_gt_dec p q) as [|G]; [assumption|exfalso].
  assert (p - q <= 1) by nia. assert (p = q + 1) by lia. assert (2 * (d * p - a) = d) by nia. assert (2 * (d * q - b) = - d) by nia.
  pose proof (T1 (or_introl H1)) as P1. pose proof (T2 (or_intror H2)) as P2. rewrite H0, Z.even_add, P2 in P1. discriminate P1.
Qed.

(** As a statement about rationals. *)
Lemma nearest_q : forall n d, 0 < d -> (Qabs (inject_Z (nearest n d) - frac n d) <= 1 # 2)%Q.
Proof.
  intros n d D. destruct (nearest_spec n d D) as [B _]. apply Qabs_Qle_condition.
  assert (P := inj_pos d D). set (m := nearest n d) in *. pose proof (frac_mul n d D) as E.
  assert (B1 : (- inject_Z d <= 2 * (inject_Z d * inject_Z m - inject_Z n) <= inject_Z d)%Q).
  { rewrite <- inject_Z_mult, <- inject_Z_opp. unfold Qminus. rewrite <- inject_Z_opp, <- inject_Z_plus.
    change 2%Q with (inject_Z 2). rewrite <- inject_Z_mult, <- !Zle_Qle. lia. }
  rewrite <- E in B1. split.
  - apply Qmult_le_r with (inject_Z d); [exact P|]. lra.
  - apply Qmult_le_r with (inject_Z d); [exact P|]. lra.
Qed.

(** *** The exponent *)

Lemma floor_log2_spec : forall num den, 0 < num -> 0 < den ->
  (pw (floor_log2 num den) <= frac num den)%Q /\ (frac num den < pw (floor_log2 num den + 1))%Q.
Proof.
  intros num den N D. unfold floor_log2.
  pose proof (Z.log2_spec num N) as [N1 N2]. pose proof (Z.log2_spec den D) as [D1 D2].
  pose proof (Z.log2_nonneg num). pose proof (Z.log2_nonneg den).
  set (a := Z.log2 num) in *. set (b := Z.log2 den) in *.
  rewrite Zle_Qle, <- pw_nat in N1, D1 by lia. rewrite Zlt_Qlt, <- pw_nat in N2, D2 by lia.
  rewrite <- Z.add_1_r, pw_add in N2, D2.
  assert (P1 : (pw 1 == 2)%Q) by reflexivity. rewrite P1 in N2, D2.
  assert (PB := pw_pos b). assert (PA := pw_pos a). assert (PD := inj_pos den D).
  assert (S : (pw (a - b) * pw b == pw a)%Q) by (rewrite <- pw_add; replace (a - b + b) with a by lia; reflexivity).
  assert (SC := pw_pos (a - b)).
  assert (UP : (frac num den < pw (a - b + 1))%Q).
  { rewrite pw_add, P1. apply Qnot_le_lt. intros L. rewrite frac_ge in L by exact D. nra. }
  assert (LO : (pw (a - b - 1) <= frac num den)%Q).
  { rewrite frac_ge by exact D. assert (PP : (pw (a - b - 1) * 2 == pw (a - b))%Q).
    { rewrite <- P1, <- pw_add. replace (a - b - 1 + 1) with (a - b) by lia. reflexivity. }
    pose proof (pw_pos (a - b - 1)). nra. }
  destruct (scaled num den (a - b)) as [n d] eqn:SE. destruct (scaled_spec _ _ _ _ _ D SE) as (DP & EQ & _).
  destruct (d <=? n) eqn:C.
  - split; [|exact UP]. apply Z.leb_le in C. assert (1 <= frac n d)%Q by (rewrite frac_ge, Qmult_1_l, <- Zle_Qle by exact DP; exact C).
    rewrite <- EQ. nra.
  - split; [exact LO|]. apply Z.leb_gt in C. replace (a - b - 1 + 1) with (a - b) by lia.
    assert (frac n d < 1)%Q. { apply Qnot_le_lt. intros L. rewrite frac_ge, Qmult_1_l, <- Zle_Qle in L by exact DP. lia. }
    rewrite <- EQ. nra.
Qed.

(** *** The nearest f64 *)

Definition fval (x : f64) : Q := (inject_Z (f_mant x) * pw (f_exp x))%Q.

Definition normal (x : f64) : Prop :=
  0 <= f_mant x < 2 ^ 53 /\ -1074 <= f_exp x /\ (f_exp x = -1074 \/ 2 ^ 52 <= f_mant x).

(** The exponent and the mantissa before the last normalisation. *)
Definition exp_of (num den : Z) : Z := Z.max (floor_log2 num den - 52) (-1074).
Definition mant_of (num den : Z) : Z := let (n, d) := scaled num den (exp_of num den) in nearest n d.

Lemma nearest_ge : forall n d k, 0 < d -> k * d <= n -> k <= nearest n d.
Proof. intros n d k D H. rewrite <- (nearest_exact k 1) by lia. apply nearest_mono; lia. Qed.
Lemma nearest_le : forall n d k, 0 < d -> n <= k * d -> nearest n d <= k.
Proof. intros n d k D H. rewrite <- (nearest_exact k 1) by lia. apply nearest_mono; lia. Qed.

Lemma exp_bounds : forall num den, 0 < num -> 0 < den ->
  (frac num den < pw (exp_of num den + 53))%Q /\ (exp_of num den = -1074 \/ (pw (exp_of num den + 52) <= frac num den)%Q).
Proof.
  intros num den N D. destruct (floor_log2_spec num den N D) as [L U]. unfold exp_of. split.
  - eapply Qlt_le_trans; [exact U|]. apply pw_mono. lia.
  - destruct (Z.max_spec (floor_log2 num den - 52) (-1074)) as [[_ ->]|[_ ->]]; [left; reflexivity|right].
    replace (floor_log2 num den - 52 + 52) with (floor_log2 num den) by lia. exact L.
Qed.

Lemma mant_bounds : forall num den, 0 < num -> 0 < den ->
  0 <= mant_of num den <= 2 ^ 53 /\ (exp_of num den = -1074 \/ 2 ^ 52 <= mant_of num den)
  /\ (Qabs (inject_Z (mant_of num den) * pw (exp_of num den) - frac num den) <= (1 # 2) * pw (exp_of num den))%Q.
Proof.
  intros num den N D. destruct (exp_bounds num den N D) as [U L]. unfold mant_of. set (e := exp_of num den) in *.
  destruct (scaled num den e) as [n d] eqn:SE. destruct (scaled_spec _ _ _ _ _ D SE) as (DP & EQ & _ & NP). specialize (NP N).
  pose proof (pw_pos e) as PE. rewrite pw_add in U. rewrite <- EQ in U.
  assert (U' : (frac n d < pw 53)%Q) by (apply Qmult_lt_r with (pw e); [exact PE|lra]).
  rewrite pw_nat in U' by lia. split; [|split].
  - split; [apply nearest_ge; lia|]. apply nearest_le; [exact DP|]. rewrite Zle_Qle, inject_Z_mult. apply frac_le; [exact DP|]. lra.
  - destruct L as [L|L]; [left; exact L|right]. apply nearest_ge; [exact DP|]. rewrite Zle_Qle, inject_Z_mult. apply frac_ge; [exact DP|].
    rewrite pw_add, <- EQ in L. rewrite <- pw_nat by lia. apply Qmult_le_r with (pw e); [exact PE|lra].
  - pose proof (nearest_q n d DP) as NQ. rewrite <- EQ. apply Qabs_Qle_condition in NQ. apply Qabs_Qle_condition. nra.
Qed.

Lemma to_f64_some : forall num den x, 0 <= num -> 0 < den -> to_f64 num den = Some x ->
  normal x /\ f_exp x <= 971
  /\ ((num = 0 /\ f_mant x = 0)
      \/ (0 < num /\ (fval x == inject_Z (mant_of num den) * pw (exp_of num den))%Q)).
Proof.
  intros num den x N D. unfold to_f64. destruct (num =? 0) eqn:Z0.
  - apply Z.eqb_eq in Z0. intros [= <-]. split; [|split; [cbn; lia|left; auto]]. unfold normal. cbn. lia.
  - apply Z.eqb_neq in Z0. assert (NP : 0 < num) by lia. pose proof (mant_bounds num den NP D) as ((B0 & B1) & B2 & _).
    fold (exp_of num den). unfold mant_of in *. set (e := exp_of num den) in *. assert (-1074 <= e) by (unfold e, exp_of; lia).
    destruct (scaled num den e) as [n d]. destruct (nearest n d =? 2 ^ 53) eqn:C.
    + apply Z.eqb_eq in C. cbn [f_exp]. destruct (971 <? e + 1) eqn:O; [discriminate|]. apply Z.ltb_ge in O. intros [= <-].
      split; [|split; [exact O|right; split; [exact NP|]]].
      * unfold normal. cbn [f_mant f_exp]. lia.
      * rewrite C. assert (K2 : (inject_Z (2 ^ 53) == 2 * inject_Z (2 ^ 52))%Q) by reflexivity. rewrite K2.
        transitivity (inject_Z (2 ^ 52) * pw (e + 1))%Q; [reflexivity|]. rewrite pw_add. change (pw 1) with 2%Q.
        generalize (inject_Z (2 ^ 52)) (pw e). intros. ring.
    + apply Z.eqb_neq in C. cbn [f_exp]. destruct (971 <? e) eqn:O; [discriminate|]. apply Z.ltb_ge in O. intros [= <-].
      split; [|split; [exact O|right; split; [exact NP|reflexivity]]].
      unfold normal. cbn [f_mant f_exp]. lia.
Qed.

(** The error of the conversion: half a unit in the last place. *)
Lemma to_f64_error : forall num den x, 0 <= num -> 0 < den -> to_f64 num den = Some x ->
  (Qabs (fval x - frac num den) <= frac num den * pw (-53) + pw (-1075))%Q.
Proof.
  intros num den x N D H. destruct (to_f64_some _ _ _ N D H) as (_ & _ & [[E M]|(NP & ->)]).
  - subst num. unfold fval. rewrite M. apply Qabs_Qle_condition. pose proof (pw_pos (-1075)). pose proof (pw_pos (-53)).
    unfold frac. change (inject_Z 0) with 0%Q. assert (E : (0 / inject_Z den == 0)%Q) by (unfold Qdiv; ring). rewrite E. lra.
  - destruct (mant_bounds num den NP D) as (_ & _ & B). destruct (exp_bounds num den NP D) as [_ L].
    eapply Qle_trans; [exact B|]. pose proof (pw_pos (-1075)). pose proof (pw_pos (-53)).
    assert (HALF : forall e, ((1 # 2) * pw e == pw (e - 1))%Q).
    { intros e. replace (e - 1) with (e + -1) by lia. rewrite pw_add. change (pw (-1)) with (1 # 2)%Q. ring. }
    rewrite HALF. assert (PV : (0 <= frac num den)%Q).
    { apply frac_ge; [exact D|]. rewrite Qmult_0_l. change 0%Q with (inject_Z 0). rewrite <- Zle_Qle. lia. }
    destruct L as [-> |L].
    + change (-1074 - 1) with (-1075). nra.
    + replace (exp_of num den - 1) with (exp_of num den + 52 + -53) by lia. rewrite pw_add. nra.
Qed.

(** Larger numbers have a larger f64, and a finite one if the larger one is finite. *)
Lemma frac_le2 : forall n1 d1 n2 d2, 0 < d1 -> 0 < d2 -> (frac n1 d1 <= frac n2 d2)%Q <-> n1 * d2 <= n2 * d1.
Proof.
  intros n1 d1 n2 d2 D1 D2. rewrite frac_le by exact D1. pose proof (inj_pos d2 D2) as P. pose proof (frac_mul n2 d2 D2) as E.
  rewrite Zle_Qle, !inject_Z_mult, <- E. split; intros L.
  - assert (inject_Z n1 * inject_Z d2 <= frac n2 d2 * inject_Z d1 * inject_Z d2)%Q by (apply Qmult_le_compat_r; lra). lra.
  - apply Qmult_le_r with (inject_Z d2); [exact P|]. lra.
Qed.

Lemma exp_mono : forall n1 d1 n2 d2, 0 < n1 -> 0 < n2 -> 0 < d1 -> 0 < d2 -> (frac n1 d1 <= frac n2 d2)%Q ->
  exp_of n1 d1 <= exp_of n2 d2.
Proof.
  intros n1 d1 n2 d2 N1 N2 D1 D2 L. unfold exp_of.
  destruct (floor_log2_spec n1 d1 N1 D1) as [A _]. destruct (floor_log2_spec n2 d2 N2 D2) as [_ B].
  assert (floor_log2 n1 d1 <= floor_log2 n2 d2); [|lia].
  destruct (Z_le_gt_dec (floor_log2 n1 d1) (floor_log2 n2 d2)) as [|G]; [assumption|exfalso].
  pose proof (pw_mono (floor_log2 n2 d2 + 1) (floor_log2 n1 d1) ltac:(lia)). lra.
Qed.

Lemma raw_mono : forall n1 d1 n2 d2, 0 < n1 -> 0 < n2 -> 0 < d1 -> 0 < d2 -> (frac n1 d1 <= frac n2 d2)%Q ->
  (inject_Z (mant_of n1 d1) * pw (exp_of n1 d1) <= inject_Z (mant_of n2 d2) * pw (exp_of n2 d2))%Q.
Proof.
  intros n1 d1 n2 d2 N1 N2 D1 D2 L. pose proof (exp_mono _ _ _ _ N1 N2 D1 D2 L) as EM.
  destruct (Z.eq_dec (exp_of n1 d1) (exp_of n2 d2)) as [EE|NE].
  - rewrite EE. apply Qmult_le_compat_r; [|pose proof (pw_pos (exp_of n2 d2)); lra]. rewrite <- Zle_Qle.
    unfold mant_of. rewrite EE. set (e := exp_of n2 d2).
    destruct (scaled n1 d1 e) as [a b] eqn:S1. destruct (scaled n2 d2 e) as [c d] eqn:S2.
    destruct (scaled_spec _ _ _ _ _ D1 S1) as (B1 & Q1 & _). destruct (scaled_spec _ _ _ _ _ D2 S2) as (B2 & Q2 & _).
    apply nearest_mono; [assumption..|]. apply frac_le2; [assumption..|]. rewrite <- Q1, <- Q2 in L.
    apply Qmult_le_r with (pw e); [apply pw_pos|exact L].
  - destruct (mant_bounds n1 d1 N1 D1) as ((_ & B1) & _ & _). destruct (mant_bounds n2 d2 N2 D2) as (_ & B2 & _).
    assert (LT : exp_of n1 d1 < exp_of n2 d2) by lia.
    destruct B2 as [B2|B2]; [unfold exp_of in *; lia|].
    rewrite Zle_Qle in B1, B2. pose proof (pw_pos (exp_of n1 d1)). pose proof (pw_pos (exp_of n2 d2)).
    pose proof (pw_mono (exp_of n1 d1 + 1) (exp_of n2 d2) ltac:(lia)) as PM. rewrite pw_add in PM. change (pw 1) with 2%Q in PM.
    change (inject_Z (2 ^ 53)) with (2 * inject_Z (2 ^ 52))%Q in B1.
    assert (0 < inject_Z (2 ^ 52))%Q by reflexivity. set (K := inject_Z (2 ^ 52)) in *. nra.
Qed.

Lemma frac_pos : forall n d, 0 < d -> (0 < frac n d)%Q <-> 0 < n.
Proof.
  intros n d D. pose proof (frac_mul n d D) as E. pose proof (inj_pos d D). split; intros H0.
  - rewrite Zlt_Qlt. change (inject_Z 0) with 0%Q. rewrite <- E. nra.
  - apply Qnot_le_lt. intros L. apply frac_le in L; [|exact D]. rewrite Qmult_0_l in L. change 0%Q with (inject_Z 0) in L.
    rewrite <- Zle_Qle in L. lia.
Qed.

Lemma fval_nonneg : forall x, normal x -> (0 <= fval x)%Q.
Proof.
  intros x ((H & _) & _). unfold fval. pose proof (pw_pos (f_exp x)). rewrite Zle_Qle in H. change (inject_Z 0) with 0%Q in H. nra.
Qed.

Lemma to_f64_mono : forall n1 d1 x1 n2 d2 x2, 0 <= n1 -> 0 <= n2 -> 0 < d1 -> 0 < d2 -> (frac n1 d1 <= frac n2 d2)%Q ->
  to_f64 n1 d1 = Some x1 -> to_f64 n2 d2 = Some x2 -> (fval x1 <= fval x2)%Q.
Proof.
  intros n1 d1 x1 n2 d2 x2 N1 N2 D1 D2 L H1 H2.
  destruct (to_f64_some _ _ _ N1 D1 H1) as (NO1 & _ & [[E M]|(P1 & Q1)]).
  - unfold fval at 1. rewrite M. destruct (to_f64_some _ _ _ N2 D2 H2) as (NO2 & _). pose proof (fval_nonneg _ NO2). change (inject_Z 0) with 0%Q. lra.
  - destruct (to_f64_some _ _ _ N2 D2 H2) as (NO2 & _ & [[E M]|(P2 & Q2)]).
    + exfalso. subst n2. apply (frac_pos n1 d1) in P1; [|exact D1]. assert (frac 0 d2 == 0)%Q by (unfold frac, Qdiv; change (inject_Z 0) with 0%Q; ring). lra.
    + rewrite Q1, Q2. apply raw_mono; assumption.
Qed.

(** Not infinity, if the number is below [2^1000]. *)
Lemma to_f64_finite : forall num den, 0 <= num -> 0 < den -> (frac num den <= pw 1000)%Q -> exists x, to_f64 num den = Some x.
Proof.
  intros num den N D L. unfold to_f64. destruct (num =? 0) eqn:Z0; [eauto|]. apply Z.eqb_neq in Z0.
  fold (exp_of num den). assert (exp_of num den <= 950).
  { destruct (exp_bounds num den ltac:(lia) D) as [_ [-> |B]]; [lia|].
    destruct (Z_le_gt_dec (exp_of num den) 950) as [|G]; [assumption|exfalso].
    pose proof (pw_mono 1001 (exp_of num den + 52) ltac:(lia)) as PM. change 1001 with (1000 + 1) in PM. rewrite (pw_add 1000) in PM.
    change (pw 1) with 2%Q in PM. pose proof (pw_pos 1000). lra. }
  destruct (scaled num den (exp_of num den)) as [n d]. destruct (nearest n d =? 2 ^ 53); cbn [f_exp].
  - replace (971 <? exp_of num den + 1) with false by (symmetry; apply Z.ltb_ge; lia). eauto.
  - replace (971 <? exp_of num den) with false by (symmetry; apply Z.ltb_ge; lia). eauto.
Qed.

(** Integers below [2^53] are represented exactly. *)
Lemma to_f64_int : forall k, 0 <= k < 2 ^ 53 -> exists x, to_f64 k 1 = Some x /\ normal x /\ (fval x == inject_Z k)%Q.
Proof.
  intros k B. destruct (to_f64_finite k 1) as [x H]; [lia|lia| |].
  - apply frac_le; [lia|]. rewrite Qmult_1_r. rewrite pw_nat by lia. rewrite <- Zle_Qle.
    pose proof (Z.pow_le_mono_r 2 53 1000 ltac:(lia) ltac:(lia)). lia.
  - exists x. split; [exact H|]. destruct (to_f64_some k 1 x ltac:(lia) ltac:(lia) H) as (NO & _ & [[E M]|(P & Q)]); split; try exact NO.
    + unfold fval. rewrite M, E. change (inject_Z 0) with 0%Q. ring.
    + rewrite Q. unfold mant_of. destruct (scaled k 1 (exp_of k 1)) as [n d] eqn:S.
      destruct (scaled_spec _ _ _ _ _ Z.lt_0_1 S) as (DP & EQ & _).
      assert (E0 : exp_of k 1 <= 0).
      { destruct (exp_bounds k 1 P Z.lt_0_1) as [_ [-> |L]]; [lia|].
        destruct (Z_le_gt_dec (exp_of k 1) 0) as [|G]; [assumption|exfalso].
        pose proof (pw_mono 53 (exp_of k 1 + 52) ltac:(lia)) as PM. rewrite (pw_nat 53) in PM by lia.
        assert (L' := Qle_trans _ _ _ PM L). apply frac_ge in L'; [|lia]. rewrite Qmult_1_r, <- Zle_Qle in L'. lia. }
      assert (D1 : d = 1). { unfold scaled in S. destruct (0 <=? exp_of k 1) eqn:C; injection S as <- <-; [|reflexivity].
        apply Z.leb_le in C. replace (exp_of k 1) with 0 by lia. reflexivity. }
      rewrite D1 in *. replace n with (1 * n) by lia. rewrite nearest_exact by lia.
      rewrite <- (frac_mul k 1), <- EQ by lia. rewrite <- (frac_mul n 1) by lia. change (inject_Z 1) with 1%Q. ring.
Qed.

(** *** The duration *)

Lemma land_pow2 : forall a n, 0 <= n -> Z.land a (2 ^ n) = if Z.testbit a n then 2 ^ n else 0.
Proof.
  intros a n H. apply Z.bits_inj'. intros k K. rewrite Z.land_spec, Z.pow2_bits_eqb by exact H.
  destruct (n =? k) eqn:E.
  - apply Z.eqb_eq in E. subst k. rewrite andb_true_r. destruct (Z.testbit a n); [rewrite Z.pow2_bits_true by exact H|rewrite Z.bits_0]; reflexivity.
  - rewrite andb_false_r. destruct (Z.testbit a n); [|rewrite Z.bits_0; reflexivity]. symmetry. apply Z.pow2_bits_false. apply Z.eqb_neq. exact E.
Qed.

Lemma testbit_mod : forall a n, 0 <= n -> Z.testbit a n = (2 ^ n <=? a mod 2 ^ (n + 1)).
Proof.
  intros a n H. rewrite Z.testbit_eqb by exact H. assert (P : 0 < 2 ^ n) by (apply Z.pow_pos_nonneg; lia).
  rewrite Z.pow_add_r, Z.pow_1_r by lia. rewrite Z.rem_mul_r by lia.
  pose proof (Z.mod_pos_bound a (2 ^ n) P). pose proof (Z.mod_pos_bound (a / 2 ^ n) 2 ltac:(lia)).
  destruct ((a / 2 ^ n) mod 2 =? 1) eqn:E.
  - apply Z.eqb_eq in E. rewrite E. symmetry. apply Z.leb_le. lia.
  - apply Z.eqb_neq in E. assert (Z0 : (a / 2 ^ n) mod 2 = 0) by lia. rewrite Z0. symmetry. apply Z.leb_gt. lia.
Qed.

Lemma land_1 : forall a, (Z.land a 1 =? 0) = Z.even a.
Proof.
  intros a. change 1 with (2 ^ 0) at 1. rewrite land_pow2 by lia. rewrite Z.bit0_odd, <- Z.negb_even. destruct (Z.even a); reflexivity.
Qed.

Lemma round_nanos_nearest : forall tmp off, 0 < off -> round_nanos tmp off = nearest tmp (2 ^ off).
Proof.
  intros tmp off H. unfold round_nanos. rewrite Z.shiftr_div_pow2, Z.land_ones, Z.shiftl_1_l, land_1, land_pow2, testbit_mod by lia.
  replace (off - 1 + 1) with off by lia. assert (P : 2 ^ off = 2 * 2 ^ (off - 1)) by (rewrite <- Z.pow_succ_r by lia; f_equal; lia).
  assert (0 < 2 ^ (off - 1)) by (apply Z.pow_pos_nonneg; lia).
  unfold nearest. set (q := tmp / 2 ^ off). set (r := tmp mod 2 ^ off) in *. rewrite P.
  destruct (2 ^ (off - 1) <=? r) eqn:C.
  - apply Z.leb_le in C. replace (2 ^ (off - 1) =? 0) with false by (symmetry; apply Z.eqb_neq; lia). cbn [orb].
    replace (2 * r <? 2 * 2 ^ (off - 1)) with false by (symmetry; apply Z.ltb_ge; lia).
    destruct (r =? 2 ^ (off - 1)) eqn:T.
    + apply Z.eqb_eq in T. replace (2 * 2 ^ (off - 1) <? 2 * r) with false by (symmetry; apply Z.ltb_ge; lia).
      rewrite andb_true_r. reflexivity.
    + apply Z.eqb_neq in T. replace (2 * 2 ^ (off - 1) <? 2 * r) with true by (symmetry; apply Z.ltb_lt; lia).
      rewrite andb_false_r. reflexivity.
  - apply Z.leb_gt in C. replace (2 * r <? 2 * 2 ^ (off - 1)) with true by (symmetry; apply Z.ltb_lt; lia). reflexivity.
Qed.

Lemma bits_normal : forall x, normal x -> f_exp x <= 971 -> 2 ^ 52 <= f_mant x ->
  Z.lor (Z.land (to_bits x) MANT_MASK) (MANT_MASK + 1) = f_mant x
  /\ Z.land (Z.shiftr (to_bits x) MANT_BITS) EXP_MASK + MIN_EXP = f_exp x + 52.
Proof.
  intros [m e] ((B0 & B1) & E0 & _) E1 M. cbn [f_mant f_exp] in *. unfold to_bits, MANT_MASK, EXP_MASK, MANT_BITS, MIN_EXP. cbn [f_mant f_exp].
  replace (m <? 2 ^ 52) with false by (symmetry; apply Z.ltb_ge; exact M).
  rewrite !Z.land_ones, Z.shiftr_div_pow2 by lia. change (Z.ones 52 + 1) with (2 ^ 52).
  assert (MOD : ((e + 1075) * 2 ^ 52 + (m - 2 ^ 52)) mod 2 ^ 52 = m - 2 ^ 52).
  { rewrite Z.add_comm, Z_mod_plus_full. apply Z.mod_small. lia. }
  assert (DIV : ((e + 1075) * 2 ^ 52 + (m - 2 ^ 52)) / 2 ^ 52 = e + 1075).
  { rewrite Z.add_comm, Z_div_plus_full by lia. rewrite Z.div_small by lia. lia. }
  rewrite MOD, DIV. split.
  - assert (LA : Z.land (m - 2 ^ 52) (2 ^ 52) = 0).
    { rewrite land_pow2, testbit_mod by lia. rewrite Z.mod_small by lia.
      replace (2 ^ 52 <=? m - 2 ^ 52) with false by (symmetry; apply Z.leb_gt; lia). reflexivity. }
    rewrite <- Z.lxor_lor, <- Z.add_nocarry_lxor by exact LA. lia.
  - rewrite Z.mod_small by lia. lia.
Qed.

Definition NS : Z := 1000000000.

(** [m * 2^e] as a fraction, the nearest number of nanoseconds. *)
Definition nanos_of (x : f64) : Z := let (n, d) := scaled (f_mant x) 1 (- f_exp x) in nearest (NS * n) d.

Lemma at_most_u32_spec : forall x, at_most_u32 x = true <-> (fval x <= inject_Z 4294967295)%Q.
Proof.
  intros [m e]. unfold at_most_u32, fval. cbn [f_mant f_exp]. destruct (scaled m 1 (- e)) as [n d] eqn:S.
  destruct (scaled_spec _ _ _ _ _ Z.lt_0_1 S) as (DP & EQ & _). rewrite Z.leb_le.
  assert (V : (inject_Z m * pw e == frac n d)%Q).
  { rewrite <- (frac_mul m 1), <- EQ by lia. change (inject_Z 1) with 1%Q. pose proof (pw_opp e).
    transitivity (frac n d * (pw e * pw (- e)))%Q; [ring|]. rewrite H. ring. }
  rewrite V, frac_le by exact DP. rewrite <- inject_Z_mult, <- Zle_Qle. reflexivity.
Qed.

Lemma fval_frac : forall x n d, scaled (f_mant x) 1 (- f_exp x) = (n, d) -> 0 < d /\ (fval x == frac n d)%Q.
Proof.
  intros [m e] n d S. cbn [f_mant f_exp] in S. destruct (scaled_spec _ _ _ _ _ Z.lt_0_1 S) as (DP & EQ & _). split; [exact DP|].
  unfold fval. cbn [f_mant f_exp]. rewrite <- (frac_mul m 1), <- EQ by lia. change (inject_Z 1) with 1%Q. pose proof (pw_opp e).
  transitivity (frac n d * (pw e * pw (- e)))%Q; [ring|]. rewrite H. ring.
Qed.

(** The same, whatever fraction is used. *)
Lemma nanos_frac : forall x n d, 0 < d -> (fval x == frac n d)%Q -> nanos_of x = nearest (NS * n) d.
Proof.
  intros x n d D V. unfold nanos_of. destruct (scaled (f_mant x) 1 (- f_exp x)) as [n' d'] eqn:S.
  destruct (fval_frac _ _ _ S) as [D' V']. rewrite V' in V.
  assert (E : n' * d = n * d').
  { apply Z.le_antisymm; apply frac_le2; try assumption; rewrite V; apply Qle_refl. }
  rewrite <- (nearest_mul d (NS * n') d'), <- (nearest_mul d' (NS * n) d) by assumption. f_equal; [|lia].
  unfold NS. nia.
Qed.

Lemma try_from_secs_nearest : forall x, normal x -> f_exp x <= 971 -> (fval x <= inject_Z 4294967295)%Q ->
  exists s n, try_from_secs (to_bits x) = Some (s, n) /\ s * NANOS_PER_SEC + n = nanos_of x /\ 0 <= s /\ 0 <= n.
Proof.
  intros x NO E1 U. pose proof NO as ((M0 & M1) & E0 & _). unfold try_from_secs.
  assert (SMALL : (fval x < pw (-31))%Q -> nanos_of x = 0).
  { intros L. destruct (scaled (f_mant x) 1 (- f_exp x)) as [n d] eqn:S. destruct (fval_frac _ _ _ S) as [D V].
    rewrite (nanos_frac x n d D V). destruct (scaled_spec _ _ _ _ _ Z.lt_0_1 S) as (_ & _ & N0 & _). specialize (N0 M0).
    rewrite V in L. assert (2 * NS * n < d).
    { assert (n * 2 ^ 31 < 1 * d); [|unfold NS; lia]. apply Z.nle_gt. intros X. apply frac_le2 in X; [|lia|exact D].
      assert (frac 1 (2 ^ 31) == pw (-31))%Q by reflexivity. lra. }
    unfold NS in *. apply nearest_unique; [exact D|lia|lia]. }
  destruct (Z_lt_ge_dec (f_mant x) (2 ^ 52)) as [SUB|NRM].
  - (* subnormal *)
    assert (TB : to_bits x = f_mant x) by (unfold to_bits; rewrite (proj2 (Z.ltb_lt _ _) SUB); reflexivity). rewrite TB.
    assert (EX : Z.land (Z.shiftr (f_mant x) MANT_BITS) EXP_MASK + MIN_EXP = -1023).
    { unfold MANT_BITS. rewrite Z.shiftr_div_pow2 by lia. rewrite Z.div_small by lia. rewrite Z.land_0_l. reflexivity. }
    rewrite EX. cbn [Z.ltb Z.compare]. change (-1023 <? -31) with true. cbn iota. exists 0, 0. split; [reflexivity|].
    split; [|lia]. symmetry. apply SMALL. destruct NO as (_ & _ & [E|E]); [|lia].
    unfold fval. rewrite E. assert (f_mant x <= 2 ^ 52) by lia. rewrite Zle_Qle in H.
    apply Qle_lt_trans with (inject_Z (2 ^ 52) * pw (-1074))%Q.
    + apply Qmult_le_compat_r; [exact H|pose proof (pw_pos (-1074)); lra].
    + rewrite <- (pw_nat 52), <- pw_add by lia. change (52 + -1074) with (-1022).
      pose proof (pw_mono (-1022) (-32) ltac:(lia)). change (-31) with (-32 + 1). rewrite pw_add. change (pw 1) with 2%Q. pose proof (pw_pos (-32)). lra.
  - destruct (bits_normal x NO E1 ltac:(lia)) as [BM BE]. rewrite BM, BE. destruct x as [m e]. cbn [f_mant f_exp] in *.
    assert (VM : (fval (F64 m e) == inject_Z m * pw e)%Q) by reflexivity.
    assert (E32 : e + 52 < 32).
    { destruct (Z_lt_ge_dec (e + 52) 32) as [|G]; [assumption|exfalso]. pose proof (pw_mono (-20) e ltac:(lia)) as PM.
      assert (inject_Z (2 ^ 52) <= inject_Z m)%Q by (rewrite <- Zle_Qle; lia). pose proof (pw_pos e).
      rewrite VM in U. assert (inject_Z (2 ^ 52) * pw (-20) <= inject_Z m * pw e)%Q.
      { pose proof (pw_pos (-20)). assert (0 < inject_Z (2 ^ 52))%Q by reflexivity. set (K := inject_Z (2 ^ 52)) in *. nra. }
      assert (inject_Z (2 ^ 52) * pw (-20) == inject_Z 4294967296)%Q by reflexivity. rewrite H2 in H1. assert (X := Qle_trans _ _ _ H1 U).
      rewrite <- Zle_Qle in X. lia. }
    destruct (e + 52 <? -31) eqn:C1.
    + apply Z.ltb_lt in C1. exists 0, 0. split; [reflexivity|]. split; [|lia]. symmetry. apply SMALL. rewrite VM.
      apply Qlt_le_trans with (inject_Z (2 ^ 53) * pw e)%Q.
      * apply Qmult_lt_r; [apply pw_pos|]. rewrite <- Zlt_Qlt. lia.
      * rewrite <- (pw_nat 53), <- pw_add by lia. apply pw_mono. lia.
    + apply Z.ltb_ge in C1. destruct (e + 52 <? 0) eqn:C2.
      * apply Z.ltb_lt in C2. unfold MANT_BITS. rewrite round_nanos_nearest, Z.shiftl_mul_pow2 by lia.
        assert (NF : nanos_of (F64 m e) = nearest (NANOS_PER_SEC * (m * 2 ^ (44 + (e + 52)))) (2 ^ (52 + 44))).
        { apply nanos_frac; [lia|]. rewrite VM. unfold frac. rewrite inject_Z_mult, <- !pw_nat by lia.
          assert (PP : (pw (44 + (e + 52)) == pw e * pw (52 + 44))%Q) by (rewrite <- pw_add; replace (e + (52 + 44)) with (44 + (e + 52)) by lia; reflexivity).
          rewrite PP. field. pose proof (pw_pos (52 + 44)). lra. }
        rewrite <- NF. assert (N0 : 0 <= nanos_of (F64 m e)).
        { rewrite NF. apply nearest_ge; [lia|]. assert (0 < 2 ^ (44 + (e + 52))) by (apply Z.pow_pos_nonneg; lia). unfold NANOS_PER_SEC. nia. }
        destruct (nanos_of (F64 m e) =? NANOS_PER_SEC) eqn:C3.
        -- apply Z.eqb_eq in C3. exists 1, 0. split; [reflexivity|]. lia.
        -- exists 0, (nanos_of (F64 m e)). split; [reflexivity|]. lia.
      * apply Z.ltb_ge in C2. unfold MANT_BITS. replace (e + 52 <? 52) with true by (symmetry; apply Z.ltb_lt; lia).
        rewrite round_nanos_nearest by lia. unfold MANT_MASK. rewrite Z.shiftr_div_pow2, Z.shiftl_mul_pow2, !Z.land_ones by lia.
        replace (52 - (e + 52)) with (- e) by lia.
        assert (MM : (m * 2 ^ (e + 52)) mod 2 ^ 64 mod 2 ^ 52 = (m * 2 ^ (e + 52)) mod 2 ^ 52).
        { rewrite <- Znumtheory.Zmod_div_mod; [reflexivity|lia|lia|]. exists (2 ^ 12). reflexivity. }
        rewrite MM. set (a := m * 2 ^ (e + 52)). set (s := m / 2 ^ (- e)). assert (PE : 0 < 2 ^ (- e)) by (apply Z.pow_pos_nonneg; lia).
        assert (PE2 : 0 < 2 ^ (e + 52)) by (apply Z.pow_pos_nonneg; lia).
        assert (SPLIT : 2 ^ 52 = 2 ^ (e + 52) * 2 ^ (- e)) by (rewrite <- Z.pow_add_r by lia; f_equal; lia).
        assert (AS : a = 2 ^ 52 * s + a mod 2 ^ 52).
        { assert (a / 2 ^ 52 = s). { unfold a, s. rewrite SPLIT, (Z.mul_comm m). apply Z.div_mul_cancel_l; lia. }
          rewrite <- H. apply Z.div_mod. lia. }
        assert (NF : nanos_of (F64 m e) = s * NANOS_PER_SEC + nearest (NANOS_PER_SEC * (a mod 2 ^ 52)) (2 ^ 52)).
        { rewrite <- (nearest_shift (s * NANOS_PER_SEC)); [|lia|rewrite Z.even_mul; apply orb_true_r].
          rewrite (nanos_frac (F64 m e) a (2 ^ 52)); [f_equal; unfold NS, NANOS_PER_SEC in *; lia|lia|].
          rewrite VM. unfold frac, a. rewrite inject_Z_mult, <- !pw_nat by lia. rewrite (pw_add e 52). field. pose proof (pw_pos 52). lra. }
        assert (S0 : 0 <= s) by (unfold s; apply Z.div_pos; lia).
        assert (N0 : 0 <= nearest (NANOS_PER_SEC * (a mod 2 ^ 52)) (2 ^ 52)).
        { apply nearest_ge; [lia|]. pose proof (Z.mod_pos_bound a (2 ^ 52) ltac:(lia)). unfold NANOS_PER_SEC. lia. }
        destruct (nearest (NANOS_PER_SEC * (a mod 2 ^ 52)) (2 ^ 52) =? NANOS_PER_SEC) eqn:C3.
        -- apply Z.eqb_eq in C3. exists (s + 1), 0. split; [reflexivity|]. rewrite NF, C3. lia.
        -- exists s, (nearest (NANOS_PER_SEC * (a mod 2 ^ 52)) (2 ^ 52)). split; [reflexivity|]. rewrite NF. lia.
Qed.
