(** From the text of a decimal number to a duration. *)

From Coq Require Import String ZArith NArith List Bool Lia QArith Qpower Qabs Lqa.
From Verif Require Import M_Base M_ConfTypes M_Text M_Str M_Float S_Text S_Float P_Str P_Float P_FloatText.
Import ListNotations.
Local Open Scope Z_scope.

(** *** Powers of ten *)

Definition p10 (e : Z) : Q := Qpower (inject_Z 10) e.

Lemma p10_add : forall a b, (p10 (a + b) == p10 a * p10 b)%Q.
Proof. intros. apply Qpower_plus. discriminate. Qed.
Lemma p10_nat : forall e, 0 <= e -> (p10 e == inject_Z (10 ^ e))%Q.
Proof. intros e H. unfold p10. symmetry. apply Zpower_Qpower. exact H. Qed.
Lemma p10_opp : forall e, (p10 e * p10 (- e) == 1)%Q.
Proof. intros e. rewrite <- p10_add. replace (e + - e) with 0 by lia. reflexivity. Qed.
Lemma p10_pos : forall e, (0 < p10 e)%Q.
Proof.
  assert (N : forall e, 0 <= e -> (0 < p10 e)%Q).
  { intros e H. rewrite p10_nat by exact H. apply inj_pos. apply Z.pow_pos_nonneg; lia. }
  intros e. destruct (Z_le_gt_dec 0 e) as [H|H]; [auto|]. pose proof (N (- e) ltac:(lia)). pose proof (p10_opp e).
  destruct (Qlt_le_dec 0 (p10 e)) as [L|L]; [exact L|exfalso].
  assert (p10 e * p10 (- e) <= 0 * p10 (- e))%Q by (apply Qmult_le_compat_r; lra). lra.
Qed.
Lemma p10_mono : forall a b, a <= b -> (p10 a <= p10 b)%Q.
Proof.
  intros a b H. replace b with (a + (b - a)) by lia. rewrite p10_add. pose proof (p10_pos a).
  assert (1 <= p10 (b - a))%Q.
  { rewrite p10_nat by lia. change 1%Q with (inject_Z 1). rewrite <- Zle_Qle. assert (0 < 10 ^ (b - a)) by (apply Z.pow_pos_nonneg; lia). lia. }
  nra.
Qed.

(** Comparisons of constants. *)
Lemma const_1 : (p10 (-10) < pw (-32))%Q. Proof. reflexivity. Qed.
Lemma const_2 : (pw (-32) < p10 10)%Q. Proof. reflexivity. Qed.
Lemma const_3 : (pw (-32) < inject_Z 4294967295)%Q. Proof. reflexivity. Qed.
Lemma const_4 : (pw (-32) + pw (-32) * pw (-53) + pw (-100) < pw (-31))%Q. Proof. reflexivity. Qed.
Lemma const_5 : (inject_Z 4294967295 < p10 10)%Q. Proof. reflexivity. Qed.
Lemma const_6 : (p10 (-10) < (9007199252643841 # 2097152))%Q. Proof. reflexivity. Qed.
Lemma const_7 : ((9007199252643841 # 2097152) < p10 10)%Q. Proof. reflexivity. Qed.
Lemma const_8 : (pw (-1000) <= p10 (-300))%Q. Proof. vm_compute. discriminate. Qed.
Lemma const_9 : (pw (-1000) < p10 10)%Q. Proof. reflexivity. Qed.
Lemma const_10 : (pw (-53) < 1 # 4)%Q. Proof. reflexivity. Qed.
Lemma const_11 : (pw (-75) < 1 # 4)%Q. Proof. reflexivity. Qed.
Lemma const_12 : (frac 1 (2 ^ 31) == pw (-31))%Q. Proof. reflexivity. Qed.
Local Opaque p10 pw.

Lemma numeral_small : forall ds v, numeral 10 ds v -> Z.of_N v < 10 ^ Z.of_nat (length ds).
Proof.
  induction 1 as [|t v c d H IH D]; [reflexivity|]. rewrite app_length. cbn [length].
  replace (Z.of_nat (length t + 1)) with (Z.succ (Z.of_nat (length t))) by lia. rewrite Z.pow_succ_r by lia. unfold digit in D. lia.
Qed.

Lemma decimal_frac : forall x, 0 <= dc_mant x -> exists num den, 0 <= num /\ 0 < den /\ decimal_f64 x = to_f64 num den
  /\ (frac num den == inject_Z (dc_mant x) * p10 (dc_exp x))%Q.
Proof.
  intros [neg m e] M. unfold decimal_f64. cbn [dc_mant dc_exp] in *. destruct (0 <=? e) eqn:C.
  - apply Z.leb_le in C. exists (m * 10 ^ e), 1. assert (0 < 10 ^ e) by (apply Z.pow_pos_nonneg; lia). split; [nia|]. split; [lia|]. split; [reflexivity|].
    rewrite p10_nat by exact C. unfold frac. rewrite inject_Z_mult. change (inject_Z 1) with 1%Q. field.
  - apply Z.leb_gt in C. exists m, (10 ^ (- e)). assert (0 < 10 ^ (- e)) by (apply Z.pow_pos_nonneg; lia). split; [exact M|]. split; [lia|]. split; [reflexivity|].
    unfold frac. rewrite <- p10_nat by lia. pose proof (p10_pos (- e)). pose proof (p10_opp e). apply Qeq_trans with (inject_Z m * (p10 e * p10 (- e)) / p10 (- e))%Q.
    + rewrite H1. field. lra.
    + field. lra.
Qed.

Definition size_ok (t : text) : Prop := (N.of_nat (length t) <= 60000)%N.

Definition amount (i : Z) (k : nat) (e : Z) : Q := (inject_Z i * p10 (e - Z.of_nat k))%Q.

Lemma parts_small : forall t neg i k e, parts t neg i k e -> size_ok t -> exists L, 0 <= L <= 60000 /\ 0 <= i < 10 ^ L /\ Z.of_nat k <= 60000.
Proof.
  intros t neg i k e (sg & int & pt & f & ex & -> & _ & P & _ & _ & NU & I0 & ->) S. unfold size_ok in S. rewrite !app_length in S.
  assert (length f <= length pt)%nat by (inversion P; subst; cbn [length app]; [lia|rewrite app_length; lia]).
  exists (Z.of_nat (length (int ++ f))). rewrite app_length. split; [lia|]. split; [|lia]. split; [exact I0|].
  pose proof (numeral_small _ _ NU) as L. rewrite Z2N.id, app_length in L by exact I0. exact L.
Qed.

Lemma sat_cases : forall L i k e e', 0 <= L <= 60000 -> 0 <= i < 10 ^ L -> Z.of_nat k <= 60000 -> saturates e e' ->
  (amount i k e' == amount i k e)%Q
  \/ (amount i k e' < p10 (-10) /\ amount i k e < p10 (-10))%Q
  \/ (p10 10 <= amount i k e' /\ p10 10 <= amount i k e)%Q.
Proof.
  intros L i k e e' LB I K [-> |[S|S]]; [left; reflexivity|right..]; unfold amount.
  - destruct (Z.eq_dec i 0) as [-> |NZ].
    + left. change (inject_Z 0) with 0%Q. pose proof (p10_pos (-10)). rewrite !Qmult_0_l. split; assumption.
    + right. assert (P : forall x, 65536 <= x -> (p10 10 <= inject_Z i * p10 (x - Z.of_nat k))%Q).
      { intros x X. pose proof (p10_mono 10 (x - Z.of_nat k) ltac:(lia)). pose proof (p10_pos 10).
        assert (1 <= inject_Z i)%Q by (change 1%Q with (inject_Z 1); rewrite <- Zle_Qle; lia). nra. }
      split; apply P; lia.
  - left. assert (P : forall x, x <= -65536 -> (inject_Z i * p10 (x - Z.of_nat k) < p10 (-10))%Q).
    { intros x X. pose proof (p10_mono (x - Z.of_nat k) (-65536) ltac:(lia)) as PM.
      assert (IL : (inject_Z i < p10 L)%Q) by (rewrite p10_nat, <- Zlt_Qlt by lia; apply I).
      assert (IP : (0 <= inject_Z i)%Q) by (change 0%Q with (inject_Z 0); rewrite <- Zle_Qle; apply I).
      apply Qle_lt_trans with (inject_Z i * p10 (-65536))%Q; [rewrite !(Qmult_comm (inject_Z i)); apply Qmult_le_compat_r; assumption|].
      apply Qlt_le_trans with (p10 L * p10 (-65536))%Q; [apply Qmult_lt_r; [apply p10_pos|exact IL]|].
      rewrite <- p10_add. apply p10_mono. lia. }
    split; apply P; lia.
Qed.

Lemma small_zero : forall x, normal x -> (fval x < pw (-31))%Q -> nanos_of x = 0.
Proof.
  intros x ((M0 & M1) & E0 & _) L. destruct (scaled (f_mant x) 1 (- f_exp x)) as [n d] eqn:S. destruct (fval_frac _ _ _ S) as [D V].
  rewrite (nanos_frac x n d D V). destruct (scaled_spec _ _ _ _ _ Z.lt_0_1 S) as (_ & _ & N0 & _). specialize (N0 M0).
  rewrite V in L. assert (2 * NS * n < d).
  { assert (n * 2 ^ 31 < 1 * d); [|unfold NS; lia]. apply Z.nle_gt. intros X. apply frac_le2 in X; [|lia|exact D].
    pose proof const_12. lra. }
  unfold NS in *. apply nearest_unique; [exact D|lia|lia].
Qed.

Lemma nanos_error : forall x, (Qabs (inject_Z (nanos_of x) - inject_Z NS * fval x) <= 1 # 2)%Q.
Proof.
  intros x. destruct (scaled (f_mant x) 1 (- f_exp x)) as [n d] eqn:S. destruct (fval_frac _ _ _ S) as [D V].
  rewrite (nanos_frac x n d D V), V. pose proof (nearest_q (NS * n) d D) as Q.
  assert (E : (frac (NS * n) d == inject_Z NS * frac n d)%Q).
  { unfold frac. rewrite inject_Z_mult. field. pose proof (inj_pos d D). lra. }
  rewrite E in Q. exact Q.
Qed.

Lemma nanos_mono : forall x y, (fval x <= fval y)%Q -> nanos_of x <= nanos_of y.
Proof.
  intros x y L. destruct (scaled (f_mant x) 1 (- f_exp x)) as [n d] eqn:S. destruct (fval_frac _ _ _ S) as [D V].
  destruct (scaled (f_mant y) 1 (- f_exp y)) as [n' d'] eqn:S'. destruct (fval_frac _ _ _ S') as [D' V'].
  rewrite (nanos_frac x n d D V), (nanos_frac y n' d' D' V'). apply nearest_mono; [exact D|exact D'|].
  rewrite V, V' in L. apply (proj1 (frac_le2 n d n' d' D D')) in L. unfold NS. lia.
Qed.

Lemma nanos_nonneg : forall x, normal x -> 0 <= nanos_of x.
Proof.
  intros x ((M0 & M1) & _). unfold nanos_of. destruct (scaled (f_mant x) 1 (- f_exp x)) as [n d] eqn:S.
  destruct (scaled_spec _ _ _ _ _ Z.lt_0_1 S) as (D & _ & N0 & _). specialize (N0 M0). apply nearest_ge; [exact D|]. unfold NS. lia.
Qed.

(** A f64 that is not too large becomes its nearest number of nanoseconds. *)
Lemma accepted : forall t x f, parse_decimal t = Some x -> decimal_f64 x = Some f -> normal f -> f_exp f <= 971 ->
  (dc_neg x = false \/ f_mant f = 0) -> (fval f <= inject_Z 4294967295)%Q ->
  f64_duration t = Some (Ok (Z.to_N (nanos_of f))).
Proof.
  intros t x f P D NO E SG U. unfold f64_duration. rewrite P, D.
  assert (A : dc_neg x && negb (f_mant f =? 0) = false).
  { destruct SG as [-> | ->]; [reflexivity|]. rewrite Z.eqb_refl. apply andb_false_r. }
  rewrite A. assert (B : at_most_u32 f = true) by (apply at_most_u32_spec; exact U). rewrite B. cbn [negb].
  destruct (try_from_secs_nearest f NO E U) as (s & n & -> & EQ & _). rewrite EQ. reflexivity.
Qed.

Lemma u32_value : exists x, to_f64 4294967295 1 = Some x /\ (fval x == inject_Z 4294967295)%Q.
Proof. destruct (to_f64_int 4294967295 ltac:(lia)) as (x & A & _ & B). eauto. Qed.
(** The next number an [f64] can represent. *)
Definition u32_succ : Q := (9007199252643841 # 2097152)%Q.
Lemma u32_next : exists x, to_f64 9007199252643841 2097152 = Some x /\ (fval x == u32_succ)%Q.
Proof. eexists. split; vm_compute; reflexivity. Qed.

Lemma frac_1 : forall k, (frac k 1 == inject_Z k)%Q.
Proof. intros k. unfold frac. change (inject_Z 1) with 1%Q. field. Qed.

Lemma large_finite : forall num den, 0 <= num -> 0 < den -> (frac num den <= inject_Z 4294967295)%Q ->
  exists x, to_f64 num den = Some x /\ normal x /\ f_exp x <= 971 /\ (fval x <= inject_Z 4294967295)%Q.
Proof.
  intros num den N D L. destruct (to_f64_finite num den N D) as [x X].
  - eapply Qle_trans; [exact L|]. rewrite pw_nat, <- Zle_Qle by lia. pose proof (Z.pow_le_mono_r 2 32 1000 ltac:(lia) ltac:(lia)). lia.
  - exists x. destruct (to_f64_some _ _ _ N D X) as (NO & E & _). split; [exact X|]. split; [exact NO|]. split; [exact E|].
    destruct u32_value as (y & Y & V). rewrite <- V. apply (to_f64_mono num den x 4294967295 1 y); auto; try lia; rewrite frac_1; exact L.
Qed.

Section Text.
Variables (t : text) (neg : bool) (i : Z) (k : nat) (e : Z).
Hypothesis PA : parts t neg i k e.
Hypothesis SZ : size_ok t.
Let a := amount i k e.

(** A number below half a nanosecond is zero; also a negative one if it is zero. *)
Lemma tiny_zero : (a < pw (-32))%Q -> neg = false \/ i = 0 -> f64_duration t = Some (Ok 0%N).
Proof.
  intros L SG. destruct (parse_decimal_of _ _ _ _ _ PA) as (e' & PD & SA). destruct (parts_small _ _ _ _ _ PA SZ) as (LL & LB & IB & KB).
  assert (A' : (amount i k e' < pw (-32))%Q).
  { pose proof const_1. pose proof const_2.
    destruct (sat_cases LL i k e e' LB IB KB SA) as [E|[[E _]|[_ E]]]; fold a in E; lra. }
  destruct (decimal_frac (Decimal neg i (e' - Z.of_nat k)) ltac:(cbn; lia)) as (num & den & N & D & DF & V).
  cbn [dc_mant dc_exp] in V. fold (amount i k e') in V.
  destruct (large_finite num den N D) as (f & F & NO & E & U).
  { rewrite V. pose proof const_3. lra. }
  rewrite F in DF. rewrite (accepted t _ f PD DF NO E); [|cbn [dc_neg]; destruct SG as [SG|SG]; [left; exact SG|right]|exact U].
  - rewrite small_zero; [reflexivity|exact NO|]. pose proof (to_f64_error num den f N D F) as ER. apply Qabs_Qle_condition in ER.
    rewrite V in ER. assert (C3 : (pw (-1075) <= pw (-100))%Q) by (apply pw_mono; lia).
    pose proof const_4 as C4.
    assert (P53 := pw_pos (-53)). nra.
  - destruct (to_f64_some num den f N D F) as (_ & _ & [[_ M]|[N1 _]]); [exact M|exfalso]. subst i. unfold amount in V.
    change (inject_Z 0) with 0%Q in V. rewrite Qmult_0_l in V. apply (frac_pos num den) in N1; [|exact D]. lra.
Qed.

(** A number from there up to the greatest u32 becomes the nearest number of
    nanoseconds of the nearest f64. *)
Lemma middle : (pw (-32) <= a)%Q -> (a <= inject_Z 4294967295)%Q -> neg = false ->
  exists num den f, 0 <= num /\ 0 < den /\ (frac num den == a)%Q /\ to_f64 num den = Some f /\ normal f
    /\ f64_duration t = Some (Ok (Z.to_N (nanos_of f))).
Proof.
  intros L U SG. destruct (parse_decimal_of _ _ _ _ _ PA) as (e' & PD & SA). destruct (parts_small _ _ _ _ _ PA SZ) as (LL & LB & IB & KB).
  assert (A' : (amount i k e' == a)%Q).
  { pose proof const_1. pose proof const_5.
    destruct (sat_cases LL i k e e' LB IB KB SA) as [E|[[_ E]|[_ E]]]; fold a in E; [exact E|lra|lra]. }
  destruct (decimal_frac (Decimal neg i (e' - Z.of_nat k)) ltac:(cbn; lia)) as (num & den & N & D & DF & V).
  cbn [dc_mant dc_exp] in V. fold (amount i k e') in V. rewrite A' in V.
  destruct (large_finite num den N D ltac:(rewrite V; exact U)) as (f & F & NO & E & U').
  exists num, den, f. repeat (split; [assumption|]). rewrite F in DF. apply (accepted t _ f PD DF NO E); [left; exact SG|exact U'].
Qed.

(** Too large, or negative. *)
Lemma too_large : (u32_succ <= a)%Q -> f64_duration t = None.
Proof.
  intros L. destruct (parse_decimal_of _ _ _ _ _ PA) as (e' & PD & SA). destruct (parts_small _ _ _ _ _ PA SZ) as (LL & LB & IB & KB).
  assert (A' : (u32_succ <= amount i k e')%Q).
  { unfold u32_succ in *. pose proof const_6. pose proof const_7.
    destruct (sat_cases LL i k e e' LB IB KB SA) as [E|[[_ E]|[E _]]]; fold a in E; lra. }
  destruct (decimal_frac (Decimal neg i (e' - Z.of_nat k)) ltac:(cbn; lia)) as (num & den & N & D & DF & V).
  cbn [dc_mant dc_exp] in V. fold (amount i k e') in V. unfold f64_duration. rewrite PD, DF.
  destruct (to_f64 num den) as [f|] eqn:F; [|reflexivity]. destruct (_ && _); [reflexivity|].
  destruct (at_most_u32 f) eqn:AM; [|reflexivity]. exfalso. apply at_most_u32_spec in AM. destruct u32_next as (y & Y & W).
  assert (fval y <= fval f)%Q by (apply (to_f64_mono 9007199252643841 2097152 y num den f); auto; try lia; rewrite V; exact A').
  rewrite W in H. assert (X := Qle_trans _ _ _ H AM). exact (X eq_refl).
Qed.

Lemma negative : (p10 (-300) <= a)%Q -> neg = true -> f64_duration t = None.
Proof.
  intros L SG. destruct (parse_decimal_of _ _ _ _ _ PA) as (e' & PD & SA). destruct (parts_small _ _ _ _ _ PA SZ) as (LL & LB & IB & KB).
  destruct (decimal_frac (Decimal neg i (e' - Z.of_nat k)) ltac:(cbn; lia)) as (num & den & N & D & DF & V).
  cbn [dc_mant dc_exp] in V. fold (amount i k e') in V. unfold f64_duration. rewrite PD, DF.
  destruct (to_f64 num den) as [f|] eqn:F; [|reflexivity]. cbn [dc_neg]. rewrite SG. cbn [andb].
  destruct (f_mant f =? 0) eqn:M; [exfalso|reflexivity]. apply Z.eqb_eq in M.
  assert (A' : (pw (-1000) <= amount i k e')%Q).
  { destruct (Z.eq_dec e' e) as [-> |NE].
    - fold a. eapply Qle_trans; [|exact L]. exact const_8.
    - assert (I1 : 1 <= i). { destruct (Z.eq_dec i 0) as [I0|]; [|lia]. exfalso. subst a. rewrite I0 in L. unfold amount in L.
        change (inject_Z 0) with 0%Q in L. rewrite Qmult_0_l in L. pose proof (p10_pos (-300)). lra. }
      destruct SA as [SA|[SA|SA]]; [contradiction|..].
      + unfold amount. pose proof (p10_mono 10 (e' - Z.of_nat k) ltac:(lia)). assert (1 <= inject_Z i)%Q by (change 1%Q with (inject_Z 1); rewrite <- Zle_Qle; exact I1).
        pose proof const_9. pose proof (p10_pos 10). nra.
      + exfalso. unfold a, amount in L. pose proof (p10_mono (e - Z.of_nat k) (-65536) ltac:(lia)) as PM.
        assert (IL : (inject_Z i < p10 LL)%Q) by (rewrite p10_nat, <- Zlt_Qlt by lia; apply IB).
        assert (IP : (0 <= inject_Z i)%Q) by (change 0%Q with (inject_Z 0); rewrite <- Zle_Qle; lia).
        assert (inject_Z i * p10 (e - Z.of_nat k) < p10 (-5536))%Q.
        { apply Qle_lt_trans with (inject_Z i * p10 (-65536))%Q; [rewrite !(Qmult_comm (inject_Z i)); apply Qmult_le_compat_r; assumption|].
          apply Qlt_le_trans with (p10 LL * p10 (-65536))%Q; [apply Qmult_lt_r; [apply p10_pos|exact IL]|].
          rewrite <- p10_add. apply p10_mono. lia. }
        pose proof (p10_mono (-5536) (-300) ltac:(lia)). lra. }
  pose proof (to_f64_error num den f N D F) as ER. apply Qabs_Qle_condition in ER. rewrite V in ER. unfold fval in ER. rewrite M in ER.
  change (inject_Z 0) with 0%Q in ER. rewrite Qmult_0_l in ER.
  pose proof const_10 as C3. assert (C4 : (pw (-1075) == pw (-1000) * pw (-75))%Q) by (rewrite <- pw_add; apply Qeq_refl).
  pose proof const_11 as C5. pose proof (pw_pos (-1000)). pose proof (pw_pos (-53)). pose proof (pw_pos (-75)). nra.
Qed.
End Text.
