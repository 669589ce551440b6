(** The lanes of M_Sha3.v against the bits of FIPS 202. *)

From Coq Require Import ZArith NArith List Bool Lia ZifyBool.
From Verif Require Import M_Base M_Sha3 S_Wire S_Sha3 P_Base P_Sha3.
Import ListNotations.
Local Open Scope Z_scope.

Ltac Zify.zify_post_hook ::= Z.to_euclidean_division_equations.

(** *** Lanes *)

Definition lane_ok (n : N) : Prop := forall z, (64 <= z)%N -> N.testbit n z = false.
Definition tb (n : N) (z : Z) : bool := N.testbit n (Z.to_N z).

Lemma mask_spec : forall z, N.testbit lane_mask z = (z <? 64)%N.
Proof.
  intros z. change lane_mask with (N.ones 64). destruct (N.ltb_spec z 64).
  - apply N.ones_spec_low. assumption.
  - apply N.ones_spec_high. assumption.
Qed.

Lemma rotl_spec : forall x n z, lane_ok x -> (n < 64)%N -> 0 <= z < 64 -> tb (rotl x n) z = tb x ((z - Z.of_N n) mod 64).
Proof.
  intros x n z X N Z0. unfold tb, rotl. rewrite N.land_spec, N.lor_spec, mask_spec, N.shiftr_spec by lia.
  replace (Z.to_N z <? 64)%N with true by (symmetry; lia). rewrite andb_true_r.
  destruct (Z.ltb_spec z (Z.of_N n)).
  - rewrite N.shiftl_spec_low by lia. cbn [orb]. f_equal. lia.
  - rewrite N.shiftl_spec_high by lia. rewrite (X (Z.to_N z + (64 - n))%N) by lia. rewrite orb_false_r. f_equal. lia.
Qed.

Lemma rotl_ok : forall x n, lane_ok (rotl x n).
Proof. intros x n z Z0. unfold rotl. rewrite N.land_spec, mask_spec. replace (z <? 64)%N with false by lia. apply andb_false_r. Qed.
Lemma lxor_ok : forall x y, lane_ok x -> lane_ok y -> lane_ok (N.lxor x y).
Proof. intros x y X Y z Z0. rewrite N.lxor_spec, X, Y by exact Z0. reflexivity. Qed.
Lemma land_ok : forall x y, lane_ok y -> lane_ok (N.land x y).
Proof. intros x y Y z Z0. rewrite N.land_spec, Y by exact Z0. apply andb_false_r. Qed.
Lemma mask_ok : lane_ok lane_mask.
Proof. intros z Z0. rewrite mask_spec. lia. Qed.

Lemma tb_lxor : forall x y z, tb (N.lxor x y) z = xorb (tb x z) (tb y z).
Proof. intros. apply N.lxor_spec. Qed.
Lemma tb_not : forall x y z, 0 <= z < 64 -> tb (N.land (N.lxor x lane_mask) y) z = xorb (tb x z) true && tb y z.
Proof. intros. unfold tb. rewrite N.land_spec, N.lxor_spec, mask_spec. replace (Z.to_N z <? 64)%N with true by lia. reflexivity. Qed.

(** *** States *)

(** The lanes [a] are the state [A]. *)
Definition rep (a : list N) (A : state) : Prop :=
  length a = 25%nat /\ Forall lane_ok a
  /\ forall x y z, 0 <= x < 5 -> 0 <= y < 5 -> 0 <= z < 64 -> A x y z = tb (nth (Z.to_nat (x + 5 * y)) a 0%N) z.

Lemma five : forall x, 0 <= x < 5 -> x = 0 \/ x = 1 \/ x = 2 \/ x = 3 \/ x = 4.
Proof. lia. Qed.

Lemma rep_ok : forall a A x y, rep a A -> lane_ok (lane a x y).
Proof.
  intros a A x y (L & F & _). unfold lane. rewrite Forall_forall in F. apply F, nth_In. rewrite L. lia.
Qed.
Lemma rep_lane : forall a A x y z, rep a A -> 0 <= z < 64 ->
  tb (lane a x y) z = A (Z.of_nat x mod 5) (Z.of_nat y mod 5) z.
Proof.
  intros a A x y z (L & F & H) Z0. rewrite H by lia. unfold lane. f_equal. f_equal. lia.
Qed.

(** A new state by coordinates. *)
Lemma rep_map : forall (f : nat * nat -> N) A,
  (forall x y, (x < 5)%nat -> (y < 5)%nat -> lane_ok (f (x, y))) ->
  (forall x y z, (x < 5)%nat -> (y < 5)%nat -> 0 <= z < 64 -> A (Z.of_nat x) (Z.of_nat y) z = tb (f (x, y)) z) ->
  rep (map f coords) A.
Proof.
  intros f A OK H. split; [reflexivity|]. split.
  - apply Forall_map, Forall_forall. intros [x y] I. apply OK; cbn in I; repeat (destruct I as [I|I]; [injection I as <- <-; lia|]); contradiction.
  - intros x y z X Y Z0. replace x with (Z.of_nat (Z.to_nat x)) at 1 by lia. replace y with (Z.of_nat (Z.to_nat y)) at 1 by lia.
    rewrite H by lia. f_equal. destruct (five x X) as [->|[->|[->|[->| ->]]]]; destruct (five y Y) as [->|[->|[->|[->| ->]]]]; reflexivity.
Qed.

Lemma theta_rep : forall a A, rep a A -> rep (theta a) (fips_theta A).
Proof.
  intros a A R. unfold theta. cbv zeta. apply rep_map.
  - intros x y X Y. cbn [fst snd]. apply lxor_ok; [exact (rep_ok _ _ _ _ R)|].
    destruct x as [|[|[|[|[|x]]]]]; try lia; cbn; apply lxor_ok; try apply rotl_ok; repeat apply lxor_ok; apply (rep_ok _ _ _ _ R).
  - intros x y z X Y Z0. cbn [fst snd]. rewrite tb_lxor, (rep_lane _ _ _ _ _ R Z0). unfold fips_theta.
    replace (Z.of_nat x mod 5) with (Z.of_nat x) by lia. replace (Z.of_nat y mod 5) with (Z.of_nat y) by lia. f_equal.
    assert (OK : forall u v, lane_ok (lane a u v)) by (intros; exact (rep_ok _ _ _ _ R)).
    destruct x as [|[|[|[|[|x]]]]]; try lia; cbn [map nth Nat.modulo Nat.divmod Nat.add fst snd Nat.sub fold_left];
      rewrite tb_lxor; rewrite rotl_spec by (try lia; repeat apply lxor_ok; apply OK);
      rewrite !tb_lxor; rewrite !(rep_lane _ _ _ _ _ R) by lia; reflexivity.
Qed.

Lemma list25 : forall (a : list N), length a = 25%nat -> exists a0 a1 a2 a3 a4 a5 a6 a7 a8 a9 b0 b1 b2 b3 b4 b5 b6 b7 b8 b9 c0 c1 c2 c3 c4,
  a = [a0; a1; a2; a3; a4; a5; a6; a7; a8; a9; b0; b1; b2; b3; b4; b5; b6; b7; b8; b9; c0; c1; c2; c3; c4].
Proof.
  intros a H. do 25 (destruct a as [|? a]; [discriminate|]). destruct a; [|discriminate]. repeat eexists.
Qed.

(** The offset that the loop of rho uses for a lane. *)
Fixpoint rho_offset (n : nat) (t x y : Z) (o : option Z) (x' y' : Z) : option Z :=
  match n with
  | O => o
  | S n' => rho_offset n' (t + 1) y ((2 * x + 3 * y) mod 5) (if (x' =? x) && (y' =? y) then Some ((t + 1) * (t + 2) / 2) else o) x' y'
  end.
Lemma rho_loop_offset : forall A x' y' z n A' t x y o,
  A' x' y' z = match o with Some k => A x' y' ((z - k) mod 64) | None => A x' y' z end ->
  rho_loop A A' n t x y x' y' z = match rho_offset n t x y o x' y' with Some k => A x' y' ((z - k) mod 64) | None => A x' y' z end.
Proof.
  intros A x' y' z n. induction n as [|n IH]; intros A' t x y o H; [exact H|]. cbn [rho_loop rho_offset]. apply IH.
  destruct ((x' =? x) && (y' =? y)) eqn:E; [|exact H]. apply andb_prop in E. destruct E as [E1 E2].
  apply Z.eqb_eq in E1. apply Z.eqb_eq in E2. subst. reflexivity.
Qed.

Lemma rho_rep : forall a A, rep a A -> rep (rho a) (fips_rho A).
Proof.
  intros a A (L & F & H). split; [unfold rho; rewrite map_length, combine_length, L; reflexivity|]. split.
  - unfold rho. apply Forall_map, Forall_forall. intros p _. apply rotl_ok.
  - intros x y z X Y Z0. unfold fips_rho. rewrite (rho_loop_offset A x y z 24 A 0 1 0 None eq_refl).
    assert (E : nth (Z.to_nat (x + 5 * y)) (rho a) 0%N
                = rotl (nth (Z.to_nat (x + 5 * y)) a 0%N) (nth (Z.to_nat (x + 5 * y)) rho_offsets 0%N)).
    { unfold rho. change 0%N with ((fun p : N * N => rotl (fst p) (snd p)) (0%N, 0%N)) at 1.
      rewrite map_nth, combine_nth by (rewrite L; reflexivity). reflexivity. }
    assert (OK : lane_ok (nth (Z.to_nat (x + 5 * y)) a 0%N)) by (rewrite Forall_forall in F; apply F, nth_In; lia).
    assert (O : match rho_offset 24 0 1 0 None x y with Some k => k | None => 0 end mod 64
                = Z.of_N (nth (Z.to_nat (x + 5 * y)) rho_offsets 0%N)
                /\ (nth (Z.to_nat (x + 5 * y)) rho_offsets 0 < 64)%N).
    { clear -X Y. destruct (five x X) as [->|[->|[->|[->| ->]]]]; destruct (five y Y) as [->|[->|[->|[->| ->]]]]; split; reflexivity. }
    destruct O as [O O2]. rewrite E, rotl_spec by assumption. rewrite <- O.
    destruct (rho_offset 24 0 1 0 None x y) as [k|].
    + rewrite H by lia. f_equal. lia.
    + rewrite H by lia. f_equal. lia.
Qed.

Lemma pi_rep : forall a A, rep a A -> rep (pi_step a) (fips_pi A).
Proof.
  intros a A R. unfold pi_step. apply rep_map.
  - intros. apply (rep_ok _ _ _ _ R).
  - intros x y z X Y Z0. cbn [fst snd]. rewrite (rep_lane _ _ _ _ _ R Z0). unfold fips_pi. f_equal; lia.
Qed.

Lemma chi_rep : forall a A, rep a A -> rep (chi a) (fips_chi A).
Proof.
  intros a A R. unfold chi. apply rep_map.
  - intros x y X Y. cbn [fst snd]. apply lxor_ok; [exact (rep_ok _ _ _ _ R)|]. apply land_ok. exact (rep_ok _ _ _ _ R).
  - intros x y z X Y Z0. cbv zeta. cbn [fst snd]. rewrite tb_lxor, tb_not by exact Z0. rewrite !(rep_lane _ _ _ _ _ R Z0). unfold fips_chi.
    replace (Z.of_nat x mod 5) with (Z.of_nat x) by lia. replace (Z.of_nat y mod 5) with (Z.of_nat y) by lia.
    replace (Z.of_nat (x + 1)) with (Z.of_nat x + 1) by lia. replace (Z.of_nat (x + 2)) with (Z.of_nat x + 2) by lia. reflexivity.
Qed.

Lemma constants : forall i z, (i < 24)%nat -> 0 <= z < 64 ->
  tb (nth i round_constants 0%N) z = existsb (fun j => (z =? 2 ^ j - 1) && rc (j + 7 * Z.of_nat i)) [0; 1; 2; 3; 4; 5; 6].
Proof.
  assert (D : forallb (fun i => forallb (fun k => let z := Z.of_nat k in
    Bool.eqb (tb (nth i round_constants 0%N) z) (existsb (fun j => (z =? 2 ^ j - 1) && rc (j + 7 * Z.of_nat i)) [0; 1; 2; 3; 4; 5; 6]))
    (seq 0 64)) (seq 0 24) = true) by (vm_compute; reflexivity).
  intros i z I Z0. rewrite forallb_forall in D. specialize (D i). rewrite in_seq in D. specialize (D ltac:(lia)).
  rewrite forallb_forall in D. specialize (D (Z.to_nat z)). rewrite in_seq in D. specialize (D ltac:(lia)). cbv zeta in D.
  rewrite Z2Nat.id in D by lia. apply eqb_prop in D. exact D.
Qed.
Lemma constants_ok : Forall lane_ok round_constants.
Proof.
  apply Forall_forall. intros n I z Z0. assert (B : (n < 2 ^ 64)%N).
  { unfold round_constants in I. repeat (destruct I as [<-|I]; [reflexivity|]). contradiction. }
  destruct (N.eq_dec n 0) as [->|NZ]; [apply N.bits_0|]. apply N.bits_above_log2. apply N.log2_lt_pow2 in B; lia.
Qed.

Lemma iota_rep : forall a A i, rep a A -> (i < 24)%nat -> rep (iota (nth i round_constants 0%N) a) (fips_iota (Z.of_nat i) A).
Proof.
  intros a A i (L & F & H) I. destruct a as [|a0 a]; [discriminate|]. cbn [iota]. split; [exact L|]. inversion F as [|? ? F0 F1]; subst. split.
  - constructor; [|exact F1]. apply lxor_ok; [exact F0|]. pose proof constants_ok as C. rewrite Forall_forall in C. apply C, nth_In. exact I.
  - intros x y z X Y Z0. unfold fips_iota. rewrite H by assumption. destruct ((x =? 0) && (y =? 0)) eqn:E.
    + assert (x = 0 /\ y = 0) as [-> ->] by lia. cbn [nth Z.to_nat Z.add Z.mul]. rewrite tb_lxor, constants by assumption. reflexivity.
    + assert (P : (0 < Z.to_nat (x + 5 * y))%nat) by lia. destruct (Z.to_nat (x + 5 * y)); [lia|]. reflexivity.
Qed.

(** Keccak-p. *)
Lemma keccak_rep : forall a A, rep a A -> rep (keccak_f a) (fold_left fips_round (map Z.of_nat (seq 0 24)) A).
Proof.
  intros a A R. unfold keccak_f.
  assert (G : forall n i a A, rep a A -> (i + n = 24)%nat ->
    rep (fold_left (fun s rc => iota rc (chi (pi_step (rho (theta s))))) (skipn i round_constants) a)
        (fold_left fips_round (map Z.of_nat (seq i n)) A)).
  { clear. induction n as [|n IH]; intros i a A R I.
    - rewrite skipn_all2 by (change (length round_constants) with 24%nat; lia). exact R.
    - assert (SK : skipn i round_constants = nth i round_constants 0%N :: skipn (S i) round_constants).
      { clear -I. assert (H : (i < 24)%nat) by lia. clear I. do 24 (destruct i as [|i]; [reflexivity|]). lia. }
      rewrite SK. cbn [seq map fold_left]. apply IH; [|lia]. unfold fips_round. apply iota_rep; [|lia].
      apply chi_rep, pi_rep, rho_rep, theta_rep, R. }
  exact (G 24%nat 0%nat a A R eq_refl).
Qed.
