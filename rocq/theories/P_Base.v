(** Lemmas about the basic data types. *)

From Coq Require Import String ZArith NArith List Bool Lia ZifyBool ZifyNat ZifyN.
From Verif Require Import M_Base S_Wire.
Import ListNotations.
Local Open Scope N_scope.

Ltac Zify.zify_post_hook ::= Z.div_mod_to_equations.

Lemma list_eqb_spec : forall a b, list_eqb a b = true <-> a = b.
Proof.
  induction a as [|x a IH]; destruct b as [|y b]; simpl; split; intro H;
    try reflexivity; try discriminate.
  - apply andb_true_iff in H. destruct H as [H1 H2].
    apply N.eqb_eq in H1. apply IH in H2. subst. reflexivity.
  - inversion H; subst. rewrite N.eqb_refl. simpl. apply IH. reflexivity.
Qed.

Lemma list_eqb_refl : forall a, list_eqb a a = true.
Proof. intro a. apply list_eqb_spec. reflexivity. Qed.

Lemma list_eqb_false : forall a b, list_eqb a b = false <-> a <> b.
Proof.
  intros a b. destruct (list_eqb a b) eqn:E.
  - apply list_eqb_spec in E. split; congruence.
  - split; [|reflexivity]. intros _ ->. rewrite list_eqb_refl in E. discriminate.
Qed.

Lemma bytes_ok_spec : forall l, bytes_ok l = true <-> all_bytes l.
Proof.
  intro l. unfold bytes_ok, all_bytes. rewrite forallb_forall.
  split; intros H x Hx; specialize (H x Hx); unfold is_byte in *.
  - apply N.ltb_lt. exact H.
  - apply N.ltb_lt. exact H.
Qed.

Lemma all_bytes_cons : forall x l, all_bytes (x :: l) <-> x < 256 /\ all_bytes l.
Proof.
  intros x l. unfold all_bytes. split.
  - intro H. split; [apply H; left; reflexivity|]. intros y Hy. apply H. right. exact Hy.
  - intros [H1 H2] y [->|Hy]; auto.
Qed.

Lemma all_bytes_nil : all_bytes [].
Proof. intros x []. Qed.

Lemma all_bytes_app : forall a b, all_bytes (a ++ b) <-> all_bytes a /\ all_bytes b.
Proof.
  intros a b. unfold all_bytes. split.
  - intro H. split; intros x Hx; apply H; apply in_or_app; auto.
  - intros [H1 H2] x Hx. apply in_app_or in Hx. destruct Hx; auto.
Qed.

Ltac byte_conses :=
  repeat match goal with
         | |- all_bytes (_ :: _) => apply all_bytes_cons; split
         | |- all_bytes [] => apply all_bytes_nil
         | |- all_bytes (_ ++ _) => apply all_bytes_app; split
         end.

Lemma all_bytes_be32 : forall v, all_bytes (be32 v).
Proof.
  intro v. unfold be32. byte_conses; apply N.mod_lt; discriminate.
Qed.

Lemma all_bytes_be16 : forall v, all_bytes (be16 v).
Proof.
  intro v. unfold be16. byte_conses; apply N.mod_lt; discriminate.
Qed.

Lemma be32_length : forall v, length (be32 v) = 4%nat.
Proof. reflexivity. Qed.

Lemma of_be_be32 : forall v, v < 4294967296 -> of_be (be32 v) = v.
Proof. intros v H. unfold of_be, be32. cbn [fold_left]. lia. Qed.

Lemma of_be_be16 : forall v, v < 65536 -> of_be (be16 v) = v.
Proof. intros v H. unfold of_be, be16. cbn [fold_left]. lia. Qed.

Lemma of_be_be32' : forall v, v < 4294967296 ->
  of_be [(v / 16777216) mod 256; (v / 65536) mod 256; (v / 256) mod 256; v mod 256] = v.
Proof. exact of_be_be32. Qed.

Lemma of_be_be16' : forall v, v < 65536 -> of_be [(v / 256) mod 256; v mod 256] = v.
Proof. exact of_be_be16. Qed.

Lemma be32_of_be : forall a b c d, a < 256 -> b < 256 -> c < 256 -> d < 256 ->
  be32 (of_be [a; b; c; d]) = [a; b; c; d].
Proof.
  intros a b c d Ha Hb Hc Hd. unfold of_be, be32. cbn [fold_left].
  repeat f_equal; lia.
Qed.

Lemma be16_of_be : forall a b, a < 256 -> b < 256 -> be16 (of_be [a; b]) = [a; b].
Proof.
  intros a b Ha Hb. unfold of_be, be16. cbn [fold_left]. repeat f_equal; lia.
Qed.

Lemma be32_inj : forall v w, v < 4294967296 -> w < 4294967296 -> be32 v = be32 w -> v = w.
Proof.
  intros v w Hv Hw H. rewrite <- (of_be_be32 v Hv), <- (of_be_be32 w Hw), H. reflexivity.
Qed.

Lemma of_be_bound4 : forall a b c d, a < 256 -> b < 256 -> c < 256 -> d < 256 ->
  of_be [a; b; c; d] < 4294967296.
Proof. intros. unfold of_be. cbn [fold_left]. lia. Qed.

(** Take a list of known length apart. *)
Lemma length_S_cons : forall (A : Type) n (l : list A),
  length l = S n -> exists x l', l = x :: l' /\ length l' = n.
Proof.
  intros A n [|x l] H; [discriminate|]. exists x, l. split; [reflexivity|].
  simpl in H. congruence.
Qed.

Ltac explode H :=
  match type of H with
  | length ?l = S ?n =>
      let x := fresh "x" in let l' := fresh "l" in let E := fresh "E" in
      let H' := fresh "H" in
      apply length_S_cons in H; destruct H as (x & l' & E & H'); subst l;
      explode H'
  | length ?l = O =>
      apply length_zero_iff_nil in H; subst l
  end.

Ltac split_bytes :=
  repeat match goal with
         | H : all_bytes (_ :: _) |- _ =>
             let H1 := fresh "B" in
             apply all_bytes_cons in H; destruct H as [H1 H]
         | H : all_bytes [] |- _ => clear H
         end.
