(** HMAC-SHA3-256 always yields 32 bytes. *)

From Coq Require Import ZArith NArith List Bool Lia ZifyBool ZifyNat ZifyN.
From Verif Require Import M_Base M_Sha3 S_Wire P_Base.
Import ListNotations.
Local Open Scope N_scope.

Lemma to_le_length : forall n v, length (to_le n v) = n.
Proof. induction n; intro v; simpl; auto. Qed.

Lemma to_le_bytes : forall n v, all_bytes (to_le n v).
Proof.
  induction n; intro v; simpl; [apply all_bytes_nil|].
  apply all_bytes_cons. split; [apply N.mod_lt; discriminate|apply IHn].
Qed.

Lemma sha3_256_ok : forall m, length (sha3_256 m) = 32%nat /\ all_bytes (sha3_256 m).
Proof.
  intro m. unfold sha3_256. cbv zeta.
  generalize (fold_left absorb (chunks (S (Nat.div (length (sha3_pad m)) rate)) rate
    (sha3_pad m)) (repeat 0 25%nat)). intro st.
  cbn [map flat_map]. rewrite app_nil_r. split.
  - rewrite !app_length, !to_le_length. reflexivity.
  - byte_conses; apply to_le_bytes.
Qed.

Lemma hmac_ok : forall k d, length (hmac_sha3_256 k d) = 32%nat
                            /\ all_bytes (hmac_sha3_256 k d).
Proof. intros k d. unfold hmac_sha3_256. apply sha3_256_ok. Qed.
