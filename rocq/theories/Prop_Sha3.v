(** Property C71: the tokens are HMAC-SHA3-256 as in the standards. *)

From Coq Require Import ZArith NArith List Bool Lia.
From Verif Require Import M_Base M_Proto M_Sha3 S_Wire S_Sha3 P_Base P_Sha3 P_Keccak P_Fips Prop_Wire.
Import ListNotations.
Local Open Scope N_scope.

(** *** Lemmas *)

Lemma byte_inj : forall a b, a < 256 -> b < 256 -> byte_bits a = byte_bits b -> a = b.
Proof.
  intros a b A B H. apply N.bits_inj. intros i. destruct (N.lt_ge_cases i 8) as [L|L].
  - pose proof (low_nth 8 a (N.to_nat i) ltac:(lia)) as X. pose proof (low_nth 8 b (N.to_nat i) ltac:(lia)) as Y.
    rewrite N2Nat.id in X, Y. rewrite <- X, <- Y. change (low_bits 8 a) with (byte_bits a). rewrite H. reflexivity.
  - assert (HI : forall n, n < 256 -> N.testbit n i = false).
    { intros n N0. destruct (N.eq_dec n 0) as [->|NZ]; [apply N.bits_0|]. apply N.bits_above_log2. change 256 with (2 ^ 8) in N0.
      apply N.log2_lt_pow2 in N0; lia. }
    rewrite !HI by assumption. reflexivity.
Qed.

Lemma bits_inj : forall a b, all_bytes a -> all_bytes b -> bits a = bits b -> a = b.
Proof.
  induction a as [|x a IH]; intros b A B H; destruct b as [|y b]; try discriminate; [reflexivity|].
  apply all_bytes_cons in A. apply all_bytes_cons in B. destruct A as [A0 A], B as [B0 B].
  change (byte_bits x ++ bits a = byte_bits y ++ bits b) in H.
  assert (LX : length (byte_bits x) = length (byte_bits y)) by reflexivity.
  assert (E : byte_bits x = byte_bits y /\ bits a = bits b).
  { split; [apply (f_equal (firstn 8)) in H|apply (f_equal (skipn 8)) in H]; exact H. }
  destruct E as [E1 E2]. f_equal; [exact (byte_inj _ _ A0 B0 E1)|exact (IH _ A B E2)].
Qed.

Lemma token_bits : forall m k text, api_message m -> length k = 32%nat -> all_bytes k -> all_bytes text ->
  (m_auth m = hmac_sha3_256 k text <-> bits (m_auth m) = fips_hmac (bits k) (bits text)).
Proof.
  intros m k text (_ & _ & _ & _ & _ & _ & AB) KL KB TB. rewrite <- hmac_string by (try assumption; lia). split; [intros ->; reflexivity|].
  apply bits_inj; [exact AB|apply hmac_ok].
Qed.

(** *** The property *)

(** SHA3-256, for every message of bytes. *)
Theorem C71_hash : forall m, all_bytes m -> bits (sha3_256 m) = fips_sha3_256 (bits m).
Proof. exact sha3_string. Qed.
Print Assumptions C71_hash.

(** HMAC, for every message and every key up to the block size. *)
Theorem C71_mac : forall key data, (length key <= 136)%nat -> all_bytes key -> all_bytes data ->
  bits (hmac_sha3_256 key data) = fips_hmac (bits key) (bits data).
Proof. exact hmac_string. Qed.
Print Assumptions C71_mac.

(** The server accepts exactly the tokens that are the standard HMAC-SHA3-256 of the
    protected text under the key. *)
Theorem C71_accepted_tokens : forall m k, api_message m -> length k = 32%nat -> all_bytes k ->
  (m_op m = Knock -> exists text, protected_text text Knock (m_user m) (m_resource m) (m_salt m) no_challenge
     /\ (check_auth_ok_no_challenge hmac_sha3_256 m k = Ok true <-> bits (m_auth m) = fips_hmac (bits k) (bits text)))
  /\ (m_op m = Response -> forall ch, api_message ch -> m_op ch = Challenge ->
      exists text, protected_text text Response (m_user m) (m_resource m) (m_salt m) (m_auth ch)
     /\ (check_auth_ok hmac_sha3_256 m k ch = Ok true <-> bits (m_auth m) = fips_hmac (bits k) (bits text))).
Proof.
  intros m k A KL KB. split.
  - intros O. destruct (C04_knock_token_meaning hmac_sha3_256 m k A O KL) as (text & PT & H & _). exists text. split; [exact PT|].
    rewrite H. apply token_bits; try assumption. exact (pt_bytes _ _ _ _ _ _ PT).
  - intros O ch AC OC. destruct (C04_response_token_meaning hmac_sha3_256 m k ch A O AC OC KL) as (text & PT & H & _). exists text.
    split; [exact PT|]. rewrite H. apply token_bits; try assumption. exact (pt_bytes _ _ _ _ _ _ PT).
Qed.
Print Assumptions C71_accepted_tokens.

(** The client makes exactly these tokens. *)
Theorem C71_generated_tokens : forall m k m', api_message m -> length k = 32%nat -> all_bytes k ->
  (generate_auth_no_challenge hmac_sha3_256 m k = Ok m' -> exists text,
     protected_text text Knock (m_user m) (m_resource m) (m_salt m) no_challenge
     /\ m' = set_auth m (m_auth m') /\ bits (m_auth m') = fips_hmac (bits k) (bits text))
  /\ (forall ch, api_message ch -> generate_auth hmac_sha3_256 m k ch = Ok m' -> exists text,
     protected_text text Response (m_user m) (m_resource m) (m_salt m) (m_auth ch)
     /\ m' = set_auth m (m_auth m') /\ bits (m_auth m') = fips_hmac (bits k) (bits text)).
Proof.
  intros m k m' A KL KB.
  assert (API : forall t, api_message (set_auth m (hmac_sha3_256 k t))).
  { intros t. destruct A as (A1 & A2 & A3 & A4 & A5 & _). destruct (hmac_ok k t) as [H1 H2]. repeat split; assumption. }
  split.
  - unfold generate_auth_no_challenge. destruct (op_eqb (m_op m) Knock) eqn:O; [|discriminate]. cbn [assert_].
    unfold authenticate_no_challenge, authenticate. rewrite KL. cbn [Nat.eqb KEY_SIZE assert_].
    change (Nat.eqb (length ZERO_AUTH) AUTH_SIZE) with true. cbn [assert_ bind]. intros [= <-].
    assert (OM : m_op m = Knock) by (destruct (m_op m); try discriminate; reflexivity).
    destruct (proj1 (C71_accepted_tokens _ k (API (mac_input m ZERO_AUTH)) KL KB) OM) as (text & PT & H).
    exists text. split; [exact PT|]. split; [reflexivity|]. apply H. unfold check_auth_ok_no_challenge, authenticate_no_challenge, authenticate.
    cbn [m_op set_auth]. rewrite O. cbn [assert_]. rewrite KL. change (Nat.eqb 32 KEY_SIZE) with true. cbn [assert_].
    change (Nat.eqb (length ZERO_AUTH) AUTH_SIZE) with true. cbn [assert_ bind m_auth set_auth]. f_equal. apply list_eqb_refl.
  - intros ch AC. unfold generate_auth. destruct (op_eqb (m_op ch) Challenge) eqn:OC; [|discriminate].
    destruct (op_eqb (m_op m) Response) eqn:O; [|discriminate]. cbn [assert_]. unfold authenticate. rewrite KL.
    assert (LC : length (m_auth ch) = 32%nat) by apply AC. rewrite LC.
    change (Nat.eqb 32 KEY_SIZE) with true. change (Nat.eqb 32 AUTH_SIZE) with true. cbn [assert_ bind]. intros [= <-].
    assert (OM : m_op m = Response) by (destruct (m_op m); try discriminate; reflexivity).
    assert (OM2 : m_op ch = Challenge) by (destruct (m_op ch); try discriminate; reflexivity).
    destruct (proj2 (C71_accepted_tokens _ k (API (mac_input m (m_auth ch))) KL KB) OM ch AC OM2) as (text & PT & H).
    exists text. split; [exact PT|]. split; [reflexivity|]. apply H. unfold check_auth_ok, authenticate.
    cbn [m_op set_auth]. rewrite O, OC. cbn [assert_]. rewrite KL, LC. change (Nat.eqb 32 KEY_SIZE) with true. change (Nat.eqb 32 AUTH_SIZE) with true.
    cbn [assert_ bind m_auth set_auth]. f_equal. apply list_eqb_refl.
Qed.
Print Assumptions C71_generated_tokens.

(** The specification has the published values: SHA3-256 of nothing, of 135 zero
    bytes (one byte of padding) and of 136 zero bytes (a block of padding). *)
Example C71_spec_values :
  fips_sha3_256 [] = bits [167; 255; 198; 248; 191; 30; 215; 102; 81; 193; 71; 86; 160; 97; 214; 98; 245; 128; 255; 77; 228; 59; 73;
                           250; 130; 216; 10; 75; 128; 248; 67; 74]
  /\ fips_sha3_256 (repeat false 1080) = bits [125; 8; 13; 123; 169; 120; 167; 92; 138; 125; 31; 155; 229; 102; 200; 89; 8; 69; 9;
                           201; 194; 180; 146; 132; 53; 194; 37; 213; 119; 125; 152; 227]
  /\ fips_sha3_256 (repeat false 1088) = bits [231; 114; 201; 207; 158; 185; 201; 145; 205; 252; 241; 37; 0; 27; 69; 79; 219; 192; 169;
                           95; 24; 141; 27; 76; 132; 74; 160; 50; 173; 110; 7; 94].
Proof.
  assert (Z : forall n, all_bytes (repeat 0 n)) by (intros n x I; apply repeat_spec in I; subst; reflexivity).
  split; [|split].
  - change (@nil bool) with (bits []). rewrite <- C71_hash by apply (Z 0%nat). apply f_equal. vm_compute. reflexivity.
  - change (repeat false 1080) with (bits (repeat 0 135)). rewrite <- C71_hash by apply Z. apply f_equal. vm_compute. reflexivity.
  - change (repeat false 1088) with (bits (repeat 0 136)). rewrite <- C71_hash by apply Z. apply f_equal. vm_compute. reflexivity.
Qed.

(** The hypotheses hold: HMAC-SHA3-256 of "abc" under the key 0, 1, ..., 31. *)
Example C71_mac_value :
  fips_hmac (bits (map N.of_nat (seq 0 32))) (bits [97; 98; 99])
  = bits [99; 47; 97; 138; 193; 123; 162; 67; 85; 217; 238; 31; 209; 135; 207; 117; 187; 91; 104; 230; 148; 136; 4; 191; 102; 116; 191; 94;
          231; 241; 195; 69].
Proof.
  rewrite <- C71_mac; [apply f_equal; vm_compute; reflexivity|cbn; lia| |].
  - apply bytes_ok_spec. reflexivity.
  - apply bytes_ok_spec. reflexivity.
Qed.
