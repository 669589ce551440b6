(** SHA3-256 and HMAC of M_Sha3.v are those of the standards. *)

From Coq Require Import ZArith NArith List Bool Lia ZifyBool.
From Verif Require Import M_Base M_Sha3 S_Wire S_Sha3 P_Base P_Sha3 P_Keccak.
Import ListNotations.
Local Open Scope nat_scope.

Ltac Zify.zify_post_hook ::= Z.to_euclidean_division_equations.

(** *** Strings of pieces of equal length *)

Section Pieces.
Context {A B : Type} (f : A -> list B) (w : nat) (W : forall x, length (f x) = w) (P : 0 < w).

Lemma pieces_length : forall l, length (flat_map f l) = w * length l.
Proof using W. clear P. induction l as [|x l IH]; cbn [flat_map length]; [lia|]. rewrite app_length, W, IH. lia. Qed.

Lemma pieces_nth : forall l k dx d, k < w * length l -> nth k (flat_map f l) d = nth (k mod w) (f (nth (k / w) l dx)) d.
Proof.
  induction l as [|x l IH]; intros k dx d K; [cbn in K; lia|]. cbn [flat_map length] in *. destruct (Nat.lt_ge_cases k w) as [L|L].
  - rewrite app_nth1 by (rewrite W; exact L). rewrite Nat.mod_small, Nat.div_small by exact L. reflexivity.
  - rewrite app_nth2 by (rewrite W; exact L). rewrite W, (IH _ dx) by lia. pose proof (Nat.div_add (k - w) 1 w). pose proof (Nat.mod_add (k - w) 1 w).
    replace (k - w + 1 * w) with k in * by lia. rewrite H, H0 by lia. rewrite Nat.add_1_r. reflexivity.
Qed.

Lemma pieces_firstn : forall n l, firstn (w * n) (flat_map f l) = flat_map f (firstn n l).
Proof using W.
  clear P.
  induction n as [|n IH]; intros l; [rewrite Nat.mul_0_r; reflexivity|]. destruct l as [|x l]; [apply firstn_nil|]. cbn [firstn flat_map].
  rewrite firstn_app, W, firstn_all2 by (rewrite W; lia). f_equal. replace (w * S n - w) with (w * n) by lia. apply IH.
Qed.
Lemma pieces_skipn : forall n l, skipn (w * n) (flat_map f l) = flat_map f (skipn n l).
Proof using W.
  clear P.
  induction n as [|n IH]; intros l; [rewrite Nat.mul_0_r; reflexivity|]. destruct l as [|x l]; [apply skipn_nil|]. cbn [skipn flat_map].
  rewrite skipn_app, W, skipn_all2 by (rewrite W; lia). replace (w * S n - w) with (w * n) by lia. apply IH.
Qed.
Lemma pieces_app : forall a b, flat_map f (a ++ b) = flat_map f a ++ flat_map f b.
Proof. intros. apply flat_map_app. Qed.
End Pieces.

(** The bits of a lane, and of lanes. *)
Definition low_bits (w : nat) (n : N) : list bool := map (fun i => N.testbit n (N.of_nat i)) (seq 0 w).
Definition lane_bits : list N -> list bool := flat_map (low_bits 64).

Lemma low_length : forall w n, length (low_bits w n) = w.
Proof. intros. unfold low_bits. rewrite map_length. apply seq_length. Qed.
Lemma low_nth : forall w n k, k < w -> nth k (low_bits w n) false = N.testbit n (N.of_nat k).
Proof.
  intros w n k K. unfold low_bits. rewrite (nth_indep _ false (N.testbit n (N.of_nat 0))) by (rewrite map_length, seq_length; exact K).
  rewrite (map_nth (fun i => N.testbit n (N.of_nat i))), seq_nth by exact K. reflexivity.
Qed.
Lemma low_xor : forall w a b, low_bits w (N.lxor a b) = xor_bits (low_bits w a) (low_bits w b).
Proof.
  intros w a b. unfold low_bits, xor_bits. induction (seq 0 w) as [|i l IH]; [reflexivity|]. cbn [map combine fst snd]. rewrite N.lxor_spec, IH. reflexivity.
Qed.
Lemma low_zero : forall w, low_bits w 0 = repeat false w.
Proof.
  intros w. unfold low_bits. generalize 0 at 1. induction w as [|w IH]; intros s; [reflexivity|]. cbn [seq map repeat]. rewrite N.bits_0, IH. reflexivity.
Qed.
Lemma low_split : forall u v n, low_bits (u + v) n = low_bits u n ++ low_bits v (N.shiftr n (N.of_nat u)).
Proof.
  intros u v n. unfold low_bits. rewrite seq_app, map_app. f_equal. cbn [Nat.add].
  replace (seq u v) with (map (fun i => u + i) (seq 0 v)).
  - rewrite map_map. apply map_ext. intros i. rewrite N.shiftr_spec by lia. f_equal. lia.
  - assert (G : forall v s, map (fun i => u + i) (seq s v) = seq (u + s) v).
    { clear. induction v as [|v IH]; intros s; [reflexivity|]. cbn [seq map]. rewrite IH. f_equal. f_equal. lia. }
    rewrite G, Nat.add_0_r. reflexivity.
Qed.

Lemma xor_app : forall a b c d, length a = length c -> xor_bits (a ++ b) (c ++ d) = xor_bits a c ++ xor_bits b d.
Proof.
  intros a. induction a as [|x a IH]; intros b c d H; destruct c as [|y c]; try discriminate; [reflexivity|].
  injection H as H. cbn [app]. unfold xor_bits in *. cbn [combine map fst snd]. rewrite IH by exact H. reflexivity.
Qed.

(** *** Bytes and lanes *)

Lemma bits_low : forall l, bits l = flat_map (low_bits 8) l.
Proof. reflexivity. Qed.
Lemma bits_length : forall l, length (bits l) = 8 * length l.
Proof. intros l. rewrite bits_low. apply (pieces_length _ 8 (low_length 8)). Qed.
Lemma bits_app : forall a b, bits (a ++ b) = bits a ++ bits b.
Proof. intros. apply flat_map_app. Qed.
Lemma bits_zero : forall n, bits (repeat 0%N n) = repeat false (8 * n).
Proof.
  induction n as [|n IH]; [reflexivity|]. replace (8 * S n) with (8 + 8 * n) by lia. rewrite repeat_app, <- IH. reflexivity.
Qed.
Lemma lanes_zero : forall n, lane_bits (repeat 0%N n) = repeat false (64 * n).
Proof.
  induction n as [|n IH]; [reflexivity|]. replace (64 * S n) with (64 + 64 * n) by lia. rewrite repeat_app, <- IH.
  unfold lane_bits. cbn [repeat flat_map]. rewrite low_zero. reflexivity.
Qed.

Lemma of_le_bits : forall l, all_bytes l -> low_bits (8 * length l) (of_le l) = bits l.
Proof.
  induction l as [|b l IH]; intros B; [reflexivity|]. apply all_bytes_cons in B. destruct B as [B0 B].
  replace (8 * length (b :: l)) with (8 + 8 * length l) by (cbn [length]; lia). rewrite low_split. cbn [bits flat_map of_le].
  fold (bits l). rewrite <- IH by exact B. f_equal.
  - unfold byte_bits, low_bits. apply map_ext_in. intros i I. apply in_seq in I.
    replace (b + 256 * of_le l)%N with (b + of_le l * 2 ^ 8)%N by (change (2 ^ 8)%N with 256%N; lia).
    rewrite <- (N.mod_pow2_bits_low _ 8) by lia. rewrite N.mod_add by discriminate. rewrite N.mod_small by exact B0. reflexivity.
  - f_equal. rewrite N.shiftr_div_pow2. change (2 ^ N.of_nat 8)%N with 256%N.
    replace (b + 256 * of_le l)%N with (b + of_le l * 256)%N by lia. rewrite N.div_add by discriminate. rewrite N.div_small by exact B0. reflexivity.
Qed.

Lemma to_le_bits : forall n v, bits (to_le n v) = low_bits (8 * n) v.
Proof.
  induction n as [|n IH]; intros v; [reflexivity|]. replace (8 * S n) with (8 + 8 * n) by lia. rewrite low_split. cbn [to_le bits flat_map].
  fold (bits (to_le n (v / 256))). rewrite IH, N.shiftr_div_pow2. change (2 ^ N.of_nat 8)%N with 256%N. f_equal.
  unfold byte_bits, low_bits. apply map_ext_in. intros i I. apply in_seq in I. change 256%N with (2 ^ 8)%N. apply N.mod_pow2_bits_low. lia.
Qed.

Lemma xor_lanes : forall a b, length a = length b ->
  lane_bits (map (fun p => N.lxor (fst p) (snd p)) (combine a b)) = xor_bits (lane_bits a) (lane_bits b).
Proof.
  intros a. induction a as [|x a IH]; intros b H; destruct b as [|y b]; try discriminate; [reflexivity|]. injection H as H.
  unfold lane_bits in *. cbn [combine map flat_map fst snd]. rewrite xor_app by (rewrite !low_length; reflexivity).
  rewrite IH by exact H. rewrite low_xor. reflexivity.
Qed.
Lemma xor_bytes : forall k b, bits (map (fun x => N.lxor x b) k) = xor_bits (bits k) (bits (repeat b (length k))).
Proof.
  assert (C : forall b l, bits (b :: l) = low_bits 8 b ++ bits l) by reflexivity.
  induction k as [|x k IH]; intros b; [reflexivity|]. cbn [map length repeat]. rewrite !C.
  rewrite xor_app by (rewrite !low_length; reflexivity). rewrite IH, low_xor. reflexivity.
Qed.

(** *** The permutation on strings *)

Lemma rep_string : forall a, length a = 25 -> Forall lane_ok a -> rep a (string_state (lane_bits a)).
Proof.
  intros a L F. split; [exact L|]. split; [exact F|]. intros x y z X Y Z0. unfold string_state, lane_bits.
  rewrite (pieces_nth _ 64 (low_length 64) ltac:(lia) a _ 0%N) by (rewrite L; lia).
  rewrite low_nth by lia. unfold tb. f_equal; [f_equal|]; lia.
Qed.

Lemma string_rep : forall a A, rep a A -> state_string A = lane_bits a.
Proof.
  intros a A (L & F & H). apply (nth_ext _ _ false false).
  - unfold state_string, lane_bits. rewrite map_length, seq_length, (pieces_length _ 64 (low_length 64)), L. reflexivity.
  - intros k K. unfold state_string in *. rewrite map_length, seq_length in K.
    set (g := fun k0 : nat => let i := Z.of_nat k0 in A (i / 64 mod 5)%Z (i / 320)%Z (i mod 64)%Z).
    rewrite (nth_indep _ false (g 0)) by (rewrite map_length, seq_length; exact K). rewrite (map_nth g), seq_nth by exact K.
    unfold lane_bits. rewrite (pieces_nth _ 64 (low_length 64) ltac:(lia) a _ 0%N) by (rewrite L; lia). rewrite low_nth by lia.
    unfold g. cbv zeta. rewrite H by lia. unfold tb. f_equal; [f_equal|]; lia.
Qed.

Lemma keccak_string : forall a, length a = 25 -> Forall lane_ok a -> keccak_p (lane_bits a) = lane_bits (keccak_f a).
Proof. intros a L F. unfold keccak_p. apply string_rep, keccak_rep, rep_string; assumption. Qed.

Lemma keccak_ok : forall a, length a = 25 -> Forall lane_ok a -> length (keccak_f a) = 25 /\ Forall lane_ok (keccak_f a).
Proof. intros a L F. destruct (keccak_rep a _ (rep_string a L F)) as (A & B & _). auto. Qed.

(** *** Absorbing *)

Lemma all_bytes_firstn : forall n l, all_bytes l -> all_bytes (firstn n l).
Proof. intros n l H. intros x I. apply H. rewrite <- (firstn_skipn n l). apply in_or_app. auto. Qed.
Lemma all_bytes_skipn : forall n l, all_bytes l -> all_bytes (skipn n l).
Proof. intros n l H. intros x I. apply H. rewrite <- (firstn_skipn n l). apply in_or_app. auto. Qed.

Lemma lanes_of_block : forall n l, length l = 8 * n -> all_bytes l ->
  lane_bits (map of_le (chunks n 8 l)) = bits l /\ length (chunks n 8 l) = n /\ Forall lane_ok (map of_le (chunks n 8 l)).
Proof.
  induction n as [|n IH]; intros l L B.
  - destruct l; [|discriminate]. repeat split. constructor.
  - destruct l as [|b l'] eqn:El; [discriminate|]. rewrite <- El in *. replace (chunks (S n) 8 l) with (firstn 8 l :: chunks n 8 (skipn 8 l)) by (rewrite El; reflexivity).
    destruct (IH (skipn 8 l)) as (A1 & A2 & A3); [rewrite skipn_length; lia|apply all_bytes_skipn; exact B|].
    assert (F8 : length (firstn 8 l) = 8) by (rewrite firstn_length; lia).
    pose proof (of_le_bits _ (all_bytes_firstn 8 l B)) as OB. rewrite F8 in OB.
    cbn [map length]. split; [|split; [rewrite A2; reflexivity|]].
    + unfold lane_bits in *. cbn [flat_map]. rewrite A1. change (8 * 8) with 64 in OB. rewrite OB, <- bits_app, firstn_skipn. reflexivity.
    + constructor; [|exact A3]. assert (BO : forall m, all_bytes m -> (of_le m < 256 ^ N.of_nat (length m))%N).
      { clear. induction m as [|b m IH]; intros B; [reflexivity|]. apply all_bytes_cons in B. destruct B as [B0 B]. specialize (IH B). unfold is_byte in *.
        cbn [of_le length]. rewrite Nat2N.inj_succ, N.pow_succ_r'. nia. }
      specialize (BO _ (all_bytes_firstn 8 l B)). rewrite F8 in BO. change (256 ^ N.of_nat 8)%N with (2 ^ 64)%N in BO.
      intros z Z0. destruct (N.eq_dec (of_le (firstn 8 l)) 0) as [->|NZ]; [apply N.bits_0|]. apply N.bits_above_log2. apply N.log2_lt_pow2 in BO; lia.
Qed.

Lemma zero_ok : forall n, Forall lane_ok (repeat 0%N n).
Proof. intros n. apply Forall_forall. intros x I. apply repeat_spec in I. subst. intros z _. apply N.bits_0. Qed.

Lemma absorb_string : forall st b, length st = 25 -> Forall lane_ok st -> length b = 136 -> all_bytes b ->
  lane_bits (absorb st b) = keccak_p (xor_bits (lane_bits st) (bits b ++ repeat false 512))
  /\ length (absorb st b) = 25 /\ Forall lane_ok (absorb st b).
Proof.
  intros st b L F LB B. destruct (lanes_of_block 17 b LB B) as (A1 & A2 & A3). unfold absorb. cbv zeta. rewrite map_length, A2.
  change (25 - 17) with 8. set (blk := map of_le (chunks 17 8 b) ++ repeat 0%N 8).
  assert (LE : length st = length blk) by (unfold blk; rewrite app_length, map_length, A2, repeat_length, L; reflexivity).
  assert (XO : Forall lane_ok (map (fun p => N.lxor (fst p) (snd p)) (combine st blk))).
  { apply Forall_map, Forall_forall. intros [x y] I. cbn [fst snd].
    assert (FB : Forall lane_ok blk) by (apply Forall_app; split; [exact A3|apply zero_ok]).
    rewrite Forall_forall in F, FB. apply lxor_ok; [apply F|apply FB]; [eapply in_combine_l|eapply in_combine_r]; exact I. }
  assert (XL : length (map (fun p => N.lxor (fst p) (snd p)) (combine st blk)) = 25) by (rewrite map_length, combine_length, <- LE, L; reflexivity).
  split; [|apply keccak_ok; assumption]. rewrite <- keccak_string by assumption. rewrite xor_lanes by exact LE. do 2 f_equal.
  unfold blk, lane_bits. rewrite flat_map_app. fold lane_bits. fold (lane_bits (repeat 0%N 8)). rewrite lanes_zero. f_equal. exact A1.
Qed.

Lemma chunks_blocks : forall n l fuel, length l = 136 * n -> n <= fuel ->
  chunks fuel rate l = map (fun i => firstn 136 (skipn (136 * i) l)) (seq 0 n).
Proof.
  assert (SH : forall (l : list N) n s, map (fun i => firstn 136 (skipn (136 * i) l)) (seq (S s) n)
                      = map (fun i => firstn 136 (skipn (136 * i) (skipn 136 l))) (seq s n)).
  { intros l n. induction n as [|n IH]; intros s; [reflexivity|]. cbn [seq map]. rewrite IH. f_equal. f_equal.
    replace (136 * S s) with (136 * s + 136) by lia. generalize (136 * s). clear. intros a. revert l. generalize 136 as b. intros b l. revert a l.
    induction b as [|b IHb]; intros a l; [rewrite Nat.add_0_r; reflexivity|]. destruct l as [|x l]; [rewrite !skipn_nil; reflexivity|].
    replace (a + S b) with (S (a + b)) by lia. cbn [skipn]. apply IHb. }
  induction n as [|n IH]; intros l fuel L F.
  - destruct l; [|discriminate]. destruct fuel; reflexivity.
  - destruct fuel as [|fuel]; [lia|]. cbn [chunks]. destruct l as [|x l'] eqn:El; [discriminate|]. rewrite <- El in *.
    cbn [seq map]. rewrite Nat.mul_0_r. f_equal. rewrite SH. unfold rate. apply IH; [rewrite skipn_length; lia|lia].
Qed.

(** *** Padding *)

Lemma pad_string : forall m, bits (sha3_pad m)
  = (bits m ++ [false; true]) ++ pad101 1088 (Z.of_nat (length (bits m ++ [false; true]))).
Proof.
  intros m. rewrite app_length, bits_length. unfold sha3_pad, rate. cbv zeta. rewrite bits_app, <- app_assoc. f_equal.
  set (q := 136 - length m mod 136). assert (Q : 1 <= q <= 136) by (unfold q; lia).
  assert (J : Z.to_nat ((- Z.of_nat (8 * length m + length [false; true]) - 2) mod 1088) = 8 * q - 4).
  { cbn [length]. unfold q. lia. }
  unfold pad101. rewrite J. destruct (Nat.eqb_spec q 1) as [-> |NE]; [reflexivity|].
  rewrite !bits_app, bits_zero. replace (8 * q - 4) with (5 + (8 * (q - 2) + 7)) by lia. rewrite !repeat_app. rewrite <- !app_assoc. reflexivity.
Qed.

Lemma pad_length : forall m, exists n, length (sha3_pad m) = 136 * n.
Proof.
  intros m. exists (length m / 136 + 1). unfold sha3_pad, rate. cbv zeta. rewrite app_length.
  destruct (Nat.eqb_spec (136 - length m mod 136) 1); [cbn [length]; lia|]. rewrite !app_length, repeat_length. cbn [length]. lia.
Qed.

Lemma pad_bytes : forall m, all_bytes m -> all_bytes (sha3_pad m).
Proof.
  intros m B. unfold sha3_pad. cbv zeta. intros x I. apply in_app_or in I. destruct I as [I|I]; [exact (B x I)|].
  destruct (_ =? _); [destruct I as [<-|[]]; reflexivity|]. apply in_app_or in I. destruct I as [[<-|[]]|I]; [reflexivity|].
  apply in_app_or in I. destruct I as [I|[<-|[]]]; [|reflexivity]. apply repeat_spec in I. subst. reflexivity.
Qed.

(** *** The functions *)

Lemma sha3_string : forall m, all_bytes m -> bits (sha3_256 m) = fips_sha3_256 (bits m).
Proof.
  intros m B. unfold fips_sha3_256, sponge_256. cbv zeta. rewrite <- pad_string. destruct (pad_length m) as (n & PL).
  pose proof (pad_bytes m B) as PB. unfold sha3_256. cbv zeta. set (p := sha3_pad m) in *. clearbody p. clear m B.
  rewrite bits_length, PL. replace (8 * (136 * n) / 1088) with n by lia.
  rewrite (chunks_blocks n) by (try exact PL; unfold rate; lia).
  assert (BL : map (fun i => firstn 1088 (skipn (1088 * i) (bits p))) (seq 0 n)
             = map bits (map (fun i => firstn 136 (skipn (136 * i) p)) (seq 0 n))).
  { rewrite map_map. apply map_ext. intros i. replace (1088 * i) with (8 * (136 * i)) by lia. rewrite !bits_low.
    rewrite (pieces_skipn _ 8 (low_length 8)). change 1088 with (8 * 136). apply (pieces_firstn _ 8 (low_length 8)). }
  rewrite BL. assert (FB : Forall (fun b => length b = 136 /\ all_bytes b) (map (fun i => firstn 136 (skipn (136 * i) p)) (seq 0 n))).
  { apply Forall_map, Forall_forall. intros i I. apply in_seq in I. split; [rewrite firstn_length, skipn_length; lia|].
    apply all_bytes_firstn, all_bytes_skipn, PB. }
  generalize dependent (map (fun i => firstn 136 (skipn (136 * i) p)) (seq 0 n)). intros blocks _ FB.
  change (repeat false 1600) with (repeat false (64 * 25)). rewrite <- lanes_zero.
  assert (G : forall st, length st = 25 -> Forall lane_ok st ->
    fold_left (fun s b => keccak_p (xor_bits s (b ++ repeat false 512))) (map bits blocks) (lane_bits st) = lane_bits (fold_left absorb blocks st)
    /\ length (fold_left absorb blocks st) = 25).
  { induction blocks as [|b bl IH]; intros st L F; [auto|]. inversion FB as [|? ? [B1 B2] FB']; subst. cbn [map fold_left].
    destruct (absorb_string st b L F B1 B2) as (A1 & A2 & A3). rewrite <- A1. apply IH; assumption. }
  destruct (G (repeat 0%N 25) eq_refl (zero_ok 25)) as (-> & L). generalize dependent (fold_left absorb blocks (repeat 0%N 25)). intros st L.
  change 256 with (64 * 4). unfold lane_bits. rewrite (pieces_firstn _ 64 (low_length 64)).
  do 4 (destruct st as [|? st]; [discriminate|]). cbn [map nth firstn flat_map]. rewrite !bits_app, !to_le_bits. reflexivity.
Qed.

Lemma hmac_string : forall key data, length key <= 136 -> all_bytes key -> all_bytes data ->
  bits (hmac_sha3_256 key data) = fips_hmac (bits key) (bits data).
Proof.
  intros key data L K D. unfold hmac_sha3_256, fips_hmac. cbv zeta.
  replace (1088 <? length (bits key)) with false by (rewrite bits_length; lia).
  assert (KB : forall b, (b < 256)%N -> all_bytes (map (fun x => N.lxor x b) (key ++ repeat 0%N (rate - length key)))).
  { intros b Hb. intros y I. apply in_map_iff in I. destruct I as (x & <- & I). assert (X : (x < 256)%N).
    { apply in_app_or in I. destruct I as [I|I]; [exact (K x I)|]. apply repeat_spec in I. subst. reflexivity. }
    destruct (N.eq_dec (N.lxor x b) 0) as [->|NZ]; [reflexivity|]. change 256%N with (2 ^ 8)%N in *. apply N.log2_lt_pow2; [lia|].
    eapply N.le_lt_trans; [apply N.log2_lxor|]. destruct (N.eq_dec x 0) as [->|]; [|apply N.log2_lt_pow2 in X; [|lia]].
    - rewrite N.max_r by (cbn; lia). destruct (N.eq_dec b 0) as [->|]; [reflexivity|]. apply N.log2_lt_pow2 in Hb; lia.
    - destruct (N.eq_dec b 0) as [->|]; [rewrite N.max_l by (cbn; lia); exact X|]. apply N.log2_lt_pow2 in Hb; lia. }
  assert (KL : length (key ++ repeat 0%N (rate - length key)) = 136) by (rewrite app_length, repeat_length; unfold rate; lia).
  assert (K0 : bits (key ++ repeat 0%N (rate - length key)) = bits key ++ repeat false (1088 - length (bits key))).
  { rewrite bits_app, bits_zero, bits_length. f_equal. f_equal. unfold rate. lia. }
  rewrite <- K0. rewrite <- KL at 1. rewrite <- KL at 1.
  rewrite <- !xor_bytes.
  rewrite sha3_string by (apply all_bytes_app; split; [apply KB; reflexivity|apply sha3_256_ok]).
  rewrite bits_app. rewrite sha3_string by (apply all_bytes_app; split; [apply KB; reflexivity|exact D]). rewrite bits_app. reflexivity.
Qed.
