(** SHA3-256 and HMAC on bit strings, written after the text of FIPS 202 (Keccak-p
    with state arrays of bits, sponge construction, padding, bytes as bit strings)
    and FIPS 198-1 (HMAC).  Nothing here uses the model in M_Sha3.v. *)

From Coq Require Import ZArith NArith List Bool.
Import ListNotations.
Local Open Scope Z_scope.

(** A state array (FIPS 202, 3.1): the bit at column x, row y, slice z;
    0 <= x, y < 5 and 0 <= z < 64. *)
Definition state := Z -> Z -> Z -> bool.

(** 3.2.1, Algorithm 1. *)
Definition fips_theta (A : state) : state :=
  let C x z := xorb (xorb (xorb (xorb (A x 0 z) (A x 1 z)) (A x 2 z)) (A x 3 z)) (A x 4 z) in
  let D x z := xorb (C ((x - 1) mod 5) z) (C ((x + 1) mod 5) ((z - 1) mod 64)) in
  fun x y z => xorb (A x y z) (D x z).

(** 3.2.2, Algorithm 2: [rho_loop n t x y] does the remaining [n] iterations of step
    3, from [t] on, at the lane (x, y). *)
Fixpoint rho_loop (A A' : state) (n : nat) (t x y : Z) : state :=
  match n with
  | O => A'
  | S n' =>
      rho_loop A (fun x' y' z => if (x' =? x) && (y' =? y) then A x y ((z - (t + 1) * (t + 2) / 2) mod 64) else A' x' y' z)
               n' (t + 1) y ((2 * x + 3 * y) mod 5)
  end.
Definition fips_rho (A : state) : state := rho_loop A A 24 0 1 0.

(** 3.2.3, Algorithm 3. *)
Definition fips_pi (A : state) : state := fun x y z => A ((x + 3 * y) mod 5) x z.

(** 3.2.4, Algorithm 4. *)
Definition fips_chi (A : state) : state := fun x y z =>
  xorb (A x y z) (xorb (A ((x + 1) mod 5) y z) true && A ((x + 2) mod 5) y z).

(** 3.2.5, Algorithm 5: one step of the shift register, and its bit after [t]
    steps. *)
Definition lfsr (r : list bool) : list bool :=
  match false :: r with
  | [r0; r1; r2; r3; r4; r5; r6; r7; r8] => [xorb r0 r8; r1; r2; r3; xorb r4 r8; xorb r5 r8; xorb r6 r8; r7]
  | _ => []
  end.
Definition rc (t : Z) : bool :=
  nth 0 (Nat.iter (Z.to_nat (t mod 255)) lfsr [true; false; false; false; false; false; false; false]) false.

(** Algorithm 6: the round constant has [rc (j + 7 ir)] at the position [2^j - 1]
    for [j] from 0 to 6. *)
Definition fips_iota (ir : Z) (A : state) : state := fun x y z =>
  if (x =? 0) && (y =? 0) then
    xorb (A x y z) (existsb (fun j => (z =? 2 ^ j - 1) && rc (j + 7 * ir)) [0; 1; 2; 3; 4; 5; 6])
  else A x y z.

Definition fips_round (A : state) (ir : Z) : state :=
  fips_iota ir (fips_chi (fips_pi (fips_rho (fips_theta A)))).

(** 3.1.2 and 3.1.3: strings of 1600 bits and state arrays. *)
Definition string_state (S : list bool) : state := fun x y z => nth (Z.to_nat (64 * (5 * y + x) + z)) S false.
Definition state_string (A : state) : list bool :=
  map (fun k => let i := Z.of_nat k in A (i / 64 mod 5) (i / 320) (i mod 64)) (seq 0 1600).

(** 3.3: Keccak-p[1600, 24]. *)
Definition keccak_p (S : list bool) : list bool :=
  state_string (fold_left fips_round (map Z.of_nat (seq 0 24)) (string_state S)).

(** 5.1: pad10*1. *)
Definition pad101 (x m : Z) : list bool := [true] ++ repeat false (Z.to_nat ((- m - 2) mod x)) ++ [true].

Definition xor_bits (a b : list bool) : list bool := map (fun p => xorb (fst p) (snd p)) (combine a b).

(** 4: SPONGE[Keccak-p[1600, 24], pad10*1, 1088](N, 256).  256 bits are less than the
    rate, so one squeeze is enough. *)
Definition sponge_256 (m : list bool) : list bool :=
  let p := m ++ pad101 1088 (Z.of_nat (length m)) in
  let blocks := map (fun i => firstn 1088 (skipn (1088 * i) p)) (seq 0 (length p / 1088)) in
  firstn 256 (fold_left (fun s b => keccak_p (xor_bits s (b ++ repeat false 512))) blocks (repeat false 1600)).

(** 6.1: SHA3-256. *)
Definition fips_sha3_256 (m : list bool) : list bool := sponge_256 (m ++ [false; true]).

(** Appendix B.1: bytes as bit strings, least significant bit first. *)
Definition byte_bits (b : N) : list bool := map (fun i => N.testbit b (N.of_nat i)) (seq 0 8).
Definition bits (l : list N) : list bool := flat_map byte_bits l.

(** FIPS 198-1, with the block size of 136 bytes: the key is made 136 bytes long with
    zeros, and hashed before if it is longer. *)
Definition fips_hmac (key text : list bool) : list bool :=
  let k := if (1088 <? length key)%nat then fips_sha3_256 key else key in
  let k0 := k ++ repeat false (1088 - length k) in
  let pad b := bits (repeat b 136) in
  fips_sha3_256 (xor_bits k0 (pad 0x5c%N) ++ fips_sha3_256 (xor_bits k0 (pad 0x36%N) ++ text)).
