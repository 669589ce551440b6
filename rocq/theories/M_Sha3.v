(** HMAC-SHA3-256 in Gallina.

    The code uses the external crates [hmac] and [sha3]
    (letmein-proto/src/lib.rs 21-22, 268-277).  Their source is not part of
    the repository.  This file follows the public standards FIPS 202 (SHA-3)
    and FIPS 198-1 (HMAC).  It is tied to the code by the test vectors of
    letmein-proto/src/lib.rs 441-593 (Prop_Wire.v) and to the standards by Prop_Sha3.v. *)

From Coq Require Import NArith List Bool.
From Verif Require Import M_Base.
Import ListNotations.
Local Open Scope N_scope.

(** 64 bit lanes. *)
Definition lane_mask : N := 0xFFFFFFFFFFFFFFFF.

(** Rotate a 64 bit lane left by [n] (FIPS 202, 3.2.2). *)
Definition rotl (x n : N) : N :=
  N.land (N.lor (N.shiftl x n) (N.shiftr x (64 - n))) lane_mask.

(** FIPS 202 table of rho offsets; lane index is [x + 5 * y]. *)
Definition rho_offsets : list N :=
  [ 0; 1; 62; 28; 27;
    36; 44; 6; 55; 20;
    3; 10; 43; 25; 39;
    41; 45; 15; 21; 8;
    18; 2; 61; 56; 14 ].

(** FIPS 202 iota round constants. *)
Definition round_constants : list N :=
  [ 0x0000000000000001; 0x0000000000008082; 0x800000000000808A; 0x8000000080008000;
    0x000000000000808B; 0x0000000080000001; 0x8000000080008081; 0x8000000000008009;
    0x000000000000008A; 0x0000000000000088; 0x0000000080008009; 0x000000008000000A;
    0x000000008000808B; 0x800000000000008B; 0x8000000000008089; 0x8000000000008003;
    0x8000000000008002; 0x8000000000000080; 0x000000000000800A; 0x800000008000000A;
    0x8000000080008081; 0x8000000000008080; 0x0000000080000001; 0x8000000080008008 ].

Definition lane (a : list N) (x y : nat) : N :=
  nth ((Nat.modulo x 5) + 5 * (Nat.modulo y 5)) a 0.

(** All 25 coordinates in lane order. *)
Definition coords : list (nat * nat) :=
  flat_map (fun y => map (fun x => (x, y)) [0; 1; 2; 3; 4]%nat) [0; 1; 2; 3; 4]%nat.

(** theta (FIPS 202, 3.2.1). *)
Definition theta (a : list N) : list N :=
  let c := map (fun x => fold_left N.lxor (map (fun y => lane a x y) [1; 2; 3; 4]%nat)
                                   (lane a x 0)) [0; 1; 2; 3; 4]%nat in
  let d := map (fun x => N.lxor (nth (Nat.modulo (x + 4) 5) c 0)
                                (rotl (nth (Nat.modulo (x + 1) 5) c 0) 1))
               [0; 1; 2; 3; 4]%nat in
  map (fun xy => N.lxor (lane a (fst xy) (snd xy)) (nth (fst xy) d 0)) coords.

(** rho (FIPS 202, 3.2.2). *)
Definition rho (a : list N) : list N :=
  map (fun p => rotl (fst p) (snd p)) (combine a rho_offsets).

(** pi (FIPS 202, 3.2.3). *)
Definition pi_step (a : list N) : list N :=
  map (fun xy => lane a (fst xy + 3 * snd xy) (fst xy)) coords.

(** chi (FIPS 202, 3.2.4). *)
Definition chi (a : list N) : list N :=
  map (fun xy => let x := fst xy in let y := snd xy in
                 N.lxor (lane a x y)
                        (N.land (N.lxor (lane a (x + 1) y) lane_mask) (lane a (x + 2) y)))
      coords.

(** iota (FIPS 202, 3.2.5). *)
Definition iota (rc : N) (a : list N) : list N :=
  match a with
  | [] => []
  | l0 :: r => N.lxor l0 rc :: r
  end.

(** Keccak-p[1600, 24]. *)
Definition keccak_f (a : list N) : list N :=
  fold_left (fun s rc => iota rc (chi (pi_step (rho (theta s))))) round_constants a.

(** Little-endian conversions between bytes and lanes. *)
Fixpoint of_le (l : list byte) : N :=
  match l with
  | [] => 0
  | b :: r => b + 256 * of_le r
  end.

Fixpoint to_le (n : nat) (v : N) : list byte :=
  match n with
  | O => []
  | S n' => v mod 256 :: to_le n' (v / 256)
  end.

(** Cut a list into pieces of [n] elements ([fuel] bounds the number). *)
Fixpoint chunks (fuel n : nat) (l : list N) : list (list N) :=
  match fuel with
  | O => []
  | S f => match l with
           | [] => []
           | _ => firstn n l :: chunks f n (skipn n l)
           end
  end.

(** SHA3-256 rate in bytes (1088 bits). *)
Definition rate : nat := 136.

(** Padding with the SHA-3 domain bits: 0x06 ... 0x80. *)
Definition sha3_pad (m : list byte) : list byte :=
  let q := (rate - Nat.modulo (length m) rate)%nat in
  m ++ (if Nat.eqb q 1 then [0x86]
        else [0x06] ++ repeat 0 (q - 2) ++ [0x80]).

(** Absorb one block. *)
Definition absorb (st : list N) (block : list byte) : list N :=
  let lanes := map of_le (chunks 17 8 block) in
  let padded := lanes ++ repeat 0 (25 - length lanes) in
  keccak_f (map (fun p => N.lxor (fst p) (snd p)) (combine st padded)).

(** SHA3-256. *)
Definition sha3_256 (m : list byte) : list byte :=
  let p := sha3_pad m in
  let st := fold_left absorb (chunks (S (Nat.div (length p) rate)) rate p) (repeat 0 25%nat) in
  flat_map (to_le 8) (map (fun i => nth i st 0) [0; 1; 2; 3]%nat).

(** HMAC with block size [rate] for keys not longer than the block
    (letmein keys have 32 bytes, asserted at letmein-proto/src/lib.rs 261). *)
Definition hmac_sha3_256 (key data : list byte) : list byte :=
  let k := key ++ repeat 0 (rate - length key) in
  let ipad := map (fun b => N.lxor b 0x36) k in
  let opad := map (fun b => N.lxor b 0x5C) k in
  sha3_256 (opad ++ sha3_256 (ipad ++ data)).
