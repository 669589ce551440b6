(** Durations that are not whole seconds: [str::parse::<f64>] and
    [Duration::from_secs_f64] of the Rust standard library, as parse_duration
    (letmein-conf/src/parse.rs 76-86) uses them. *)

From Coq Require Import String ZArith NArith List Bool.
From Verif Require Import M_Base M_ConfTypes M_Text M_Str.
Import ListNotations.
Local Open Scope Z_scope.

(** *** Reading a decimal number (core::num::dec2flt::parse) *)

(** [parse_digits]: the values of the leading decimal digits, and the rest. *)
Fixpoint lead_digits (t : text) : list Z * text :=
  match t with
  | [] => ([], [])
  | c :: r =>
      match to_digit 10 c with
      | Some d => let (l, r') := lead_digits r in (Z.of_N d :: l, r')
      | None => ([], t)
      end
  end.

(** A sign; the standard library reads it the same way for the number and for the
    exponent. *)
Definition lead_sign (t : text) : bool * text :=
  match t with
  | c :: r => if (c =? 45)%N then (true, r) else if (c =? 43)%N then (false, r) else (false, t)
  | [] => (false, t)
  end.

(** [parse_scientific]: the exponent saturates once it has reached 0x10000. *)
Definition exponent_digits (l : list Z) : Z :=
  fold_left (fun e d => if e <? 65536 then 10 * e + d else e) l 0.
Definition exponent_part (t : text) : option Z :=
  match t with
  | [] => Some 0
  | c :: r =>
      if (c =? 101)%N || (c =? 69)%N then
        let (neg, r) := lead_sign r in
        match lead_digits r with
        | ((_ :: _) as l, []) => Some (if neg then - exponent_digits l else exponent_digits l)
        | _ => None
        end
      else None
  end.

(** A decimal number [(-1)^neg * mant * 10^exp]. *)
Record decimal := Decimal { dc_neg : bool; dc_mant : Z; dc_exp : Z }.

Definition digits_value (l : list Z) : Z := fold_left (fun a d => 10 * a + d) l 0.

(** [dec2flt], [parse_number], [parse_partial_number]: sign, digits, optionally a
    point and digits, at least one digit, optionally an exponent, and nothing else.
    The words for infinity and NaN, which [parse_f64] (parse.rs 40-48) rejects, are
    no numbers here.  Simplification: the mantissa keeps all its digits. *)
Definition parse_decimal (t : text) : option decimal :=
  let (neg, t) := lead_sign t in
  let (int, r) := lead_digits t in
  let (frac, r) := match r with
                   | c :: r' => if (c =? 46)%N then lead_digits r' else ([], r)
                   | [] => ([], r)
                   end in
  match int ++ frac with
  | [] => None
  | l => match exponent_part r with
         | Some e => Some (Decimal neg (digits_value l) (e - Z.of_nat (length frac)))
         | None => None
         end
  end.

(** *** The nearest f64 *)

(** The integer that is nearest to [num / den]; the even one of two. *)
Definition nearest (num den : Z) : Z :=
  let q := num / den in
  let r := num mod den in
  if 2 * r <? den then q
  else if den <? 2 * r then q + 1
  else if Z.even q then q else q + 1.

(** [num / den / 2^e] as a fraction. *)
Definition scaled (num den e : Z) : Z * Z :=
  if 0 <=? e then (num, den * 2 ^ e) else (num * 2 ^ (- e), den).

(** The greatest [g] with [2^g <= num / den]. *)
Definition floor_log2 (num den : Z) : Z :=
  let g := Z.log2 num - Z.log2 den in
  let (n, d) := scaled num den g in
  if d <=? n then g else g - 1.

(** A finite f64 without its sign: [mant * 2^exp] with [mant < 2^53], where [mant]
    is at least [2^52] or [exp] is -1074. *)
Record f64 := F64 { f_mant : Z; f_exp : Z }.

(** The conversion is correctly rounded: to nearest, ties to even, with subnormal
    numbers.  [None] is infinity.  Simplification: the algorithms of dec2flt are
    replaced by this, their specification. *)
Definition to_f64 (num den : Z) : option f64 :=
  if num =? 0 then Some (F64 0 (-1074))
  else
    let e := Z.max (floor_log2 num den - 52) (-1074) in
    let (n, d) := scaled num den e in
    let m := nearest n d in
    let x := if m =? 2 ^ 53 then F64 (2 ^ 52) (e + 1) else F64 m e in
    if 971 <? f_exp x then None else Some x.

Definition decimal_f64 (x : decimal) : option f64 :=
  if 0 <=? dc_exp x then to_f64 (dc_mant x * 10 ^ dc_exp x) 1
  else to_f64 (dc_mant x) (10 ^ (- dc_exp x)).

(** [f64::to_bits] of a number that is not negative. *)
Definition to_bits (x : f64) : Z :=
  if f_mant x <? 2 ^ 52 then f_mant x
  else (f_exp x + 1075) * 2 ^ 52 + (f_mant x - 2 ^ 52).

(** *** [Duration::from_secs_f64] (core::time, [try_from_secs]) *)

Definition MANT_BITS : Z := 52.
Definition MANT_MASK : Z := Z.ones 52.
Definition EXP_MASK : Z := Z.ones 11.
Definition MIN_EXP : Z := - 1023.
Definition NANOS_PER_SEC : Z := 1000000000.

(** Rounding [tmp / 2^offset] to the nearest integer, ties to even, with masks. *)
Definition round_nanos (tmp offset : Z) : Z :=
  let nanos := Z.shiftr tmp offset in
  let rem := Z.land tmp (Z.ones offset) in
  let msb := Z.shiftl 1 (offset - 1) in
  let is_tie := rem =? msb in
  let is_even := Z.land nanos 1 =? 0 in
  let rem_msb := Z.land tmp msb =? 0 in
  if rem_msb || (is_even && is_tie) then nanos else nanos + 1.

(** Seconds and nanoseconds; [None]: too large, which [from_secs_f64] turns into
    a panic. *)
Definition try_from_secs (bits : Z) : option (Z * Z) :=
  let mant := Z.lor (Z.land bits MANT_MASK) (MANT_MASK + 1) in
  let exp := Z.land (Z.shiftr bits MANT_BITS) EXP_MASK + MIN_EXP in
  if exp <? -31 then Some (0, 0)
  else if exp <? 0 then
    let t := Z.shiftl mant (44 + exp) in
    let nanos := round_nanos (NANOS_PER_SEC * t) (MANT_BITS + 44) in
    if nanos =? NANOS_PER_SEC then Some (1, 0) else Some (0, nanos)
  else if exp <? MANT_BITS then
    let secs := Z.shiftr mant (MANT_BITS - exp) in
    let t := Z.land (Z.land (Z.shiftl mant exp) (Z.ones 64)) MANT_MASK in
    let nanos := round_nanos (NANOS_PER_SEC * t) MANT_BITS in
    if nanos =? NANOS_PER_SEC then Some (secs + 1, 0) else Some (secs, nanos)
  else if exp <? 64 then Some (Z.shiftl mant (exp - MANT_BITS), 0)
  else None.

(** *** parse.rs 40-48 and 80-84 *)

(** [secs <= u32::MAX]; a f64 is compared exactly. *)
Definition at_most_u32 (x : f64) : bool :=
  let (n, d) := scaled (f_mant x) 1 (- f_exp x) in n <=? 4294967295 * d.

(** The part of [parse_duration] after [parse_u32] has failed, on a trimmed text;
    in nanoseconds.  [secs >= 0.0] is true of the negative zero. *)
Definition f64_duration (t : text) : option (res N) :=
  match parse_decimal t with
  | None => None
  | Some x =>
      match decimal_f64 x with
      | None => None
      | Some f =>
          if dc_neg x && negb (f_mant f =? 0) then None
          else if negb (at_most_u32 f) then None
          else match try_from_secs (to_bits f) with
               | Some (secs, nanos) => Some (Ok (Z.to_N (secs * NANOS_PER_SEC + nanos)))
               | None => Some Panic
               end
      end
  end.

(** As the argument of [parse_duration] in [M_Conf]; the panic is shown not to
    happen ([C70_no_panic]). *)
Definition f64_seconds (t : text) : option N :=
  match f64_duration t with
  | Some (Ok ns) => Some ns
  | _ => None
  end.
