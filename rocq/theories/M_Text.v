(** Number and address formatting of the Rust standard library, as far as
    letmein uses it.  A text is a list of Unicode code points. *)

From Coq Require Import String Ascii NArith List Bool.
From Verif Require Import M_Base M_IpAddr M_ConfTypes.
Import ListNotations.
Local Open Scope N_scope.

(** A string literal of the source code. *)
Fixpoint lit (s : string) : text :=
  match s with
  | EmptyString => []
  | String c r => N_of_ascii c :: lit r
  end.

(** Digits of [core::fmt]: '0'..'9', then letters from [ten] on ('a' for
    [{:x}], 'A' for [{:X}]). *)
Definition digit_char (ten d : N) : N := if d <? 10 then 48 + d else ten + (d - 10).
Definition LOWER : N := 97.
Definition UPPER : N := 65.

(** [core::fmt] of an unsigned integer in a radix without padding.  [fuel] is a
    bound for the number of digits. *)
Fixpoint fmt_fuel (fuel : nat) (ten base n : N) (acc : text) : text :=
  match fuel with
  | O => acc
  | S f =>
      if n <? base then digit_char ten n :: acc
      else fmt_fuel f ten base (n / base) (digit_char ten (n mod base) :: acc)
  end.
Definition fmt_radix (ten base n : N) : text := fmt_fuel (S (N.to_nat (N.size n))) ten base n [].

(** [{}] of an unsigned integer. *)
Definition fmt_dec (n : N) : text := fmt_radix LOWER 10 n.
(** [{:x}] of an unsigned integer. *)
Definition fmt_hex (n : N) : text := fmt_radix LOWER 16 n.

(** Join with a separator character. *)
Fixpoint join (sep : N) (l : list text) : text :=
  match l with
  | [] => []
  | [x] => x
  | x :: r => x ++ sep :: join sep r
  end.

(** [Display] for [Ipv4Addr] (core::net::ip_addr). *)
Definition fmt_ipv4 (o : list byte) : text := join 46 (map fmt_dec o).

(** [Ipv6Addr::segments]: eight 16-bit numbers. *)
Fixpoint segments (o : list byte) : list N :=
  match o with
  | a :: b :: r => a * 256 + b :: segments r
  | _ => []
  end.

(** [Display] for [Ipv6Addr]: the search for the longest run of zero segments.
    The two spans are (start, length). *)
Fixpoint zero_span (i : nat) (current longest : nat * nat) (l : list N) : nat * nat :=
  match l with
  | [] => longest
  | s :: r =>
      if s =? 0 then
        let start := if Nat.eqb (snd current) 0 then i else fst current in
        let cur := (start, S (snd current)) in
        let lon := if Nat.ltb (snd longest) (snd cur) then cur else longest in
        zero_span (S i) cur lon r
      else zero_span (S i) (0, 0)%nat longest r
  end.

(** [Display] for [Ipv6Addr] (core::net::ip_addr). *)
Definition fmt_ipv6 (o : list byte) : text :=
  match to_ipv4_mapped o with
  | Some v4 => lit "::ffff:" ++ fmt_ipv4 v4
  | None =>
      let segs := segments o in
      let (start, len) := zero_span 0 (0, 0)%nat (0, 0)%nat segs in
      if Nat.ltb 1 len then
        join 58 (map fmt_hex (firstn start segs)) ++ lit "::"
        ++ join 58 (map fmt_hex (skipn (start + len) segs))
      else join 58 (map fmt_hex segs)
  end.

(** [Display] for [IpAddr]. *)
Definition fmt_ip (a : ip) : text :=
  match a with V4 o => fmt_ipv4 o | V6 o => fmt_ipv6 o end.

(** [str::split] at a character: always at least one part. *)
Fixpoint split_on (sep : N) (t : text) : list text :=
  match t with
  | [] => [[]]
  | c :: r =>
      if c =? sep then [] :: split_on sep r
      else match split_on sep r with
           | h :: tl => (c :: h) :: tl
           | [] => [[c]]
           end
  end.
