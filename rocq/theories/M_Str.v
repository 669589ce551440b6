(** String operations of the Rust standard library, as far as letmein uses them.
    A text is a list of Unicode code points; byte offsets of the code only ever
    come from [find] of an ASCII character and are used to cut the text there, so
    positions are represented by the cut itself. *)

From Coq Require Import String NArith List Bool.
From Verif Require Import M_Base M_ConfTypes M_Text.
Import ListNotations.
Local Open Scope N_scope.

(** [char::is_whitespace]: the Unicode property White_Space. *)
Definition is_white (c : N) : bool :=
  ((9 <=? c) && (c <=? 13)) || (c =? 32) || (c =? 133) || (c =? 160) || (c =? 5760)
  || ((8192 <=? c) && (c <=? 8202)) || (c =? 8232) || (c =? 8233) || (c =? 8239)
  || (c =? 8287) || (c =? 12288).

(** [str::trim_start], [str::trim_end], [str::trim]. *)
Fixpoint trim_start (t : text) : text :=
  match t with
  | [] => []
  | c :: r => if is_white c then trim_start r else t
  end.
Fixpoint trim_end (t : text) : text :=
  match t with
  | [] => []
  | c :: r => match trim_end r with
              | [] => if is_white c then [] else [c]
              | r' => c :: r'
              end
  end.
Definition trim (t : text) : text := trim_end (trim_start t).

(** [str::to_lowercase].  Every use in letmein compares the result (possibly
    trimmed) with ASCII words.  Besides the ASCII capitals, the Kelvin sign
    (U+212A) is the only character whose lower case mapping is all ASCII; no
    mapping produces white space.  Simplification: all other characters are
    mapped to themselves. *)
Definition lower_char (c : N) : N :=
  if (65 <=? c) && (c <=? 90) then c + 32 else if c =? 8490 then 107 else c.
Definition to_lowercase (t : text) : text := map lower_char t.

(** [str::find] of a character, followed by slicing before and after it. *)
Fixpoint cut_at (sep : N) (t : text) : option (text * text) :=
  match t with
  | [] => None
  | c :: r =>
      if c =? sep then Some ([], r)
      else match cut_at sep r with
           | Some (a, b) => Some (c :: a, b)
           | None => None
           end
  end.

(** [str::strip_prefix] of a string. *)
Fixpoint strip_prefix (p t : text) : option text :=
  match p, t with
  | [], _ => Some t
  | x :: p', c :: r => if x =? c then strip_prefix p' r else None
  | _ :: _, [] => None
  end.

(** Dropping the last character if it is [c] ([ends_with] and slicing). *)
Fixpoint strip_last (c : N) (t : text) : option text :=
  match t with
  | [] => None
  | [x] => if x =? c then Some [] else None
  | x :: r => match strip_last c r with Some r' => Some (x :: r') | None => None end
  end.

(** [str::lines]: split after each '\n'; the '\n' and a '\r' before it are
    removed; no line after the last '\n'. *)
Definition strip_cr (t : text) : text :=
  match strip_last 13 t with Some r => r | None => t end.
Fixpoint lines_acc (acc : text) (t : text) : list text :=
  match t with
  | [] => match acc with [] => [] | _ => [rev acc] end
  | c :: r => if c =? 10 then strip_cr (rev acc) :: lines_acc [] r else lines_acc (c :: acc) r
  end.
Definition lines (t : text) : list text := lines_acc [] t.

(** [char::to_digit] for a radix of at most 36. *)
Definition to_digit (radix c : N) : option N :=
  let d := if (48 <=? c) && (c <=? 57) then Some (c - 48)
           else if (97 <=? c) && (c <=? 122) then Some (c - 97 + 10)
           else if (65 <=? c) && (c <=? 90) then Some (c - 65 + 10)
           else None in
  match d with
  | Some v => if v <? radix then Some v else None
  | None => None
  end.

(** [from_str_radix] of an unsigned integer type with values below [bound]:
    an optional '+', then at least one digit; overflow is an error. *)
Fixpoint radix_digits (bound radix acc : N) (t : text) : res N :=
  match t with
  | [] => Ok acc
  | c :: r =>
      match to_digit radix c with
      | None => Err "invalid digit"
      | Some d =>
          let v := acc * radix + d in
          if v <? bound then radix_digits bound radix v r else Err "number too large"
      end
  end.
Definition from_str_radix (bound radix : N) (t : text) : res N :=
  match t with
  | [] => Err "cannot parse integer from empty string"
  | [c] => match to_digit radix c with Some d => if d <? bound then Ok d else Err "number too large"
                                     | None => Err "invalid digit" end
  | c :: r => if c =? 43 then radix_digits bound radix 0 r else radix_digits bound radix 0 t
  end.

Definition U16_BOUND : N := 65536.
Definition U32_BOUND : N := 4294967296.

(** [{:08X}] of a [u32]: zero padding on the left (used by [Display] of the
    identifiers, letmein-proto/src/lib.rs 83-87). *)
Definition pad_left (n : nat) (c : N) (t : text) : text := repeat c (n - length t) ++ t.
Definition fmt_id (v : N) : text := pad_left 8 48 (fmt_radix UPPER 16 v).

(** letmein-proto/src/lib.rs 89-95: [FromStr] of the identifiers. *)
Definition parse_id (t : text) : res N := from_str_radix U32_BOUND 16 (trim t).

(** [str::is_ascii]. *)
Definition is_ascii (t : text) : bool := forallb (fun c => c <? 128) t.
