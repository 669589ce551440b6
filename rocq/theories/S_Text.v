(** Specification vocabulary for texts: white space, lines, numbers, words. *)

From Coq Require Import String NArith List Bool.
From Verif Require Import M_ConfTypes M_Text.
Import ListNotations.
Local Open Scope N_scope.

(** The white space characters of Unicode. *)
Definition white_space (c : N) : Prop :=
  In c [9; 10; 11; 12; 13; 32; 133; 160; 5760; 8192; 8193; 8194; 8195; 8196; 8197; 8198; 8199;
        8200; 8201; 8202; 8232; 8233; 8239; 8287; 12288].
Definition blank (t : text) : Prop := forall c, In c t -> white_space c.

(** [t] is [body] with white space around it; [body] neither begins nor ends with
    white space. *)
Definition tight (body : text) : Prop :=
  (forall c r, body = c :: r -> ~ white_space c) /\ (forall r c, body = r ++ [c] -> ~ white_space c).
Definition padded (t body : text) : Prop :=
  exists a b, t = a ++ body ++ b /\ blank a /\ blank b /\ tight body.

(** The lines of a text: ended by LF or CR LF; the last one needs no end. *)
Inductive lines_of : text -> list text -> Prop :=
| lo_nil : lines_of [] []
| lo_last : forall l, l <> [] -> ~ In 10 l -> lines_of l [l]
| lo_lf : forall l r ls, ~ In 10 l -> (forall k, l <> k ++ [13]) -> lines_of r ls ->
    lines_of (l ++ 10 :: r) (l :: ls)
| lo_crlf : forall l r ls, ~ In 10 l -> lines_of r ls ->
    lines_of (l ++ 13 :: 10 :: r) (l :: ls).

(** Digits: '0'-'9', then 'A'-'Z' or 'a'-'z'. *)
Definition digit (base c d : N) : Prop :=
  d < base /\ ((c = 48 + d /\ d < 10) \/ (c = 55 + d /\ 10 <= d < 36) \/ (c = 87 + d /\ 10 <= d < 36)).
(** [numeral base t v]: the digits [t] denote [v]. *)
Inductive numeral (base : N) : text -> N -> Prop :=
| num_nil : numeral base [] 0
| num_snoc : forall t v c d, numeral base t v -> digit base c d -> numeral base (t ++ [c]) (v * base + d).
(** At least one digit; an optional plus sign. *)
Definition number (base : N) (t : text) (v : N) : Prop :=
  exists ds, ds <> [] /\ numeral base ds v /\ (t = ds \/ t = 43 :: ds).

(** An identifier of a user or resource. *)
Definition id_text (t : text) (v : N) : Prop :=
  exists body, padded t body /\ number 16 body v /\ v < 4294967296.

(** An integer option: decimal, or hexadecimal with the prefix 0x. *)
Definition int_text (bound : N) (t : text) (v : N) : Prop :=
  exists body, padded t body /\ v < bound
    /\ (number 10 body v \/ exists h, body = lit "0x" ++ h /\ number 16 h v).

(** A word regardless of case.  (The Kelvin sign counts as a capital K.) *)
Definition same_letter (c d : N) : Prop :=
  (c = d /\ ~ 65 <= c <= 90 /\ c <> 8490) \/ (65 <= c <= 90 /\ d = c + 32) \/ (c = 8490 /\ d = 107).
Definition spelled (word : string) (t : text) : Prop := Forall2 same_letter t (lit word).
Definition word_is (word : string) (t : text) : Prop :=
  exists body, padded t body /\ spelled word body.

(** Pairs of hexadecimal digits. *)
Inductive hex_bytes : text -> list N -> Prop :=
| hb_nil : hex_bytes [] []
| hb_cons : forall a b h l t k, digit 16 a h -> digit 16 b l -> hex_bytes t k ->
    hex_bytes (a :: b :: t) (h * 16 + l :: k).

(** A list separated by a character: at least one element. *)
Definition separated (sep : N) (t : text) (l : list text) : Prop :=
  l <> [] /\ (forall x, In x l -> ~ In sep x) /\ t = join sep l.

(** UTF-8. *)
Definition scalar (c : N) : Prop := c < 55296 \/ 57344 <= c < 1114112.
Definition utf8_char (c : N) : list N :=
  if c <? 128 then [c]
  else if c <? 2048 then [192 + c / 64; 128 + c mod 64]
  else if c <? 65536 then [224 + c / 4096; 128 + c / 64 mod 64; 128 + c mod 64]
  else [240 + c / 262144; 128 + c / 4096 mod 64; 128 + c / 64 mod 64; 128 + c mod 64].
Definition utf8 (bytes : list N) (t : text) : Prop :=
  Forall scalar t /\ bytes = concat (map utf8_char t).
