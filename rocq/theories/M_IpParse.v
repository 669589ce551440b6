(** Model of [str::parse::<IpAddr>], which /repo/letmein/src/resolver.rs 75, 80 and
    108 call: the parser of the Rust standard library (core::net::parser).  It
    works on the bytes of the string; here on its characters: a character beyond
    ASCII is refused by both. *)

From Coq Require Import String NArith List Bool.
From Verif Require Import M_Base M_IpAddr M_ConfTypes M_Text M_Str.
Import ListNotations.
Local Open Scope N_scope.

(** [Parser::read_given_char]. *)
Definition read_char (c : N) (t : text) : option text :=
  match t with
  | x :: r => if x =? c then Some r else None
  | [] => None
  end.

(** The loop of [Parser::read_number]: the number of digits, their value and what
    follows them. *)
Fixpoint number_loop (radix : N) (maxd : nat) (bound : N) (count : nat) (acc : N) (t : text)
  : option (nat * N * text) :=
  match t with
  | [] => Some (count, acc, [])
  | c :: r =>
      match to_digit radix c with
      | None => Some (count, acc, t)
      | Some d =>
          let acc' := acc * radix + d in
          if negb (acc' <? bound) then None
          else if Nat.ltb maxd (S count) then None
          else number_loop radix maxd bound (S count) acc' r
      end
  end.

(** [Parser::read_number]; [bound] is the number of values of the integer type. *)
Definition read_number (radix : N) (maxd : nat) (bound : N) (zero_prefix : bool) (t : text)
  : option (N * text) :=
  let leading_zero := match t with c :: _ => c =? 48 | [] => false end in
  match number_loop radix maxd bound 0 0 t with
  | None => None
  | Some (count, v, r) =>
      if Nat.eqb count 0 then None
      else if negb zero_prefix && leading_zero && Nat.ltb 1 count then None
      else Some (v, r)
  end.

(** [Parser::read_separator]. *)
Definition read_separator {A : Type} (sep : N) (index : nat) (inner : text -> option (A * text))
           (t : text) : option (A * text) :=
  match index with
  | O => inner t
  | S _ => match read_char sep t with Some r => inner r | None => None end
  end.

(** [Parser::read_ipv4_addr]. *)
Definition read_octet : text -> option (N * text) := read_number 10 3 256 false.
Definition read_ipv4 (t : text) : option (list byte * text) :=
  match read_separator 46 0 read_octet t with
  | None => None
  | Some (a, t1) =>
  match read_separator 46 1 read_octet t1 with
  | None => None
  | Some (b, t2) =>
  match read_separator 46 2 read_octet t2 with
  | None => None
  | Some (c, t3) =>
  match read_separator 46 3 read_octet t3 with
  | None => None
  | Some (d, t4) => Some ([a; b; c; d], t4)
  end end end end.

(** [read_groups] in [Parser::read_ipv6_addr]: [left] groups may still be read, [i]
    have been read.  Returns the groups, whether an IPv4 address was read at the
    end, and what follows. *)
Fixpoint read_groups (left i : nat) (t : text) : list N * bool * text :=
  match left with
  | O => ([], false, t)
  | S left' =>
      match (if Nat.ltb 0 left' then read_separator 58 i read_ipv4 t else None) with
      | Some ([a; b; c; d], r) => ([a * 256 + b; c * 256 + d], true, r)
      | _ =>
          match read_separator 58 i (read_number 16 4 65536 true) t with
          | Some (g, r) =>
              let '(gs, v4, r') := read_groups left' (S i) r in (g :: gs, v4, r')
          | None => ([], false, t)
          end
      end
  end.

(** [Parser::read_ipv6_addr]. *)
Definition read_ipv6 (t : text) : option (list N * text) :=
  let '(head, v4, r) := read_groups 8 0 t in
  if Nat.eqb (length head) 8 then Some (head, r)
  else if v4 then None
  else
    match read_char 58 r with
    | None => None
    | Some r1 =>
        match read_char 58 r1 with
        | None => None
        | Some r2 =>
            let '(tail, _, r3) := read_groups (8 - (length head + 1)) 0 r2 in
            Some (head ++ repeat 0 (8 - length head - length tail) ++ tail, r3)
        end
    end.

(** [IpAddr::from_str]: [Parser::read_ip_addr], and nothing may be left. *)
Definition parse_ip_addr (t : text) : option ip :=
  match read_ipv4 t with
  | Some (o, []) => Some (V4 o)
  | Some (_, _ :: _) => None
  | None =>
      match read_ipv6 t with
      | Some (vs, []) => Some (V6 (flat_map (fun v => [v / 256; v mod 256]) vs))
      | _ => None
      end
  end.
