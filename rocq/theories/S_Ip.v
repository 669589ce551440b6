(** Specification vocabulary: which texts denote which IP addresses (dotted
    decimal notation; RFC 4291, section 2.2). *)

From Coq Require Import String NArith List Bool.
From Verif Require Import M_IpAddr M_ConfTypes M_Text S_Text.
Import ListNotations.
Local Open Scope N_scope.

(** A decimal number of one byte, without leading zeros. *)
Definition octet_text (t : text) (v : N) : Prop :=
  t <> [] /\ numeral 10 t v /\ v < 256 /\ (forall r, t = 48 :: r -> r = []).

(** Four of them, separated by dots. *)
Definition ipv4_text (t : text) (o : list N) : Prop :=
  exists a b c d w x y z,
    t = a ++ 46 :: b ++ 46 :: c ++ 46 :: d /\ o = [w; x; y; z]
    /\ octet_text a w /\ octet_text b x /\ octet_text c y /\ octet_text d z.

(** One to four hexadecimal digits. *)
Definition group_text (t : text) (v : N) : Prop :=
  (1 <= length t <= 4)%nat /\ numeral 16 t v.

(** Groups separated by colons; with [v4], the last two may be written as an IPv4
    address. *)
Inductive groups (v4 : bool) : text -> list N -> Prop :=
| gr_one : forall t v, group_text t v -> groups v4 t [v]
| gr_v4 : forall t a b c d, v4 = true -> ipv4_text t [a; b; c; d] ->
    groups v4 t [a * 256 + b; c * 256 + d]
| gr_more : forall t v r vs, group_text t v -> groups v4 r vs -> groups v4 (t ++ 58 :: r) (v :: vs).

Definition groups_or_none (v4 : bool) (t : text) (vs : list N) : Prop :=
  (t = [] /\ vs = []) \/ groups v4 t vs.

(** All eight groups, or fewer with a double colon in place of the missing zero
    groups. *)
Inductive eight_groups : text -> list N -> Prop :=
| eg_full : forall t vs, groups true t vs -> length vs = 8%nat -> eight_groups t vs
| eg_short : forall l vl r vr n, groups_or_none false l vl -> groups_or_none true r vr ->
    (1 <= n)%nat -> (length vl + n + length vr = 8)%nat ->
    eight_groups (l ++ 58 :: 58 :: r) (vl ++ repeat 0 n ++ vr).

Definition ipv6_text (t : text) (o : list N) : Prop :=
  exists vs, eight_groups t vs /\ o = flat_map (fun v => [v / 256; v mod 256]) vs.

Definition address_text (t : text) (a : ip) : Prop :=
  match a with V4 o => ipv4_text t o | V6 o => ipv6_text t o end.
