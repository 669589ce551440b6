(** Model of [std::net::IpAddr] as far as letmein uses it. *)

From Coq Require Import NArith List Bool.
From Verif Require Import M_Base.
Import ListNotations.
Local Open Scope N_scope.

(** [std::net::IpAddr].  [V4] has four octets, [V6] has sixteen octets. *)
Inductive ip :=
| V4 (octets : list byte)
| V6 (octets : list byte).

(** [PartialEq] for [IpAddr]: same family and same octets. *)
Definition ip_eqb (a b : ip) : bool :=
  match a, b with
  | V4 x, V4 y => list_eqb x y
  | V6 x, V6 y => list_eqb x y
  | _, _ => false
  end.

(** [IpAddr::is_ipv4]. *)
Definition is_ipv4 (a : ip) : bool := match a with V4 _ => true | V6 _ => false end.

(** [IpAddr::is_ipv6]. *)
Definition is_ipv6 (a : ip) : bool := match a with V4 _ => false | V6 _ => true end.

(** [Ipv6Addr::to_ipv4_mapped] on the octets: [::ffff:a.b.c.d]. *)
Definition to_ipv4_mapped (o : list byte) : option (list byte) :=
  match o with
  | [0; 0; 0; 0; 0; 0; 0; 0; 0; 0; 255; 255; a; b; c; d] => Some [a; b; c; d]
  | _ => None
  end.
