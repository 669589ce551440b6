(** What a decimal number in a configuration file denotes. *)

From Coq Require Import String ZArith NArith List QArith.
From Verif Require Import M_Base M_ConfTypes M_Text S_Text.
Import ListNotations.
Local Open Scope Z_scope.

(** An optional sign. *)
Inductive sign_text : text -> Z -> Prop :=
| sg_none : sign_text [] 1
| sg_plus : sign_text (lit "+") 1
| sg_minus : sign_text (lit "-") (-1).

(** [point_text t f]: nothing, or a point and the digits [f]. *)
Inductive point_text : text -> text -> Prop :=
| pt_none : point_text [] []
| pt_some : forall f, point_text (lit "." ++ f) f.

(** Nothing, or an exponent. *)
Inductive exponent_text : text -> Z -> Prop :=
| ex_none : exponent_text [] 0
| ex_some : forall c sg s ds v, c = lit "e" \/ c = lit "E" -> sign_text sg s -> ds <> [] -> numeral 10 ds v ->
    exponent_text (c ++ sg ++ ds) (s * Z.of_N v).

(** A decimal number: sign, digits, point, digits, exponent; there is at least one
    digit before the exponent.  It denotes a rational number. *)
Definition decimal_text (t : text) (q : Q) : Prop :=
  exists sg s int pt f ex i e,
    t = sg ++ int ++ pt ++ ex /\ sign_text sg s /\ point_text pt f /\ exponent_text ex e
    /\ int ++ f <> [] /\ numeral 10 (int ++ f) i
    /\ (q == inject_Z (s * Z.of_N i) * Qpower (inject_Z 10) (e - Z.of_nat (length f)))%Q.

(** The number of seconds that a number of nanoseconds is. *)
Definition seconds (ns : N) : Q := (inject_Z (Z.of_N ns) / inject_Z 1000000000)%Q.
