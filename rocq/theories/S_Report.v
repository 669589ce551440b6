(** Specification vocabulary for what is said about a rejected configuration
    file. *)

From Coq Require Import String NArith List.
From Verif Require Import M_ConfTypes S_Text S_Conf.
Import ListNotations.
Local Open Scope N_scope.

(** All that may be told about the text of a key. *)
Inductive key_flaw :=
| FlawNone               (* a key *)
| FlawZeros | FlawOnes   (* 64 digits, all 0 or all F *)
| FlawNotAscii           (* characters that are not ASCII *)
| FlawLength (n : nat)   (* not 64 characters *)
| FlawDigit.             (* 64 characters, but not all of them digits *)

Definition ascii (t : text) : Prop := forall c, In c t -> c < 128.

Definition key_flaw_of (t : text) (f : key_flaw) : Prop :=
  match f with
  | FlawNone => exists k, key_text t k
  | FlawZeros => exists body, padded t body /\ hex_bytes body (repeat 0 32)
  | FlawOnes => exists body, padded t body /\ hex_bytes body (repeat 255 32)
  | FlawNotAscii => exists body, padded t body /\ ~ ascii body
  | FlawLength n => exists body, padded t body /\ ascii body /\ length body = n /\ n <> 64%nat
  | FlawDigit => exists body, padded t body /\ ascii body /\ length body = 64%nat /\ forall k, ~ hex_bytes body k
  end.

(** A map is gone through in an order that its names decide and its values do
    not. *)
Definition order_by_names {A : Type} (order : list (text * A) -> list (text * A)) : Prop :=
  forall m1 m2, map fst m1 = map fst m2 -> map fst (order m1) = map fst (order m2).
