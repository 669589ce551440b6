(** Basic data types shared by all parts of the model. *)

From Coq Require Import String NArith List Bool.
Import ListNotations.
Local Open Scope N_scope.

(** Outcome of a Rust function that returns [ah::Result<A>] and that may
    panic.  [Err] carries a label standing for the error text.  [Panic] stands
    for a failing [assert!]/[assert_eq!], an out-of-range slice index, an
    arithmetic overflow (the release profile sets [overflow-checks = true],
    Cargo.toml lines 50-56) or an [unwrap]/[expect] on [None]/[Err].  With
    [panic = "abort"] (same place) a panic terminates the whole process. *)
Inductive res (A : Type) : Type :=
| Ok (a : A)
| Err (e : string)
| Panic.
Arguments Ok {A} a.
Arguments Err {A} e.
Arguments Panic {A}.

(** The [?] operator: sequence two fallible computations. *)
Definition bind {A B : Type} (r : res A) (f : A -> res B) : res B :=
  match r with
  | Ok a => f a
  | Err e => Err e
  | Panic => Panic
  end.

Declare Scope res_scope.
Delimit Scope res_scope with res.
Notation "'do' x <- r ; k" := (bind r (fun x => k))
  (at level 200, x name, r at level 100, k at level 200) : res_scope.

(** [assert!(b)]: panic unless [b]. *)
Definition assert_ {A : Type} (b : bool) (k : res A) : res A :=
  if b then k else Panic.

(** A byte is a natural number below 256 (Rust [u8]). *)
Notation byte := N (only parsing).
Definition is_byte (b : byte) : bool := b <? 256.
Definition bytes_ok (l : list byte) : bool := forallb is_byte l.

(** [u32::to_be_bytes]. *)
Definition be32 (v : N) : list byte :=
  [ (v / 16777216) mod 256; (v / 65536) mod 256; (v / 256) mod 256; v mod 256 ].

(** [u16::to_be_bytes]. *)
Definition be16 (v : N) : list byte :=
  [ (v / 256) mod 256; v mod 256 ].

(** [u32::from_be_bytes] / [u16::from_be_bytes]. *)
Definition of_be (l : list byte) : N :=
  fold_left (fun acc b => acc * 256 + b) l 0.

(** [&buf[off .. off + len]]: panics when the range is out of bounds. *)
Definition slice (buf : list byte) (off len : nat) : res (list byte) :=
  if Nat.leb (off + len) (length buf)
  then Ok (firstn len (skipn off buf))
  else Panic.

(** [buf[off .. off + len(data)].copy_from_slice(&data)]: panics when the
    range is out of bounds. *)
Definition put (buf : list byte) (off : nat) (data : list byte) : res (list byte) :=
  if Nat.leb (off + length data) (length buf)
  then Ok (firstn off buf ++ data ++ skipn (off + length data) buf)
  else Panic.

(** Equality of byte strings (and of texts). *)
Fixpoint list_eqb (a b : list N) : bool :=
  match a, b with
  | [], [] => true
  | x :: a', y :: b' => (x =? y) && list_eqb a' b'
  | _, _ => false
  end.
