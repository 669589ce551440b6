(** Specification vocabulary for byte streams. *)

From Coq Require Import List.
From Verif Require Import M_Base M_Stream.
Import ListNotations.

(** All bytes that arrive during a schedule. *)
Fixpoint arrivals (sched : list rx_event) : list byte :=
  match sched with
  | [] => []
  | Arrive bs :: r => bs ++ arrivals r
  | _ :: r => arrivals r
  end.

(** The whole byte stream a receiver can still see: what has arrived already
    and what is going to arrive. *)
Definition byte_stream (s : rx_sock) (sched : list rx_event) : list byte :=
  rx_pending s ++ arrivals sched.

(** [p] is a prefix of [l]. *)
Definition prefix_of {A : Type} (p l : list A) : Prop := exists r, l = p ++ r.
