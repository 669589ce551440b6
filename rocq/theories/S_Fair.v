(** Infinite executions in which nobody who can go on is passed over for ever. *)

From Coq Require Import NArith List Bool.
From Verif Require Import M_Base M_Firewall M_Udp M_Accept S_Firewall S_E2e S_Bytes S_Accept S_Rush.
Import ListNotations.

(** An infinite execution from [s0]: the state at each time, and which steps belong
    to the knock (1) or to others (0).  At any time nothing may happen. *)
Record execution {S : Type} (step : nat -> S -> S -> Prop) (s0 : S) (at_ : nat -> S) (own : nat -> nat) : Prop := {
  ex_start : at_ 0 = s0;
  ex_next : forall k, step (own k) (at_ k) (at_ (k + 1)) \/ (own k = 0 /\ at_ (k + 1) = at_ k)
}.

(** Weak fairness: from any time on, the knock goes on at some time or cannot go on
    at some time. *)
Definition knock_fair {S : Type} (step : nat -> S -> S -> Prop) (hist_of : S -> hist) (at_ : nat -> S) (own : nat -> nat) : Prop :=
  forall t, exists k, t <= k /\ (own k = 1 \/ ~ exists s', step 1 (at_ k) s' /\ clock_monotone (hist_of s')).

(** *** letmeind's accepting tasks *)

Section Accepting.
Variable has_udp : bool.
Variable acc : nat -> acceptor.

Definition happens (ev : aevent) (k : nat) : Prop := astep true has_udp (acc k) ev = Some (acc (k + 1)).
Definition impossible (ev : aevent) (k : nat) : Prop := astep true has_udp (acc k) ev = None.

Definition weakly_fair (ev : aevent) : Prop := forall t, exists k, t <= k /\ (happens ev k \/ impossible ev k).

(** Strong fairness: it happens again and again, or from some time on it is not
    possible at any time. *)
Definition strongly_fair (ev : aevent) : Prop :=
  forall t, (exists k, t <= k /\ happens ev k) \/ (exists t', t <= t' /\ forall k, t' <= k -> impossible ev k).

(** The kernel hands over a connection, and the tasks run, if they can.  The select
    does not take the UDP handle every time if the TCP handle is ready as well. *)
Record accepts_fairly : Prop := {
  af_kernel : weakly_fair (AeTcp None);
  af_task : weakly_fair AeTask;
  af_select : strongly_fair (AeSelect true true)
}.

End Accepting.
