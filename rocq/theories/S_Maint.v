(** The schedule of the firewall maintenance. *)

From Coq Require Import NArith List.
From Verif Require Import M_Base M_FwProto M_ConfTypes M_Server M_Firewall S_Firewall.
Import ListNotations.
Local Open Scope N_scope.

(** letmeinfwd/src/main.rs 46: [FW_MAINTAIN_PERIOD], in nanoseconds. *)
Definition FW_MAINTAIN_PERIOD : N := 5000000000.

(** The times of the maintenance runs, in order. *)
Fixpoint maintenance_times (h : hist) : list N :=
  match h with
  | [] => []
  | (FwMaintain t _ _ _ _ _, _) :: r => t :: maintenance_times r
  | _ :: r => maintenance_times r
  end.

(** letmeinfwd/src/main.rs 251-262: the task of the firewall.  [time::interval]
    with its default behaviour: the ticks are at [start], [start] + period,
    [start] + 2 periods and so on, also after a late one.  Each tick is followed
    by one run; [delay] bounds the time from the tick to the run (scheduling and
    waiting for the lock).  [now] is the present. *)
Definition on_schedule (start delay : N) (h : hist) (now : N) : Prop :=
  forall k, start + N.of_nat k * FW_MAINTAIN_PERIOD + delay <= now ->
  exists m, nth_error (maintenance_times h) k = Some m
            /\ start + N.of_nat k * FW_MAINTAIN_PERIOD <= m
            /\ m <= start + N.of_nat k * FW_MAINTAIN_PERIOD + delay.

(** Everything in the history happened after [start]. *)
Definition since (start : N) (h : hist) : Prop :=
  forall x t, In x h -> event_time (fst x) = Some t -> start <= t.
