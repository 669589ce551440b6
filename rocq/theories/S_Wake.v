(** Specification vocabulary for the waiting of the UDP tasks. *)

From Coq Require Import String NArith List Bool Permutation.
From Verif Require Import M_Base M_IpAddr M_Udp M_Wake.
Import ListNotations.
Local Open Scope N_scope.

Definition whist := list (wake_event * udp_result).

Definition wevent_ok (ev : wake_event) : Prop :=
  match ev with WvAccept _ order => forall l, Permutation (order l) l | _ => True end.

(** [wake_run max s h s']: the daemon goes from [s] to [s'] by the steps [h]. *)
Inductive wake_run (max : N) (s : wake) : whist -> wake -> Prop :=
| wr_nil : wake_run max s [] s
| wr_step : forall h s1 ev s2 r, wake_run max s h s1 -> wevent_ok ev ->
    wake_step max s1 ev = Some (s2, r) -> wake_run max s (h ++ [(ev, r)]) s2.

(** The session [i] of peer [p] is open and waits in a receive. *)
Definition receiving (s : wake) (i : nat) (p : sockaddr) : Prop :=
  nth_error (us_sess (wk_sys s)) i = Some (p, false) /\ nth_error (wk_recv s) i = Some RpWait.

(** The datagrams of [p] that the daemon has taken from the socket and not
    delivered. *)
Definition undelivered (s : wake) (p : sockaddr) (l : list (list byte)) : Prop :=
  exists c, conn_get (u_conn (us_udp (wk_sys s))) p = Some c /\ uc_queue c = l.

(** The daemon has taken a datagram of [p] from the socket and has not accepted
    [p] yet. *)
Definition unaccepted (s : wake) (p : sockaddr) : Prop :=
  exists c, conn_get (u_conn (us_udp (wk_sys s))) p = Some c /\ uc_accepted c = false.

(** [n] receives were called before that of [i] and wait, too. *)
Definition ahead (s : wake) (i n : nat) : Prop :=
  exists l r, wk_lock s = l ++ i :: r /\ ~ In i l /\ length l = n.

(** The number of times a waiting receive was woken. *)
Definition wakes (h : whist) : nat :=
  length (filter (fun x => match fst x with WvRecv _ _ => true | _ => false end) h).

Definition arrival (x : wake_event * udp_result) : Prop :=
  match fst x with WvArrive _ => True | _ => False end.

(** No receive failed that was woken by the notification of the daemon's own
    queues; an accept, or a receive that was woken by the socket, failed at most for
    another reason than the overflow of a queue; nothing panicked. *)
Definition calm (x : wake_event * udp_result) : Prop :=
  match x with
  | (_, UrPanic) => False
  | (WvAccept _ _, UrFail e) => e <> "UDP socket read: RX queue overflow"%string
  | (WvRecv _ false, UrFail e) => e <> "UDP socket read: RX queue overflow"%string
  | (_, UrFail _) => False
  | _ => True
  end.

(** Nothing failed and nothing panicked. *)
Definition unfailing (x : wake_event * udp_result) : Prop :=
  match snd x with UrPanic | UrFail _ => False | _ => True end.

(** No queue overflowed and nothing panicked; calls may have failed otherwise. *)
Definition steady (x : wake_event * udp_result) : Prop :=
  match snd x with
  | UrPanic => False
  | UrFail e => e <> "UDP socket read: RX queue overflow"%string
  | _ => True
  end.

(** A task looked at the queues, did not fail and accepted nobody. *)
Definition pass (x : wake_event * udp_result) : Prop :=
  match x with
  | (WvAccept _ _, UrIdle) | (WvRecv _ _, UrIdle) | (WvRecv _ _, UrDatagram _) => True
  | _ => False
  end.
