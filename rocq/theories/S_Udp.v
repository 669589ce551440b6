(** Specification vocabulary for UDP sessions: histories of calls and results,
    and what each peer's queue ought to contain. *)

From Coq Require Import String NArith List Bool Permutation.
From Verif Require Import M_Base M_IpAddr M_Udp.
Import ListNotations.
Local Open Scope N_scope.

(** Equality of socket addresses in all their fields. *)
Definition sockaddr_dec (a b : sockaddr) : {a = b} + {a <> b}.
Proof.
  assert (forall x y : ip, {x = y} + {x <> y}) by (decide equality; apply (list_eq_dec N.eq_dec)).
  decide equality; apply N.eq_dec.
Defined.
Definition same_addr (a b : sockaddr) : bool := if sockaddr_dec a b then true else false.

Definition uhist := list (udp_event * udp_result).

Definition uevent_ok (ev : udp_event) : Prop :=
  match ev with UeAccept _ order => forall l, Permutation (order l) l | _ => True end.

(** [udp_history max peers s h]: a dispatcher for at most [max] connections that
    started with sessions for [peers] went through the calls [h] and is in
    state [s]. *)
Inductive udp_history (max : N) (peers : list sockaddr) : udp_sys -> uhist -> Prop :=
| uh_start : udp_history max peers (udp_start peers) []
| uh_step : forall s h ev s' r, udp_history max peers s h -> uevent_ok ev ->
    udp_step max s ev = Some (s', r) -> udp_history max peers s' (h ++ [(ev, r)]).

(** The peers that accept has returned, in order; the peer of session [sid]. *)
Fixpoint accepted_peers (h : uhist) : list sockaddr :=
  match h with
  | [] => []
  | (_, UrAccepted p) :: r => p :: accepted_peers r
  | _ :: r => accepted_peers r
  end.
Definition session_peer (peers : list sockaddr) (h : uhist) (sid : nat) : option sockaddr :=
  nth_error (peers ++ accepted_peers h) sid.

(** The datagram that a call has read from the socket, if it was large enough for
    a message: its first 56 bytes and its sender. *)
Definition datagram_read (x : udp_event * udp_result) : option (list byte * sockaddr) :=
  match x with
  | (_, UrClosed) => None
  | (UeAccept (RdDatagram d p) _, _) | (UeRecv _ (RdDatagram d p), _) =>
      if Nat.leb 56 (length d) then Some (firstn 56 d, p) else None
  | _ => None
  end.

Definition failed (r : udp_result) : bool :=
  match r with UrFail _ | UrPanic => true | _ => false end.

(** [of_peer f sid p]: session [sid] belongs to peer [p]. *)
Definition of_peer (f : nat -> option sockaddr) (sid : nat) (p : sockaddr) : bool :=
  match f sid with Some q => same_addr q p | None => false end.

(** The queue of peer [p] as it ought to be.  A datagram of [p] is appended; one
    that makes the call fail (overflow, too many connections) empties the queue;
    delivery takes the oldest; closing a session of [p] empties the queue. *)
Definition queue_step (f : nat -> option sockaddr) (p : sockaddr) (l : list (list byte))
           (x : udp_event * udp_result) : list (list byte) :=
  let l1 :=
    match datagram_read x with
    | Some (b, q) => if same_addr q p then (if failed (snd x) then [] else l ++ [b]) else l
    | None => l
    end in
  match x with
  | (UeRecv sid _, UrDatagram _) => if of_peer f sid p then tl l1 else l1
  | (UeClose sid, UrDone) => if of_peer f sid p then [] else l1
  | _ => l1
  end.
Definition queue (f : nat -> option sockaddr) (p : sockaddr) (h : uhist) : list (list byte) :=
  fold_left (queue_step f p) h [].

(** Is there a connection of peer [p], i.e. has a datagram of it been kept since
    the last close or failure?  Has it been accepted since? *)
Definition known_step (f : nat -> option sockaddr) (p : sockaddr) (k : bool * bool)
           (x : udp_event * udp_result) : bool * bool :=
  let k1 :=
    match datagram_read x with
    | Some (_, q) => if same_addr q p then (if failed (snd x) then (false, false) else (true, snd k)) else k
    | None => k
    end in
  match x with
  | (UeAccept _ _, UrAccepted q) => if same_addr q p then (fst k1, true) else k1
  | (UeClose sid, UrDone) => if of_peer f sid p then (false, false) else k1
  | _ => k1
  end.
Definition connected (f : nat -> option sockaddr) (p : sockaddr) (h : uhist) : bool :=
  fst (fold_left (known_step f p) h (false, false)).
Definition taken (f : nat -> option sockaddr) (p : sockaddr) (h : uhist) : bool :=
  snd (fold_left (known_step f p) h (false, false)).

(** Datagrams of [p] that were read from the socket, and that were delivered. *)
Fixpoint arrivals (p : sockaddr) (h : uhist) : list (list byte) :=
  match h with
  | [] => []
  | x :: r => match datagram_read x with
              | Some (b, q) => if same_addr q p then b :: arrivals p r else arrivals p r
              | None => arrivals p r
              end
  end.
Fixpoint deliveries (f : nat -> option sockaddr) (p : sockaddr) (h : uhist) : list (list byte) :=
  match h with
  | [] => []
  | (UeRecv sid _, UrDatagram b) :: r =>
      if of_peer f sid p then b :: deliveries f p r else deliveries f p r
  | _ :: r => deliveries f p r
  end.

Inductive subsequence {A : Type} : list A -> list A -> Prop :=
| sub_nil : forall l, subsequence [] l
| sub_take : forall x k l, subsequence k l -> subsequence (x :: k) (x :: l)
| sub_skip : forall x k l, subsequence k l -> subsequence k (x :: l).

(** A call reads a datagram of a peer whose queue is full. *)
Definition overflow_at (f : nat -> option sockaddr) (h : uhist) (x : udp_event * udp_result) : Prop :=
  exists b p, datagram_read x = Some (b, p) /\ length (queue f p h) = 4%nat.
Definition no_overflow (f : nat -> option sockaddr) (h : uhist) : Prop :=
  forall pre x post, h = pre ++ x :: post -> ~ overflow_at f pre x.

(** The sessions that are open. *)
Definition closes (h : uhist) (sid : nat) : Prop := In (UeClose sid, UrDone) h.

(** The datagrams waiting for peer [p] after a read. *)
Definition waiting_after (f : nat -> option sockaddr) (p : sockaddr) (h : uhist) (rd : sock_read) :=
  queue f p h ++
  match rd with
  | RdDatagram d q => if Nat.leb 56 (length d) && same_addr q p then [firstn 56 d] else []
  | _ => []
  end.

(** A close of a session of [p], or a datagram of [p] that makes a call fail. *)
Definition resets (f : nat -> option sockaddr) (p : sockaddr) (x : udp_event * udp_result) : Prop :=
  (exists sid, x = (UeClose sid, UrDone) /\ f sid = Some p)
  \/ (exists b, datagram_read x = Some (b, p) /\ failed (snd x) = true).
