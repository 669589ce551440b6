(** Model of the partial-read and partial-write loops over byte streams:
    /repo/letmein-proto/src/socket.rs 388-467 (TCP branches of
    [NetSocket::send] and [NetSocket::recv]) and
    /repo/letmein-fwproto/src/lib.rs 287-331 ([FirewallMessage::send] and
    [FirewallMessage::recv]), which are the same loops. *)

From Coq Require Import String NArith List Bool Arith.
From Verif Require Import M_Base M_Proto M_FwProto.
Import ListNotations.

(** What may happen on the receiving side of a stream socket, in order of
    time.  The operating system may deliver bytes at any time ([Arrive]), the
    peer may close its side ([Close]), and the waiting task may be woken up:
    [ReadUpTo k] is a [readable()] + [try_read] that hands over at most [k + 1]
    of the bytes that have arrived, [Spurious] is a wake-up that yields
    [WouldBlock], and [Fail] is an error of [readable()] or [try_read]. *)
Inductive rx_event :=
| Arrive (bs : list byte)
| Close
| ReadUpTo (k : nat)
| Spurious
| Fail.

(** The socket as seen by the kernel: bytes that have arrived but have not
    been read yet, and whether the peer has closed. *)
Record rx_sock := RxSock { rx_pending : list byte; rx_closed : bool }.

(** Outcome of the receive loop: [Waiting] means that the schedule ended while
    the loop was still waiting for data. *)
Inductive rx_outcome :=
| Done (r : res (option (list byte)))
| Waiting.

(** socket.rs 435-459 and fwproto lib.rs 310-330.  [acc] is the part of [buf]
    that has been filled ([count = length acc]).  Returns the outcome, the
    socket and the events that have not been used. *)
Fixpoint recv_loop (size : nat) (acc : list byte) (s : rx_sock) (sched : list rx_event)
  : rx_outcome * rx_sock * list rx_event :=
  match sched with
  | [] => (Waiting, s, [])
  | Arrive bs :: sched' =>
      recv_loop size acc (RxSock (rx_pending s ++ bs) (rx_closed s)) sched'
  | Close :: sched' => recv_loop size acc (RxSock (rx_pending s) true) sched'
  | Spurious :: sched' => recv_loop size acc s sched'
  | Fail :: sched' => (Done (Err "Socket read"), s, sched')
  | ReadUpTo k :: sched' =>
      (* [try_read(&mut buf[count..])]: the kernel never hands over more than
         the remaining room. *)
      let n := Nat.min (S k) (Nat.min (size - length acc) (length (rx_pending s))) in
      if Nat.eqb n 0 then
        if rx_closed s then (Done (Ok None), s, sched')
        else recv_loop size acc s sched'   (* WouldBlock *)
      else
        let acc' := acc ++ firstn n (rx_pending s) in
        let s' := RxSock (skipn n (rx_pending s)) (rx_closed s) in
        if Nat.ltb size (length acc') then (Done Panic, s', sched')   (* assert! *)
        else if Nat.eqb (length acc') size then (Done (Ok (Some acc')), s', sched')
        else recv_loop size acc' s' sched'
  end.

(** socket.rs 427-467, TCP branch: [NetSocket::recv] with the closed flag. *)
Definition net_recv (closed : bool) (s : rx_sock) (sched : list rx_event)
  : rx_outcome * rx_sock * list rx_event :=
  if closed then (Done (Err "Socket is closed."), s, sched)
  else recv_loop MSG_SIZE [] s sched.

(** fwproto lib.rs 309-331: [FirewallMessage::recv]. *)
Inductive fw_rx_outcome :=
| FwDone (r : res (option fw_message))
| FwWaiting.

Definition fw_recv (s : rx_sock) (sched : list rx_event)
  : fw_rx_outcome * rx_sock * list rx_event :=
  match recv_loop FWMSG_SIZE [] s sched with
  | (Waiting, s', sched') => (FwWaiting, s', sched')
  | (Done (Ok None), s', sched') => (FwDone (Ok None), s', sched')
  | (Done (Ok (Some b)), s', sched') =>
      (FwDone (bind (fw_deserialize b) (fun m => Ok (Some m))), s', sched')
  | (Done (Err e), s', sched') => (FwDone (Err e), s', sched')
  | (Done Panic, s', sched') => (FwDone Panic, s', sched')
  end.

(** A receiver that keeps calling recv until something else than a message
    comes back, as the protocol runs do; returns the messages, the last outcome and the
    final socket. *)
Fixpoint recv_many (calls : nat) (size : nat) (s : rx_sock) (sched : list rx_event)
  : list (list byte) * option rx_outcome * rx_sock * list rx_event :=
  match calls with
  | O => ([], None, s, sched)
  | S c =>
      match recv_loop size [] s sched with
      | (Done (Ok (Some b)), s', sched') =>
          let '(bs, o, s'', sched'') := recv_many c size s' sched' in
          (b :: bs, o, s'', sched'')
      | (o, s', sched') => ([], Some o, s', sched')
      end
  end.

(** What may happen on the sending side: [WriteUpTo k] is a [writable()] +
    [try_write] that accepts at most [k] bytes, [WrSpurious] is [WouldBlock]. *)
Inductive tx_event :=
| WriteUpTo (k : nat)
| WrSpurious
| WrFail.

Inductive tx_outcome :=
| TxDone (r : res unit)
| TxWaiting.

(** socket.rs 396-416 and fwproto lib.rs 288-305.  [count] is the number of
    bytes written so far; the second component of the result is the byte
    string put on the wire. *)
Fixpoint send_loop (buf : list byte) (count : nat) (sched : list tx_event)
  : tx_outcome * list byte :=
  match sched with
  | [] => (TxWaiting, [])
  | WrSpurious :: sched' => send_loop buf count sched'
  | WrFail :: _ => (TxDone (Err "Socket write"), [])
  | WriteUpTo k :: sched' =>
      (* [try_write(&buf[count..])] *)
      let rest := skipn count buf in
      let n := Nat.min k (length rest) in
      let count' := (count + n)%nat in
      if Nat.ltb (length buf) count' then (TxDone Panic, firstn n rest)   (* assert! *)
      else if Nat.eqb count' (length buf) then (TxDone (Ok tt), firstn n rest)
      else let '(o, w) := send_loop buf count' sched' in (o, firstn n rest ++ w)
  end.

(** socket.rs 388-424, TCP branch: [NetSocket::send] with the closed flag. *)
Definition net_send (closed : bool) (buf : list byte) (sched : list tx_event)
  : tx_outcome * list byte :=
  if closed then (TxDone (Err "Socket is closed."), [])
  else send_loop buf 0 sched.

(** fwproto lib.rs 287-306: [FirewallMessage::send]. *)
Definition fw_send (m : fw_message) (sched : list tx_event) : tx_outcome * list byte :=
  match fw_serialize m with
  | Ok b => send_loop b 0 sched
  | Err e => (TxDone (Err e), [])
  | Panic => (TxDone Panic, [])
  end.
