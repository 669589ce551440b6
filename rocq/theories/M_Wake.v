(** Model of when the tasks around the UDP connection tracking run:
    /repo/letmein-proto/src/socket.rs 207-302 ([UdpDispatcher::accept] and
    [recv_from] with the watch channels, the mutexes and the readiness of the
    socket), for the dispatcher of letmeind (/repo/letmeind/src/server.rs 217-222,
    /repo/letmeind/src/main.rs 160-190).  The tracking itself is [M_Udp].

    letmeind runs on one thread (main.rs 228), so a task runs without interruption
    from one [await] that waits to the next one.  The mutex around the tracking
    state is never held across an [await]; locking it never waits.  The forced
    yields of tokio (its budget per poll) are not modelled. *)

From Coq Require Import String NArith List Bool.
From Verif Require Import M_Base M_Proto M_IpAddr M_Udp.
Import ListNotations.
Local Open Scope N_scope.

(** What waits in the receive buffer of the kernel: a datagram or an error. *)
Inductive sock_item := ItDatagram (data : list byte) (peer : sockaddr) | ItError.

(** The task of [accept] (242-270).  [ApIdle]: it has returned and the next one is
    not spawned yet; [ApWait]: in the [select] of
    249-252 (its lock of 248 is never contended); [ApSleep]: in the
    [sleep] of 268. *)
Inductive accept_phase := ApIdle | ApWait | ApSleep.
(** The task of one session in [recv_from] (274-300).  [RpIdle]: not in there;
    [RpWait]: waiting for the lock of 277 or, as the first one in the queue of the
    lock, in the [select] of 278-281; [RpSleep]: in the [sleep] of 298. *)
Inductive recv_phase := RpIdle | RpWait | RpSleep.

(** [wk_buf]: receive buffer of the kernel.  [wk_rdy]: the readiness that tokio
    remembers for the socket; it is set by arrivals and cleared by a read that
    would block.  [wk_aw], [wk_rw]: the watch channel [accept_watch] or
    [recv_watch] has a value that its receiver has not seen.  [wk_lock]: the
    sessions in the queue of the mutex around the receiver of [recv_watch], which
    is fair; the first one has the lock. *)
Record wake := Wake {
  wk_sys : udp_sys;
  wk_buf : list sock_item;
  wk_rdy : bool;
  wk_aw : bool;
  wk_rw : bool;
  wk_accept : accept_phase;
  wk_recv : list recv_phase;
  wk_lock : list nat
}.

(** socket.rs 229-239: [new]; letmeind spawns the first accept at once
    (server.rs 195). *)
Definition wake_start : wake := Wake (udp_start []) [] false false false ApWait [] [].

(** [try_recv_from] of tokio's [UdpSocket]: what the read gets, what is left, and
    the readiness afterwards. *)
Definition sock_try_read (buf : list sock_item) (rdy : bool) : sock_read * list sock_item * bool :=
  match buf with
  | [] => (RdWouldBlock, [], false)
  | ItDatagram d p :: r => (RdDatagram d p, r, rdy)
  | ItError :: r => (RdError, r, rdy)
  end.

(** socket.rs 125-132: the datagram was kept and its connection is not accepted
    yet, so both channels are written. *)
Definition news (max : N) (st : udp) (rd : sock_read) : bool :=
  match rd, try_recv max st rd with
  | RdDatagram _ p, (_, Ok _) =>
      match conn_get (u_conn st) p with Some c => negb (uc_accepted c) | None => true end
  | _, _ => false
  end.

(** socket.rs 142-150: [recv_notify]. *)
Definition more_queued (st : udp) : bool := 0 <? u_nr st.

Definition set_phase (l : list recv_phase) (i : nat) (x : recv_phase) : list recv_phase :=
  firstn i l ++ match skipn i l with [] => [] | _ :: r => x :: r end.

(** [WvArrive]: something arrives at the socket.  [WvSpawn]: letmeind collects the
    result of accept and spawns the next one.  [WvAccept by_watch order]: the
    [select] in accept ends because of the channel or of the readiness and the
    task runs up to the next wait.  [WvAcceptTimer]: its sleep ends.  [WvCall]: a
    session calls [recv_from].  [WvRecv sid by_watch]: the same as [WvAccept] for
    the session.  [WvRecvTimer]: its sleep ends.  [WvCancel]: the timeout of the
    session drops the call.  [WvClose]: the session closes its socket. *)
Inductive wake_event :=
| WvArrive (it : sock_item)
| WvSpawn
| WvAccept (by_watch : bool) (order : list (sockaddr * uconn) -> list (sockaddr * uconn))
| WvAcceptTimer
| WvCall (sid : nat)
| WvRecv (sid : nat) (by_watch : bool)
| WvRecvTimer (sid : nat)
| WvCancel (sid : nat)
| WvClose (sid : nat).

Definition drop_lock (l : list nat) (i : nat) : list nat := filter (fun j => negb (Nat.eqb j i)) l.

Definition wake_step (max : N) (s : wake) (ev : wake_event) : option (wake * udp_result) :=
  if us_dead (wk_sys s) then None
  else
  match ev with
  | WvArrive it =>
      Some (Wake (wk_sys s) (wk_buf s ++ [it]) true (wk_aw s) (wk_rw s) (wk_accept s) (wk_recv s) (wk_lock s), UrDone)
  | WvSpawn =>
      match wk_accept s with
      | ApIdle =>
          Some (Wake (wk_sys s) (wk_buf s) (wk_rdy s) (wk_aw s) (wk_rw s) ApWait (wk_recv s) (wk_lock s), UrDone)
      | _ => None
      end
  | WvAccept by_watch order =>
      match wk_accept s with
      | ApWait =>
          if (if by_watch then wk_aw s else wk_rdy s) then
            let '(rd, buf, rdy) := sock_try_read (wk_buf s) (wk_rdy s) in
            match udp_step max (wk_sys s) (UeAccept rd order) with
            | None => None
            | Some (sys, r) =>
                let n := news max (us_udp (wk_sys s)) rd in
                let aw := (if by_watch then false else wk_aw s) || n in
                match r with
                | UrAccepted _ =>
                    (* 165-170 and 266 *)
                    Some (Wake sys buf rdy aw (wk_rw s || n) ApIdle (wk_recv s ++ [RpIdle]) (wk_lock s), r)
                | UrIdle =>
                    (* 171-172 and 268 *)
                    Some (Wake sys buf rdy aw (wk_rw s || n || more_queued (us_udp sys)) ApSleep (wk_recv s) (wk_lock s), r)
                | _ =>
                    (* 159-164 and 268 *)
                    Some (Wake sys buf rdy aw (wk_rw s || n) ApSleep (wk_recv s) (wk_lock s), r)
                end
            end
          else None
      | _ => None
      end
  | WvAcceptTimer =>
      match wk_accept s with
      | ApSleep =>
          Some (Wake (wk_sys s) (wk_buf s) (wk_rdy s) (wk_aw s) (wk_rw s) ApWait (wk_recv s) (wk_lock s), UrDone)
      | _ => None
      end
  | WvCall sid =>
      match nth_error (wk_recv s) sid, nth_error (us_sess (wk_sys s)) sid with
      | Some RpIdle, Some (_, false) =>
          Some (Wake (wk_sys s) (wk_buf s) (wk_rdy s) (wk_aw s) (wk_rw s) (wk_accept s)
                     (set_phase (wk_recv s) sid RpWait) (wk_lock s ++ [sid]), UrDone)
      | _, _ => None
      end
  | WvRecv sid by_watch =>
      match wk_lock s with
      | i :: rest =>
          if Nat.eqb i sid && (if by_watch then wk_rw s else wk_rdy s) then
            let '(rd, buf, rdy) := sock_try_read (wk_buf s) (wk_rdy s) in
            match udp_step max (wk_sys s) (UeRecv sid rd) with
            | None => None
            | Some (sys, r) =>
                let n := news max (us_udp (wk_sys s)) rd in
                let rw := (if by_watch then false else wk_rw s) || n in
                match r with
                | UrIdle =>
                    (* 191-192 and 298 *)
                    Some (Wake sys buf rdy (wk_aw s || n) (rw || more_queued (us_udp sys)) (wk_accept s)
                               (set_phase (wk_recv s) sid RpSleep) rest, r)
                | UrDatagram _ =>
                    (* 191-192 and 296 *)
                    Some (Wake sys buf rdy (wk_aw s || n) (rw || more_queued (us_udp sys)) (wk_accept s)
                               (set_phase (wk_recv s) sid RpIdle) rest, r)
                | _ =>
                    (* the error of 183 *)
                    Some (Wake sys buf rdy (wk_aw s || n) rw (wk_accept s)
                               (set_phase (wk_recv s) sid RpIdle) rest, r)
                end
            end
          else None
      | [] => None
      end
  | WvRecvTimer sid =>
      match nth_error (wk_recv s) sid with
      | Some RpSleep =>
          Some (Wake (wk_sys s) (wk_buf s) (wk_rdy s) (wk_aw s) (wk_rw s) (wk_accept s)
                     (set_phase (wk_recv s) sid RpWait) (wk_lock s ++ [sid]), UrDone)
      | _ => None
      end
  | WvCancel sid =>
      match nth_error (wk_recv s) sid with
      | Some RpIdle | None => None
      | Some _ =>
          Some (Wake (wk_sys s) (wk_buf s) (wk_rdy s) (wk_aw s) (wk_rw s) (wk_accept s)
                     (set_phase (wk_recv s) sid RpIdle) (drop_lock (wk_lock s) sid), UrDone)
      end
  | WvClose sid =>
      match nth_error (wk_recv s) sid with
      | Some RpIdle =>
          match udp_step max (wk_sys s) (UeClose sid) with
          | Some (sys, r) =>
              Some (Wake sys (wk_buf s) (wk_rdy s) (wk_aw s) (wk_rw s) (wk_accept s) (wk_recv s) (wk_lock s), r)
          | None => None
          end
      | _ => None
      end
  end.
