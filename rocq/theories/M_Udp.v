(** Model of the UDP connection tracking:
    /repo/letmein-proto/src/socket.rs 30-323 and the UDP half of
    [NetSocket] (336-348, 374-385, 426-495).

    All operations on the tracking state run under one mutex without an await in
    between (socket.rs 258, 287, 321), so each is one atomic step.  When the
    tasks run is not modelled here: readiness and the watch channels (241-257,
    274-285) only delay steps, and here every step may happen at any time; they
    are in [M_Wake].
    Sending (304-317) does not touch the state and is not modelled. *)

From Coq Require Import String NArith List Bool.
From Verif Require Import M_Base M_Proto M_IpAddr.
Import ListNotations.
Local Open Scope N_scope.

(** [std::net::SocketAddr]: address, port and - for IPv6 - flow info and scope
    id; all take part in comparison and hashing. *)
Record sockaddr := SockAddr { sa_ip : ip; sa_port : N; sa_flow : N; sa_scope : N }.
Definition sa_eqb (a b : sockaddr) : bool :=
  ip_eqb (sa_ip a) (sa_ip b) && (sa_port a =? sa_port b)
  && (sa_flow a =? sa_flow b) && (sa_scope a =? sa_scope b).

(** letmein-proto/src/lib.rs 103. *)
Definition UDP_RX_QUEUE_SIZE : N := 4.

(** socket.rs 30-41: [UdpConn]; the field [peer_addr] is the key of the map. *)
Record uconn := UConn { uc_queue : list (list byte); uc_accepted : bool }.

(** socket.rs 57-66: [UdpDispatcherRx]; [max_nr_conn] is an argument of the
    functions below. *)
Record udp := Udp { u_conn : list (sockaddr * uconn); u_nr : N }.

(** [HashMap::get], [remove], and writing through [entry().or_insert_with()]. *)
Fixpoint conn_get (m : list (sockaddr * uconn)) (p : sockaddr) : option uconn :=
  match m with
  | [] => None
  | (q, c) :: r => if sa_eqb q p then Some c else conn_get r p
  end.
Definition conn_remove (m : list (sockaddr * uconn)) (p : sockaddr) : list (sockaddr * uconn) :=
  filter (fun x => negb (sa_eqb (fst x) p)) m.
Fixpoint conn_set (m : list (sockaddr * uconn)) (p : sockaddr) (c : uconn) : list (sockaddr * uconn) :=
  match m with
  | [] => [(p, c)]
  | (q, d) :: r => if sa_eqb q p then (q, c) :: r else (q, d) :: conn_set r p c
  end.

Definition len {A : Type} (l : list A) : N := N.of_nat (length l).

(** Result of the [recvfrom] system call: nothing there, an error, or a datagram
    with its sender.  Datagrams longer than the buffer are truncated by the
    kernel. *)
Inductive sock_read :=
| RdWouldBlock
| RdError
| RdDatagram (data : list byte) (peer : sockaddr).

(** socket.rs 71-77: [new]. *)
Definition udp_new : udp := Udp [] 0.

(** socket.rs 80-139: [try_recv]. The multiplication in the assertion of 123 does
    not overflow: the number of connections is at most [Semaphore::MAX_PERMITS]
    (letmeind/src/main.rs 158). *)
Definition try_recv (max : N) (st : udp) (rd : sock_read) : udp * res unit :=
  match rd with
  | RdWouldBlock => (st, Ok tt)
  | RdError => (st, Err "Socket read")
  | RdDatagram data p =>
      let buf := firstn MSG_SIZE data in
      if negb (Nat.eqb (length buf) MSG_SIZE) then (st, Err "Socket read: Invalid datagram size")
      else if negb (len (u_conn st) <=? max) then (st, Panic)
      else
        let c := match conn_get (u_conn st) p with Some c => c | None => UConn [] false end in
        let m1 := conn_set (u_conn st) p c in
        if negb (len (uc_queue c) <=? UDP_RX_QUEUE_SIZE) then (Udp m1 (u_nr st), Panic)
        else if len (uc_queue c) =? UDP_RX_QUEUE_SIZE then
          (Udp (conn_remove m1 p) (u_nr st), Err "UDP socket read: RX queue overflow")
        else
          let m2 := conn_set m1 p (UConn (uc_queue c ++ [buf]) (uc_accepted c)) in
          if max <? len m2 then
            (Udp (conn_remove m2 p) (u_nr st), Err "UDP socket read: Too many connections")
          else
            let nr := u_nr st + 1 in
            if negb (nr <=? max * UDP_RX_QUEUE_SIZE) then (Udp m2 nr, Panic)
            else (Udp m2 nr, Ok tt)
  end.

(** socket.rs 165-170: the first connection in iteration order that is not
    accepted yet. *)
Fixpoint first_new (m : list (sockaddr * uconn)) : option sockaddr :=
  match m with
  | [] => None
  | (p, c) :: r => if uc_accepted c then first_new r else Some p
  end.

(** What a call returns.  [UrIdle] is [None]; [UrFail] is an error, which
    [try_accept] only logs (socket.rs 159-163). *)
Inductive udp_result :=
| UrIdle
| UrFail (e : string)
| UrAccepted (p : sockaddr)
| UrDatagram (b : list byte)
| UrDone
| UrClosed
| UrPanic.

(** socket.rs 153-173: [try_accept].  [order] is the iteration order of the hash
    map. *)
Definition try_accept (max : N) (st : udp) (rd : sock_read)
           (order : list (sockaddr * uconn) -> list (sockaddr * uconn)) : udp * udp_result :=
  match try_recv max st rd with
  | (st1, Panic) => (st1, UrPanic)
  | (st1, Err e) => (st1, UrFail e)
  | (st1, Ok _) =>
      match first_new (order (u_conn st1)) with
      | None => (st1, UrIdle)
      | Some p =>
          match conn_get (u_conn st1) p with
          | Some c => (Udp (conn_set (u_conn st1) p (UConn (uc_queue c) true)) (u_nr st1), UrAccepted p)
          | None => (st1, UrAccepted p)
          end
      end
  end.

(** socket.rs 176-193: [try_recv_from]; the subtraction is checked
    (/repo/Cargo.toml: overflow-checks). *)
Definition try_recv_from (max : N) (st : udp) (rd : sock_read) (p : sockaddr) : udp * udp_result :=
  match try_recv max st rd with
  | (st1, Panic) => (st1, UrPanic)
  | (st1, Err e) => (st1, UrFail e)
  | (st1, Ok _) =>
      match conn_get (u_conn st1) p with
      | Some (UConn (b :: q) a) =>
          if u_nr st1 =? 0 then (st1, UrPanic)
          else (Udp (conn_set (u_conn st1) p (UConn q a)) (u_nr st1 - 1), UrDatagram b)
      | _ => (st1, UrIdle)
      end
  end.

(** socket.rs 196-204: [disconnect]. *)
Definition disconnect (st : udp) (p : sockaddr) : udp * udp_result :=
  let n := match conn_get (u_conn st) p with Some c => len (uc_queue c) | None => 0 end in
  if u_nr st <? n then (st, UrPanic)
  else
    let m := conn_remove (u_conn st) p in
    let nr := u_nr st - n in
    match m with
    | [] => if nr =? 0 then (Udp m nr, UrDone) else (Udp m nr, UrPanic)
    | _ :: _ => (Udp m nr, UrDone)
    end.

(** The dispatcher together with all [NetSocketUdp] objects made for it
    (socket.rs 339-348): their peer and their closed flag.  [us_dead]: the
    process has panicked (the release profile aborts). *)
Record udp_sys := UdpSys { us_udp : udp; us_sess : list (sockaddr * bool); us_dead : bool }.

Fixpoint set_closed (l : list (sockaddr * bool)) (i : nat) : list (sockaddr * bool) :=
  match l, i with
  | [], _ => []
  | (p, _) :: r, O => (p, true) :: r
  | x :: r, S j => x :: set_closed r j
  end.

(** One iteration of the accept loop (242-270) followed by [from_udp] (376-385)
    in /repo/letmeind/src/server.rs 217-222; one iteration of the receive loop
    (274-300) called by [recv] (427-467); [close] (475-486). *)
Inductive udp_event :=
| UeAccept (rd : sock_read) (order : list (sockaddr * uconn) -> list (sockaddr * uconn))
| UeRecv (sid : nat) (rd : sock_read)
| UeClose (sid : nat).

Definition is_panic (r : udp_result) : bool := match r with UrPanic => true | _ => false end.

Definition udp_step (max : N) (s : udp_sys) (ev : udp_event) : option (udp_sys * udp_result) :=
  if us_dead s then None
  else
    match ev with
    | UeAccept rd order =>
        let '(st, r) := try_accept max (us_udp s) rd order in
        let ss := match r with UrAccepted p => us_sess s ++ [(p, false)] | _ => us_sess s end in
        Some (UdpSys st ss (is_panic r), r)
    | UeRecv sid rd =>
        match nth_error (us_sess s) sid with
        | None => None
        | Some (_, true) => Some (s, UrClosed)
        | Some (p, false) =>
            let '(st, r) := try_recv_from max (us_udp s) rd p in
            Some (UdpSys st (us_sess s) (is_panic r), r)
        end
    | UeClose sid =>
        match nth_error (us_sess s) sid with
        | None => None
        | Some (_, true) => Some (s, UrClosed)
        | Some (p, false) =>
            let '(st, r) := disconnect (us_udp s) p in
            Some (UdpSys st (set_closed (us_sess s) sid) (is_panic r), r)
        end
    end.

(** A server's dispatcher starts without sessions; a client's
    (/repo/letmein/src/client.rs 67) with one for its server. *)
Definition udp_start (peers : list sockaddr) : udp_sys :=
  UdpSys udp_new (map (fun p => (p, false)) peers) false.
