(** Model of how letmeind takes connections of both transports:
    /repo/letmeind/src/server.rs 44-55 (Connection), 85-110 (the accept tasks),
    195-204 (end of [Server::new]), 207-222 ([Server::accept]) and the socket
    handler task of /repo/letmeind/src/main.rs 153-190.

    This is [M_Daemon] with the accept call spelled out, for letmeind only: one
    spawned task per transport waits for the next connection and is held as a join
    handle, and [Server::accept] takes the result of one that has finished and
    spawns it again.  A select that is woken for one handle leaves the other one
    alone. *)

From Coq Require Import String NArith List Bool.
From Verif Require Import M_Base M_IpAddr M_Udp M_Daemon.
Import ListNotations.
Local Open Scope N_scope.

(** server.rs 41-45: [Connection]; [co_tcp]: the transport. *)
Record conn := Conn { co_tcp : bool; co_peer : sockaddr }.

(** server.rs 85 and 97, [TcpJoinHandle] and [UdpJoinHandle]: the task has not
    finished, or it has and this is what it returned. *)
Inductive join := JnWait | JnDone (r : res sockaddr).

(** The socket handler task; see [accept_pc] of [M_Daemon]. *)
Inductive handler_pc :=
| HpAccept                  (* srv.accept().await: main.rs 162 *)
| HpAcquire (c : conn)      (* conn_semaphore.acquire().await: 166 *)
| HpHold (c : conn)         (* permit held: 167-179 *)
| HpDrop                    (* end of the block: the permit is dropped *)
| HpEnd.                    (* break: 186 *)

(** [ac_backlog]: TCP connections that the kernel has completed, oldest first;
    [ac_tcp], [ac_udp]: the join handles; without a listener the task sleeps
    forever (server.rs 92-93, 105-106); [ac_started]: the connections whose handler
    task was spawned, in this order, each is named by its position; [ac_live]: the
    handlers that have not ended. *)
Record acceptor := Acceptor {
  ac_backlog : list sockaddr;
  ac_tcp : join;
  ac_udp : join;
  ac_pc : handler_pc;
  ac_permits : N;
  ac_started : list conn;
  ac_live : list N;
  ac_chan : list string;
  ac_exit : option (res unit)
}.

(** server.rs 195-204 and main.rs 158. *)
Definition acceptor_start (num_connections : N) : acceptor :=
  Acceptor [] JnWait JnWait HpAccept num_connections [] [] [] None.

Inductive aevent :=
| AeArrive (a : sockaddr)           (* the kernel completes a TCP connection *)
| AeTcp (err : option string)       (* TcpListener::accept returns: server.rs 90 *)
| AeUdp (r : res sockaddr)          (* UdpDispatcher::accept returns: server.rs 102 *)
| AeSelect (tcp nodelay_ok : bool)  (* the select takes this handle: 208-222; TCP_NODELAY can be set *)
| AeTask                            (* the socket handler task runs to its next await point *)
| AeFinish (c : N)                  (* the handler of c ends: main.rs 169-178 *)
| AeTerm | AeInt | AeHup            (* signals: main.rs 197-207 *)
| AeChannel.                        (* the main loop receives an error: 208-211 *)

Section Steps.
Variable has_tcp has_udp : bool.   (* the listeners of [Server::new] *)

(** server.rs 211-213, 217-219: [result??] and [MsgNetSocket::from_tcp] (socket.rs
    363-372, where setting TCP_NODELAY can fail) or [from_udp] (cannot fail). *)
Definition new_connection (tcp nodelay_ok : bool) (r : res sockaddr) : res conn :=
  match r with
  | Ok a => if tcp && negb nodelay_ok then Err "Set TCP_NODELAY" else Ok (Conn tcp a)
  | Err e => Err e
  | Panic => Panic
  end.

(** One step; [None]: not possible. *)
Definition astep (s : acceptor) (ev : aevent) : option acceptor :=
  match ac_exit s with
  | Some _ => None
  | None =>
      match ev with
      | AeArrive a =>
          if has_tcp
          then Some (Acceptor (ac_backlog s ++ [a]) (ac_tcp s) (ac_udp s) (ac_pc s) (ac_permits s)
                              (ac_started s) (ac_live s) (ac_chan s) None)
          else None
      | AeTcp err =>
          match has_tcp, ac_tcp s, err, ac_backlog s with
          | true, JnWait, None, a :: r =>
              Some (Acceptor r (JnDone (Ok a)) (ac_udp s) (ac_pc s) (ac_permits s)
                             (ac_started s) (ac_live s) (ac_chan s) None)
          | true, JnWait, Some e, b =>
              Some (Acceptor b (JnDone (Err e)) (ac_udp s) (ac_pc s) (ac_permits s)
                             (ac_started s) (ac_live s) (ac_chan s) None)
          | _, _, _, _ => None
          end
      | AeUdp r =>
          match has_udp, ac_udp s, r with
          | true, JnWait, Ok _ | true, JnWait, Err _ =>
              Some (Acceptor (ac_backlog s) (ac_tcp s) (JnDone r) (ac_pc s) (ac_permits s)
                             (ac_started s) (ac_live s) (ac_chan s) None)
          | _, _, _ => None
          end
      | AeSelect tcp nodelay_ok =>
          match ac_pc s, (if tcp then ac_tcp s else ac_udp s) with
          | HpAccept, JnDone r =>
              let tcp_join := if tcp then JnWait else ac_tcp s in
              let udp_join := if tcp then ac_udp s else JnWait in
              match new_connection tcp nodelay_ok r with
              | Ok c => Some (Acceptor (ac_backlog s) tcp_join udp_join (HpAcquire c) (ac_permits s)
                                       (ac_started s) (ac_live s) (ac_chan s) None)
              | Err e => Some (Acceptor (ac_backlog s) tcp_join udp_join HpEnd (ac_permits s)
                                        (ac_started s) (ac_live s) (ac_chan s ++ [e]) None)
              | Panic => None
              end
          | _, _ => None
          end
      | AeTask =>
          match ac_pc s with
          | HpAcquire c =>
              if ac_permits s =? 0 then None
              else Some (Acceptor (ac_backlog s) (ac_tcp s) (ac_udp s) (HpHold c) (ac_permits s - 1)
                                  (ac_started s) (ac_live s) (ac_chan s) None)
          | HpHold c =>
              Some (Acceptor (ac_backlog s) (ac_tcp s) (ac_udp s) HpDrop (ac_permits s)
                             (ac_started s ++ [c]) (ac_live s ++ [N.of_nat (length (ac_started s))]) (ac_chan s) None)
          | HpDrop =>
              Some (Acceptor (ac_backlog s) (ac_tcp s) (ac_udp s) HpAccept (ac_permits s + 1)
                             (ac_started s) (ac_live s) (ac_chan s) None)
          | _ => None
          end
      | AeFinish c =>
          if existsb (N.eqb c) (ac_live s)
          then Some (Acceptor (ac_backlog s) (ac_tcp s) (ac_udp s) (ac_pc s) (ac_permits s)
                              (ac_started s) (remove_conn c (ac_live s)) (ac_chan s) None)
          else None
      | AeTerm =>
          Some (Acceptor (ac_backlog s) (ac_tcp s) (ac_udp s) (ac_pc s) (ac_permits s)
                         (ac_started s) (ac_live s) (ac_chan s) (Some (Ok tt)))
      | AeInt =>
          Some (Acceptor (ac_backlog s) (ac_tcp s) (ac_udp s) (ac_pc s) (ac_permits s)
                         (ac_started s) (ac_live s) (ac_chan s) (Some (Err "Interrupted by SIGINT.")))
      | AeHup => Some s
      | AeChannel =>
          match ac_chan s with
          | [] => None
          | e :: r =>
              Some (Acceptor (ac_backlog s) (ac_tcp s) (ac_udp s) (ac_pc s) (ac_permits s)
                             (ac_started s) (ac_live s) r (Some (Err e)))
          end
      end
  end.

Fixpoint arun (s : acceptor) (h : list aevent) : option acceptor :=
  match h with
  | [] => Some s
  | ev :: r => match astep s ev with Some s1 => arun s1 r | None => None end
  end.

End Steps.
