(** A knock over TCP as a byte stream (S_Bytes.v) to a letmeind that serves others
    at the same time (S_Accept.v). *)

From Coq Require Import NArith List Bool.
From Verif Require Import M_Base M_Proto M_IpAddr M_FwProto M_ConfTypes M_Server M_Client M_Firewall M_Udp M_Accept
  S_Wire S_Session S_Client S_Pair S_Firewall S_E2e S_Bytes S_Accept.
Import ListNotations.
Local Open Scope N_scope.

(** letmeind's accepting tasks, the name of the handler of the client's connection
    once it is started, and the client, this handler, the firewall daemon and the
    streams between them.  Before the handler is started the place of its program
    is taken by [no_session]. *)
Record rush := Rush {
  ru_acc : acceptor;
  ru_name : option N;
  ru_streams : streams
}.

Definition with_session (s : streams) (p : sprog) : streams :=
  Streams (sb_client s) (sb_cout s) (sb_cin s) p (sb_sout s) (sb_sin s) (sb_daemon s) (sb_hist s) (sb_dout s) (sb_din s)
          (sb_up s) (sb_down s) (sb_request s) (sb_reply s).

(** Takes no step. *)
Definition no_session : sprog := SRet Panic.

Definition connecting (cl : cprog) : bool := match cl with CConnect _ _ _ _ => true | _ => false end.

Section Steps.
Variable mac : list N -> list N -> list N.
Variable sc : config.           (* letmeind's configuration *)
Variable conf : config.         (* letmeinfwd's *)
Variable c : chain_name.
Variable has_udp : bool.
Variable here : sockaddr.       (* the client's address and port *)

(** The event starts a handler for the connection of this address. *)
Definition starts (acc : acceptor) (ev : aevent) (a : sockaddr) : Prop :=
  ac_pc acc = HpHold (Conn true a) /\ ev = AeTask.

(** One step; the number is 0 for the accepting tasks and what others do, and 1 for
    this knock. *)
Inductive rush_step : nat -> rush -> rush -> Prop :=
(* the client connects: the connection is in the kernel's queue *)
| rs_connect : forall acc name s s' a port k acc',
    sb_client s = CConnect true a port k -> byte_step conf c 1 s s' -> sb_client s' = k true ->
    astep true has_udp acc (AeArrive here) = Some acc' ->
    rush_step 1 (Rush acc name s) (Rush acc' name s')
(* anything else on the streams *)
| rs_stream : forall acc name i s s',
    byte_step conf c i s s' ->
    (connecting (sb_client s) = true -> sb_client s' = sb_client s) ->
    rush_step i (Rush acc name s) (Rush acc name s')
(* the handler of the client's connection starts *)
| rs_start : forall acc s ev acc' name,
    astep true has_udp acc ev = Some acc' -> starts acc ev here ->
    rush_step 0 (Rush acc name s)
                (Rush acc' (Some (N.of_nat (length (ac_started acc)))) (with_session s (server_run mac sc (sa_ip here))))
(* accepting, and other connections *)
| rs_accept : forall acc name s ev acc',
    astep true has_udp acc ev = Some acc' -> ~ starts acc ev here ->
    others_event here (option_map (fun n => (n, sb_server s)) name) ev ->
    rush_step 0 (Rush acc name s) (Rush acc' name s).

(** An execution with [n] steps of this knock. *)
Inductive rush_steps : nat -> rush -> rush -> Prop :=
| rss_0 : forall s, rush_steps 0 s s
| rss_S : forall n i s s1 s2, rush_steps n s s1 -> rush_step i s1 s2 -> rush_steps (n + i) s s2.

End Steps.

(** Client and session have ended successfully, the port is open, and the handler
    of the session is the one of the client's connection. *)
Definition rush_finished (conf : config) (c : chain_name) (h0 : hist) (here : sockaddr) (rs : resource)
           (s : rush) : Prop :=
  streams_finished conf c h0 (sa_ip here) rs (ru_streams s)
  /\ exists n, ru_name s = Some n /\ nth_error (ac_started (ru_acc s)) (N.to_nat n) = Some (Conn true here).
