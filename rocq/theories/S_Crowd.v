(** A knock over UDP to a letmeind that serves others over both transports at the
    same time: the accepting tasks of M_Accept.v, the UDP dispatcher of M_Udp.v with
    all its sessions, and the client, its session and the firewall daemon as in
    S_E2e.v.  The tasks may run at any time (when they are woken is C66 and C67).
    The network delivers every datagram of the client exactly once, in any order. *)

From Coq Require Import NArith List Permutation.
From Verif Require Import M_Base M_Proto M_IpAddr M_FwProto M_ConfTypes M_Server M_Client M_Firewall M_Udp M_Accept
  S_Wire S_Session S_Client S_Pair S_Firewall S_E2e S_Accept S_Dgram.
Import ListNotations.
Local Open Scope N_scope.

(** The session of the client, once it is started: the name of its handler, the
    number of its UDP connection, and its program. *)
Record crowd := Crowd {
  cw_acc : acceptor;
  cw_udp : udp_sys;
  cw_buf : list (list N * sockaddr);   (* datagrams in letmeind's socket, oldest first *)
  cw_client : cprog;
  cw_session : option (N * nat * sprog);
  cw_up : list (list N);               (* the client's datagrams on the way to letmeind *)
  cw_down : list (list N);             (* letmeind's datagrams on the way to the client *)
  cw_daemon : daemon;
  cw_hist : hist;
  cw_request : list (list N);
  cw_reply : list (list N)
}.

(** A pass of a task reads the oldest datagram, or finds the socket not ready. *)
Inductive reads : list (list N * sockaddr) -> sock_read -> list (list N * sockaddr) -> Prop :=
| rd_first : forall b p l, reads ((b, p) :: l) (RdDatagram b p) l
| rd_none : forall l, reads l RdWouldBlock l.

(** The number of datagrams of [p] that no session has received yet. *)
Definition unread (sys : udp_sys) (buf : list (list N * sockaddr)) (p : sockaddr) : nat :=
  match conn_get (u_conn (us_udp sys)) p with Some x => length (uc_queue x) | None => 0 end
  + length (filter (fun x => sa_eqb (snd x) p) buf).

(** [p] has an open session, or datagrams that nobody has received. *)
Definition in_use (sys : udp_sys) (buf : list (list N * sockaddr)) (p : sockaddr) : Prop :=
  (exists j, nth_error (us_sess sys) j = Some (p, false)) \/ unread sys buf p <> 0%nat.

(** Others keep to the limits: their datagrams are not too short, at most four of
    a peer are unread, and together they leave one of the [max] connections free. *)
Definition room (max : N) (here : sockaddr) (sys : udp_sys) (buf : list (list N * sockaddr))
           (b : list N) (p : sockaddr) : Prop :=
  p <> here /\ (MSG_SIZE <= length b)%nat /\ (unread sys buf p < 4)%nat
  /\ forall l, NoDup l -> (forall q, In q l -> q <> here /\ (q = p \/ in_use sys buf q)) -> N.of_nat (length l) < max.

(** Who makes a step: the client, its session and letmeinfwd for it; the tasks of
    letmeind and the network; anybody else. *)
Inductive actor := Knock | Letmeind | Others.

Section Steps.
Variable mac : list N -> list N -> list N.
Variable sc : config.           (* letmeind's configuration *)
Variable conf : config.         (* letmeinfwd's *)
Variable c : chain_name.
Variable has_tcp : bool.
Variable max : N.
Variable here : sockaddr.       (* the client's address and port *)
Variable ord : (list (sockaddr * uconn) -> list (sockaddr * uconn)) -> Prop.
                                (* the orders in which the map of connections may be walked *)

(** What the accept task does with the result of a pass. *)
Definition passed (acc : acceptor) (r : udp_result) (acc' : acceptor) : Prop :=
  match r with
  | UrAccepted p => astep has_tcp true acc (AeUdp (Ok p)) = Some acc'
  | _ => acc' = acc
  end.

(** The session that a step of the socket handler task starts for the client; UDP
    connections are numbered in the order in which they are accepted. *)
Definition new_udp_session (acc : acceptor) (ev : aevent) (se : option (N * nat * sprog)) : option (N * nat * sprog) :=
  match ac_pc acc, ev with
  | HpHold (Conn false a), AeTask =>
      if sa_eqb a here
      then Some (N.of_nat (length (ac_started acc)), length (started false acc), server_run mac sc (sa_ip a))
      else se
  | _, _ => se
  end.

(** Connections of others over TCP, and the end of handlers. *)
Definition others_connection (se : option (N * nat * sprog)) (ev : aevent) : Prop :=
  match ev with
  | AeArrive _ | AeHup => True
  | AeFinish n => forall j p, se = Some (n, j, p) -> exists r, p = SRet r
  | _ => False
  end.

Inductive crowd_step : actor -> crowd -> crowd -> Prop :=
(* the client *)
| cs_lookup : forall acc u buf s mode k se up dn d h rq rp l a,
    lookup_typed (Some l) -> first_record mode l a ->
    crowd_step Knock (Crowd acc u buf (CLookup s mode k) se up dn d h rq rp) (Crowd acc u buf (k (Some l)) se up dn d h rq rp)
| cs_connect : forall acc u buf a port k se up dn d h rq rp,
    crowd_step Knock (Crowd acc u buf (CConnect false a port k) se up dn d h rq rp) (Crowd acc u buf (k true) se up dn d h rq rp)
| cs_crand : forall acc u buf sz k se up dn d h rq rp b, good_bytes sz b ->
    crowd_step Knock (Crowd acc u buf (CRand sz k) se up dn d h rq rp) (Crowd acc u buf (k (Some b)) se up dn d h rq rp)
| cs_csend : forall acc u buf m k se up dn d h rq rp b, wire m b ->
    crowd_step Knock (Crowd acc u buf (CSend m k) se up dn d h rq rp) (Crowd acc u buf (k TxOk) se (up ++ [b]) dn d h rq rp)
| cs_crecv : forall acc u buf k se up x b y d h rq rp,
    crowd_step Knock (Crowd acc u buf (CRecv k) se up (x ++ b :: y) d h rq rp) (Crowd acc u buf (k (RxBuf b)) se up (x ++ y) d h rq rp)
(* its session *)
| cs_srecv : forall acc u buf cl n j k up dn d h rq rp rd buf' u' r,
    reads buf rd buf' -> udp_step max u (UeRecv j rd) = Some (u', r) ->
    crowd_step (match returned r with Some _ => Knock | None => Letmeind end)
      (Crowd acc u buf cl (Some (n, j, SRecv k)) up dn d h rq rp)
      (Crowd acc u' buf' cl (Some (n, j, match returned r with Some x => k x | None => SRecv k end)) up dn d h rq rp)
| cs_ssend : forall acc u buf cl n j m k up dn d h rq rp b, wire m b ->
    crowd_step Knock (Crowd acc u buf cl (Some (n, j, SSend m k)) up dn d h rq rp)
                     (Crowd acc u buf cl (Some (n, j, k TxOk)) up (dn ++ [b]) d h rq rp)
| cs_srand : forall acc u buf cl n j sz k up dn d h rq rp b, good_bytes sz b ->
    crowd_step Knock (Crowd acc u buf cl (Some (n, j, SRand sz k)) up dn d h rq rp)
                     (Crowd acc u buf cl (Some (n, j, k (Some b))) up dn d h rq rp)
| cs_fwconnect : forall acc u buf cl n j k up dn d h rq rp,
    crowd_step Knock (Crowd acc u buf cl (Some (n, j, SFwConnect k)) up dn d h rq rp)
                     (Crowd acc u buf cl (Some (n, j, k true)) up dn d h rq rp)
| cs_fwsend : forall acc u buf cl n j m k up dn d h rq rp b, fw_serialize m = Ok b ->
    crowd_step Knock (Crowd acc u buf cl (Some (n, j, SFwSend m k)) up dn d h rq rp)
                     (Crowd acc u buf cl (Some (n, j, k true)) up dn d h (rq ++ [b]) rp)
| cs_fwrecv : forall acc u buf cl n j k up dn d h rq b rp,
    crowd_step Knock (Crowd acc u buf cl (Some (n, j, SFwRecv k)) up dn d h rq (b :: rp))
                     (Crowd acc u buf cl (Some (n, j, k (FwRxBuf b))) up dn d h rq rp)
| cs_close : forall acc u buf cl n j v up dn d h rq rp u' r,
    udp_step max u (UeClose j) = Some (u', r) ->
    crowd_step Letmeind (Crowd acc u buf cl (Some (n, j, SRet v)) up dn d h rq rp)
                        (Crowd acc u' buf cl (Some (n, j, SRet v)) up dn d h rq rp)
(* the firewall daemon *)
| cs_handle : forall acc u buf cl se up dn d h b rq rp now d' m mb,
    fw_step conf d (FwMessage (FwRxBuf b) now true true) = Some (d', Some m) ->
    fw_serialize m = Ok mb ->
    crowd_step Knock (Crowd acc u buf cl se up dn d h (b :: rq) rp)
      (Crowd acc u buf cl se up dn d' (h ++ [(FwMessage (FwRxBuf b) now true true, Some m)]) rq (rp ++ [mb]))
| cs_firewall : forall acc u buf cl se up dn d h rq rp ev d' reply,
    event_ok c d ev -> undisturbed c ev -> fw_step conf d ev = Some (d', reply) ->
    crowd_step Others (Crowd acc u buf cl se up dn d h rq rp) (Crowd acc u buf cl se up dn d' (h ++ [(ev, reply)]) rq rp)
(* the network *)
| cs_up : forall acc u buf cl se x b y dn d h rq rp,
    crowd_step Letmeind (Crowd acc u buf cl se (x ++ b :: y) dn d h rq rp)
                        (Crowd acc u (buf ++ [(b, here)]) cl se (x ++ y) dn d h rq rp)
(* letmeind *)
| cs_pass : forall acc u buf cl se up dn d h rq rp rd buf' order u' r acc',
    ac_udp acc = JnWait -> reads buf rd buf' -> ord order ->
    udp_step max u (UeAccept rd order) = Some (u', r) -> passed acc r acc' ->
    crowd_step Letmeind (Crowd acc u buf cl se up dn d h rq rp) (Crowd acc' u' buf' cl se up dn d h rq rp)
| cs_task : forall acc u buf cl se up dn d h rq rp ev acc',
    own_step ev -> astep has_tcp true acc ev = Some acc' ->
    crowd_step Letmeind (Crowd acc u buf cl se up dn d h rq rp) (Crowd acc' u buf cl (new_udp_session acc ev se) up dn d h rq rp)
(* others: their connections, datagrams and sessions *)
| cs_connection : forall acc u buf cl se up dn d h rq rp ev acc',
    others_connection se ev -> astep has_tcp true acc ev = Some acc' ->
    crowd_step Others (Crowd acc u buf cl se up dn d h rq rp) (Crowd acc' u buf cl se up dn d h rq rp)
| cs_datagram : forall acc u buf cl se up dn d h rq rp b p,
    room max here u buf b p ->
    crowd_step Others (Crowd acc u buf cl se up dn d h rq rp) (Crowd acc u (buf ++ [(b, p)]) cl se up dn d h rq rp)
| cs_other_recv : forall acc u buf cl se up dn d h rq rp j p rd buf' u' r,
    nth_error (us_sess u) j = Some (p, false) -> p <> here ->
    reads buf rd buf' -> udp_step max u (UeRecv j rd) = Some (u', r) ->
    crowd_step Others (Crowd acc u buf cl se up dn d h rq rp) (Crowd acc u' buf' cl se up dn d h rq rp)
| cs_other_close : forall acc u buf cl se up dn d h rq rp j p x u' r,
    nth_error (us_sess u) j = Some (p, x) -> p <> here ->
    udp_step max u (UeClose j) = Some (u', r) ->
    crowd_step Others (Crowd acc u buf cl se up dn d h rq rp) (Crowd acc u' buf cl se up dn d h rq rp).

(** An execution and who made its steps. *)
Inductive crowd_run : list actor -> crowd -> crowd -> Prop :=
| cr_0 : forall s, crowd_run [] s s
| cr_S : forall w a s s1 s2, crowd_run w s s1 -> crowd_step a s1 s2 -> crowd_run (w ++ [a]) s s2.

End Steps.

(** A map can be walked in any order. *)
Definition any_order (order : list (sockaddr * uconn) -> list (sockaddr * uconn)) : Prop :=
  forall l, Permutation (order l) l.

Definition knock_steps (w : list actor) : nat :=
  length (filter (fun a => match a with Knock => true | _ => false end) w).

(** letmeind has just been started with [num] permits. *)
Definition crowd_start (num : N) (cl : cprog) (d : daemon) (h : hist) : crowd :=
  Crowd (acceptor_start num) (udp_start []) [] cl None [] [] d h [] [].

(** Client and session have ended successfully, the port is open, and both the
    handler and the UDP connection of the session are those of the client. *)
Definition crowd_finished (conf : config) (c : chain_name) (h0 : hist) (here : sockaddr) (rs : resource)
           (s : crowd) : Prop :=
  cw_client s = CRet (Ok tt)
  /\ (exists n j x, cw_session s = Some (n, j, SRet (Ok tt))
        /\ nth_error (ac_started (cw_acc s)) (N.to_nat n) = Some (Conn false here)
        /\ nth_error (us_sess (cw_udp s)) j = Some (here, x))
  /\ port_open conf c h0 (sa_ip here) rs
       (Full (Pair (CRet (Ok tt)) (SRet (Ok tt)) [] [] []) (cw_daemon s) (cw_hist s) [] []).
