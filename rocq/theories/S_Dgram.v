(** One client, letmeind and the firewall daemon connected by UDP datagrams.  Both
    ends receive through the dispatcher of M_Wake.v: a datagram waits in the buffer
    of the socket, is read by the accept task or by a receiving session, waits in
    the queue of its connection, and the tasks are woken by readiness and watch
    channels and sleep in between.  The network delivers every datagram exactly
    once, in any order.  Nobody else sends datagrams to letmeind meanwhile.  The
    unix socket between the daemons carries whole messages as in S_E2e.v. *)

From Coq Require Import NArith List Permutation.
From Verif Require Import M_Base M_Proto M_IpAddr M_FwProto M_ConfTypes M_Server M_Client M_Firewall M_Udp M_Wake
  S_Wire S_Session S_Client S_Pair S_Firewall S_E2e.
Import ListNotations.
Local Open Scope N_scope.

Record dgrams := Dgrams {
  dg_client : cprog;
  dg_cdisp : wake;              (* the client's dispatcher *)
  dg_server : option sprog;     (* the session, once the connection is accepted *)
  dg_sdisp : wake;              (* letmeind's dispatcher *)
  dg_daemon : daemon;
  dg_hist : hist;
  dg_request : list (list N);   (* on the way from letmeind to letmeinfwd *)
  dg_reply : list (list N);     (* on the way from letmeinfwd to letmeind *)
  dg_up : list (list N);        (* datagrams on the way to letmeind *)
  dg_down : list (list N)       (* datagrams on the way to the client *)
}.

(** The dispatcher that the client makes for the address of the server. *)
Definition client_disp (server : sockaddr) : wake :=
  Wake (udp_start [server]) [] false false false ApIdle [RpIdle] [].

(** What a call of [recv_from] returns to its caller, if it returns. *)
Definition returned (r : udp_result) : option rx_result :=
  match r with
  | UrDatagram b => Some (RxBuf b)
  | UrFail _ | UrClosed => Some RxErr
  | _ => None
  end.

(** letmeind starts a session for an accepted connection. *)
Definition sessions (mac : list N -> list N -> list N) (sc : config) (r : udp_result) (p : option sprog) : option sprog :=
  match r, p with
  | UrAccepted a, None => Some (server_run mac sc (sa_ip a))
  | _, _ => p
  end.

Section System.
Variable mac : list N -> list N -> list N.
Variables sc conf : config.      (* of letmeind and of letmeinfwd *)
Variable c : chain_name.
Variable max : N.                (* connections that letmeind tracks *)
Variables here there : sockaddr. (* the client's and the server's address *)
Variable i : nat.                (* the number of the session in letmeind *)

(** One step; the number is 0 for what others do and 1 for this knock and the tasks
    of the dispatchers. *)
Inductive dgram_step : nat -> dgrams -> dgrams -> Prop :=
(* the client *)
| ds_lookup : forall s mode k cd p sd d h rq rp up dn l a,
    lookup_typed (Some l) -> first_record mode l a ->
    dgram_step 1 (Dgrams (CLookup s mode k) cd p sd d h rq rp up dn)
                 (Dgrams (k (Some l)) cd p sd d h rq rp up dn)
| ds_connect : forall a port k cd p sd d h rq rp up dn,
    dgram_step 1 (Dgrams (CConnect false a port k) cd p sd d h rq rp up dn)
                 (Dgrams (k true) cd p sd d h rq rp up dn)
| ds_crand : forall sz k cd p sd d h rq rp up dn b, good_bytes sz b ->
    dgram_step 1 (Dgrams (CRand sz k) cd p sd d h rq rp up dn)
                 (Dgrams (k (Some b)) cd p sd d h rq rp up dn)
| ds_csend : forall m k cd p sd d h rq rp up dn b, wire m b ->
    dgram_step 1 (Dgrams (CSend m k) cd p sd d h rq rp up dn)
                 (Dgrams (k TxOk) cd p sd d h rq rp (up ++ [b]) dn)
| ds_ccall : forall k cd p sd d h rq rp up dn cd' r,
    wake_step 1 cd (WvCall 0) = Some (cd', r) ->
    dgram_step 1 (Dgrams (CRecv k) cd p sd d h rq rp up dn)
                 (Dgrams (CRecv k) cd' p sd d h rq rp up dn)
| ds_crecv : forall k cd p sd d h rq rp up dn by_watch cd' r,
    wake_step 1 cd (WvRecv 0 by_watch) = Some (cd', r) ->
    dgram_step 1 (Dgrams (CRecv k) cd p sd d h rq rp up dn)
                 (Dgrams (match returned r with Some x => k x | None => CRecv k end) cd' p sd d h rq rp up dn)
| ds_ctimer : forall k cd p sd d h rq rp up dn cd' r,
    wake_step 1 cd (WvRecvTimer 0) = Some (cd', r) ->
    dgram_step 1 (Dgrams (CRecv k) cd p sd d h rq rp up dn)
                 (Dgrams (CRecv k) cd' p sd d h rq rp up dn)
(* the network *)
| ds_up : forall cl cd p sd d h rq rp x b y dn sd' r,
    wake_step max sd (WvArrive (ItDatagram b here)) = Some (sd', r) ->
    dgram_step 1 (Dgrams cl cd p sd d h rq rp (x ++ b :: y) dn)
                 (Dgrams cl cd p sd' d h rq rp (x ++ y) dn)
| ds_down : forall cl cd p sd d h rq rp up x b y cd' r,
    wake_step 1 cd (WvArrive (ItDatagram b there)) = Some (cd', r) ->
    dgram_step 1 (Dgrams cl cd p sd d h rq rp up (x ++ b :: y))
                 (Dgrams cl cd' p sd d h rq rp up (x ++ y))
(* accepting connections in letmeind *)
| ds_spawn : forall cl cd p sd d h rq rp up dn sd' r,
    wake_step max sd WvSpawn = Some (sd', r) ->
    dgram_step 1 (Dgrams cl cd p sd d h rq rp up dn) (Dgrams cl cd p sd' d h rq rp up dn)
| ds_accept : forall cl cd p sd d h rq rp up dn by_watch order sd' r,
    (forall l, Permutation (order l) l) ->
    wake_step max sd (WvAccept by_watch order) = Some (sd', r) ->
    dgram_step 1 (Dgrams cl cd p sd d h rq rp up dn)
                 (Dgrams cl cd (sessions mac sc r p) sd' d h rq rp up dn)
| ds_timer : forall cl cd p sd d h rq rp up dn sd' r,
    wake_step max sd WvAcceptTimer = Some (sd', r) ->
    dgram_step 1 (Dgrams cl cd p sd d h rq rp up dn) (Dgrams cl cd p sd' d h rq rp up dn)
(* the session *)
| ds_srand : forall cl cd sz k sd d h rq rp up dn b, good_bytes sz b ->
    dgram_step 1 (Dgrams cl cd (Some (SRand sz k)) sd d h rq rp up dn)
                 (Dgrams cl cd (Some (k (Some b))) sd d h rq rp up dn)
| ds_ssend : forall cl cd m k sd d h rq rp up dn b, wire m b ->
    dgram_step 1 (Dgrams cl cd (Some (SSend m k)) sd d h rq rp up dn)
                 (Dgrams cl cd (Some (k TxOk)) sd d h rq rp up (dn ++ [b]))
| ds_fwconnect : forall cl cd k sd d h rq rp up dn,
    dgram_step 1 (Dgrams cl cd (Some (SFwConnect k)) sd d h rq rp up dn)
                 (Dgrams cl cd (Some (k true)) sd d h rq rp up dn)
| ds_fwsend : forall cl cd m k sd d h rq rp up dn b, fw_serialize m = Ok b ->
    dgram_step 1 (Dgrams cl cd (Some (SFwSend m k)) sd d h rq rp up dn)
                 (Dgrams cl cd (Some (k true)) sd d h (rq ++ [b]) rp up dn)
| ds_fwrecv : forall cl cd k sd d h rq b rp up dn,
    dgram_step 1 (Dgrams cl cd (Some (SFwRecv k)) sd d h rq (b :: rp) up dn)
                 (Dgrams cl cd (Some (k (FwRxBuf b))) sd d h rq rp up dn)
| ds_scall : forall cl cd k sd d h rq rp up dn sd' r,
    wake_step max sd (WvCall i) = Some (sd', r) ->
    dgram_step 1 (Dgrams cl cd (Some (SRecv k)) sd d h rq rp up dn)
                 (Dgrams cl cd (Some (SRecv k)) sd' d h rq rp up dn)
| ds_srecv : forall cl cd k sd d h rq rp up dn by_watch sd' r,
    wake_step max sd (WvRecv i by_watch) = Some (sd', r) ->
    dgram_step 1 (Dgrams cl cd (Some (SRecv k)) sd d h rq rp up dn)
                 (Dgrams cl cd (Some match returned r with Some x => k x | None => SRecv k end) sd' d h rq rp up dn)
| ds_stimer : forall cl cd k sd d h rq rp up dn sd' r,
    wake_step max sd (WvRecvTimer i) = Some (sd', r) ->
    dgram_step 1 (Dgrams cl cd (Some (SRecv k)) sd d h rq rp up dn)
                 (Dgrams cl cd (Some (SRecv k)) sd' d h rq rp up dn)
| ds_close : forall cl cd v sd d h rq rp up dn sd' r,
    wake_step max sd (WvClose i) = Some (sd', r) -> r <> UrClosed ->
    dgram_step 1 (Dgrams cl cd (Some (SRet v)) sd d h rq rp up dn)
                 (Dgrams cl cd (Some (SRet v)) sd' d h rq rp up dn)
(* the firewall daemon *)
| ds_handle : forall cl cd p sd d h b rq rp up dn now d' m mb,
    fw_step conf d (FwMessage (FwRxBuf b) now true true) = Some (d', Some m) ->
    fw_serialize m = Ok mb ->
    dgram_step 1 (Dgrams cl cd p sd d h (b :: rq) rp up dn)
                 (Dgrams cl cd p sd d' (h ++ [(FwMessage (FwRxBuf b) now true true, Some m)]) rq (rp ++ [mb]) up dn)
(* maintenance, requests of other sessions, other programs *)
| ds_other : forall cl cd p sd d h rq rp up dn ev d' reply,
    event_ok c d ev -> undisturbed c ev -> fw_step conf d ev = Some (d', reply) ->
    dgram_step 0 (Dgrams cl cd p sd d h rq rp up dn)
                 (Dgrams cl cd p sd d' (h ++ [(ev, reply)]) rq rp up dn).

(** An execution with [n] steps of this knock and of the dispatchers. *)
Inductive dgram_steps : nat -> dgrams -> dgrams -> Prop :=
| dss_0 : forall s, dgram_steps 0 s s
| dss_S : forall n j s s1 s2,
    dgram_steps n s s1 -> dgram_step j s1 s2 -> dgram_steps (n + j) s s2.

End System.

(** letmeind's dispatcher has nothing to do: no datagrams, no connections, all
    [n] sessions so far are over.  The accept task may be anywhere and wake-ups
    of earlier connections may still be pending. *)
Definition idle_disp (s : wake) (n : nat) : Prop :=
  us_dead (wk_sys s) = false /\ us_udp (wk_sys s) = M_Udp.Udp [] 0
  /\ (forall x, In x (us_sess (wk_sys s)) -> snd x = true) /\ length (us_sess (wk_sys s)) = n
  /\ wk_buf s = [] /\ wk_recv s = repeat RpIdle n /\ wk_lock s = [].

(** Nothing is on the way yet. *)
Definition dgrams_start (cl : cprog) (there : sockaddr) (sd : wake) (d : daemon) (h : hist) : dgrams :=
  Dgrams cl (client_disp there) None sd d h [] [] [] [].

(** Client and session have ended successfully, the port is open, and letmeind has
    had exactly one more connection, from the client, and is idle again. *)
Definition dgrams_finished (conf : config) (c : chain_name) (h0 : hist) (here : sockaddr) (rs : resource)
           (sd0 : wake) (i : nat) (s : dgrams) : Prop :=
  dg_client s = CRet (Ok tt) /\ dg_server s = Some (SRet (Ok tt))
  /\ port_open conf c h0 (sa_ip here) rs
       (Full (Pair (CRet (Ok tt)) (SRet (Ok tt)) [] [] []) (dg_daemon s) (dg_hist s) [] [])
  /\ idle_disp (dg_sdisp s) (S i)
  /\ us_sess (wk_sys (dg_sdisp s)) = us_sess (wk_sys sd0) ++ [(here, true)].

(** The client is told to use UDP, or is told nothing and its configuration offers
    only UDP. *)
Definition knocks_by_udp (cc : config) (tcp udp : bool) : Prop :=
  tcp = false /\ (udp = true \/ cp_tcp (c_port cc) = false).
