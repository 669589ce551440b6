(** How connections reach their sessions in letmeind, and a knock over TCP to a
    letmeind that serves others at the same time. *)

From Coq Require Import String NArith List Bool.
From Verif Require Import M_Base M_Proto M_IpAddr M_FwProto M_ConfTypes M_Server M_Client M_Firewall M_Udp M_Accept
  S_Wire S_Session S_Client S_Pair S_Firewall S_E2e.
Import ListNotations.
Local Open Scope N_scope.

(** *** Connections *)

(** The TCP connections that were made, and the UDP peers that were found, in order. *)
Definition tcp_arrivals (h : list aevent) : list sockaddr :=
  flat_map (fun ev => match ev with AeArrive a => [a] | _ => [] end) h.
Definition udp_arrivals (h : list aevent) : list sockaddr :=
  flat_map (fun ev => match ev with AeUdp (Ok a) => [a] | _ => [] end) h.

(** The peers of this transport whose handler was started, in this order. *)
Definition started (tcp : bool) (s : acceptor) : list sockaddr :=
  map co_peer (filter (fun c => Bool.eqb (co_tcp c) tcp) (ac_started s)).

(** The peers that are still on the way to a handler, first the one in the hands of
    the socket handler task, then the one in the join handle, then the kernel's. *)
Definition in_hand (tcp : bool) (s : acceptor) : list sockaddr :=
  match ac_pc s with
  | HpAcquire c | HpHold c => if Bool.eqb (co_tcp c) tcp then [co_peer c] else []
  | _ => []
  end.
Definition in_join (j : join) : list sockaddr := match j with JnDone (Ok a) => [a] | _ => [] end.
Definition waiting_tcp (s : acceptor) : list sockaddr := in_hand true s ++ in_join (ac_tcp s) ++ ac_backlog s.
Definition waiting_udp (s : acceptor) : list sockaddr := in_hand false s ++ in_join (ac_udp s).

(** What letmeind does by itself, if nothing fails. *)
Definition own_step (ev : aevent) : Prop :=
  match ev with AeTcp None | AeSelect _ true | AeTask => True | _ => False end.

(** No signal that ends letmeind, and no call of the accept path fails. *)
Definition no_failure (ev : aevent) : Prop :=
  match ev with
  | AeTcp (Some _) | AeUdp (Err _) | AeSelect true false | AeTerm | AeInt => False
  | _ => True
  end.

(** *** A knock among others *)

(** The client, the handler of its connection with its name, once it is started,
    and the firewall daemon as in [full] of S_E2e.v. *)
Record busy := Busy {
  bu_acc : acceptor;
  bu_client : cprog;
  bu_session : option (N * sprog);
  bu_up : list (list N);
  bu_down : list (list N);
  bu_daemon : daemon;
  bu_hist : hist;
  bu_request : list (list N);
  bu_reply : list (list N)
}.

Section Steps.
Variable mac : list N -> list N -> list N.
Variable sc : config.           (* letmeind's configuration *)
Variable conf : config.         (* letmeinfwd's *)
Variable c : chain_name.
Variable has_udp : bool.
Variable here : sockaddr.       (* the client's address and port *)

(** A step of letmeind's accepting tasks or of other clients: nothing fails, nobody
    else uses the client's address, and the handler of the client does not end
    before its program does. *)
Definition others_event (session : option (N * sprog)) (ev : aevent) : Prop :=
  no_failure ev
  /\ match ev with
     | AeArrive a => a <> here
     | AeFinish n => forall p, session = Some (n, p) -> exists r, p = SRet r
     | _ => True
     end.

(** The session that a step starts for the client. *)
Definition new_session (acc : acceptor) (ev : aevent) (session : option (N * sprog)) : option (N * sprog) :=
  match ac_pc acc, ev with
  | HpHold (Conn true a), AeTask =>
      if sa_eqb a here then Some (N.of_nat (length (ac_started acc)), server_run mac sc (sa_ip a)) else session
  | _, _ => session
  end.

(** One step; the number is 0 for the accepting tasks and what others do, and 1 for
    this knock. *)
Inductive busy_step : nat -> busy -> busy -> Prop :=
(* the client *)
| bs_lookup : forall acc s mode k se up dn d h rq rp l a,
    lookup_typed (Some l) -> first_record mode l a ->
    busy_step 1 (Busy acc (CLookup s mode k) se up dn d h rq rp) (Busy acc (k (Some l)) se up dn d h rq rp)
| bs_connect : forall acc a port k se up dn d h rq rp acc',
    astep true has_udp acc (AeArrive here) = Some acc' ->
    busy_step 1 (Busy acc (CConnect true a port k) se up dn d h rq rp) (Busy acc' (k true) se up dn d h rq rp)
| bs_crand : forall acc sz k se up dn d h rq rp b, good_bytes sz b ->
    busy_step 1 (Busy acc (CRand sz k) se up dn d h rq rp) (Busy acc (k (Some b)) se up dn d h rq rp)
| bs_csend : forall acc m k se up dn d h rq rp b, wire m b ->
    busy_step 1 (Busy acc (CSend m k) se up dn d h rq rp) (Busy acc (k TxOk) se (up ++ [b]) dn d h rq rp)
| bs_crecv : forall acc k se up b dn d h rq rp,
    busy_step 1 (Busy acc (CRecv k) se up (b :: dn) d h rq rp) (Busy acc (k (RxBuf b)) se up dn d h rq rp)
(* its session *)
| bs_srecv : forall acc cl n k b up dn d h rq rp,
    busy_step 1 (Busy acc cl (Some (n, SRecv k)) (b :: up) dn d h rq rp)
                (Busy acc cl (Some (n, k (RxBuf b))) up dn d h rq rp)
| bs_ssend : forall acc cl n m k up dn d h rq rp b, wire m b ->
    busy_step 1 (Busy acc cl (Some (n, SSend m k)) up dn d h rq rp)
                (Busy acc cl (Some (n, k TxOk)) up (dn ++ [b]) d h rq rp)
| bs_srand : forall acc cl n sz k up dn d h rq rp b, good_bytes sz b ->
    busy_step 1 (Busy acc cl (Some (n, SRand sz k)) up dn d h rq rp)
                (Busy acc cl (Some (n, k (Some b))) up dn d h rq rp)
| bs_fwconnect : forall acc cl n k up dn d h rq rp,
    busy_step 1 (Busy acc cl (Some (n, SFwConnect k)) up dn d h rq rp)
                (Busy acc cl (Some (n, k true)) up dn d h rq rp)
| bs_fwsend : forall acc cl n m k up dn d h rq rp b, fw_serialize m = Ok b ->
    busy_step 1 (Busy acc cl (Some (n, SFwSend m k)) up dn d h rq rp)
                (Busy acc cl (Some (n, k true)) up dn d h (rq ++ [b]) rp)
| bs_fwrecv : forall acc cl n k up dn d h rq b rp,
    busy_step 1 (Busy acc cl (Some (n, SFwRecv k)) up dn d h rq (b :: rp))
                (Busy acc cl (Some (n, k (FwRxBuf b))) up dn d h rq rp)
(* the firewall daemon *)
| bs_handle : forall acc cl se up dn d h b rq rp now d' m mb,
    fw_step conf d (FwMessage (FwRxBuf b) now true true) = Some (d', Some m) ->
    fw_serialize m = Ok mb ->
    busy_step 1 (Busy acc cl se up dn d h (b :: rq) rp)
                (Busy acc cl se up dn d' (h ++ [(FwMessage (FwRxBuf b) now true true, Some m)]) rq (rp ++ [mb]))
| bs_other : forall acc cl se up dn d h rq rp ev d' reply,
    event_ok c d ev -> undisturbed c ev -> fw_step conf d ev = Some (d', reply) ->
    busy_step 0 (Busy acc cl se up dn d h rq rp) (Busy acc cl se up dn d' (h ++ [(ev, reply)]) rq rp)
(* accepting, and other connections *)
| bs_accept : forall acc cl se up dn d h rq rp ev acc',
    astep true has_udp acc ev = Some acc' -> others_event se ev ->
    busy_step 0 (Busy acc cl se up dn d h rq rp) (Busy acc' cl (new_session acc ev se) up dn d h rq rp).

(** An execution with [n] steps of this knock. *)
Inductive busy_steps : nat -> busy -> busy -> Prop :=
| bss_0 : forall s, busy_steps 0 s s
| bss_S : forall n i s s1 s2, busy_steps n s s1 -> busy_step i s1 s2 -> busy_steps (n + i) s s2.

End Steps.

(** Client and session have ended successfully, the port is open, and the handler
    of the session is the one of the client's connection. *)
Definition busy_finished (conf : config) (c : chain_name) (h0 : hist) (here : sockaddr) (rs : resource)
           (s : busy) : Prop :=
  bu_client s = CRet (Ok tt)
  /\ (exists n, bu_session s = Some (n, SRet (Ok tt))
        /\ nth_error (ac_started (bu_acc s)) (N.to_nat n) = Some (Conn true here))
  /\ port_open conf c h0 (sa_ip here) rs
       (Full (Pair (CRet (Ok tt)) (SRet (Ok tt)) [] [] []) (bu_daemon s) (bu_hist s) [] []).

(** The client is told to use TCP, or is told nothing and its configuration offers
    TCP. *)
Definition knocks_by_tcp (cc : config) (tcp udp : bool) : Prop :=
  tcp = true \/ (udp = false /\ cp_tcp (c_port cc) = true).
