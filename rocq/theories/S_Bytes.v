(** One client, one server session and the firewall daemon connected by byte
    streams (TCP between client and letmeind, the unix socket between the daemons).
    A message is not an event of this system: a sender hands over the bytes of its
    buffer in pieces of any size, a receiver takes any number of the bytes that
    have arrived, and everything else may happen between two pieces.  The pieces
    are those of the loops in M_Stream.v (see [read_is_loop], [write_is_loop] in
    Prop_Bytes.v).  The streams lose nothing and fail never. *)

From Coq Require Import NArith List.
From Verif Require Import M_Base M_Proto M_IpAddr M_FwProto M_ConfTypes M_Server M_Client M_Firewall
  S_Wire S_Session S_Client S_Pair S_Firewall S_E2e.
Import ListNotations.
Local Open Scope N_scope.

(** A sender is not in a send call ([None]) or has still to write the given bytes. *)
Definition to_write := option (list N).

Record streams := Streams {
  sb_client : cprog;
  sb_cout : to_write;        (* of the send the client is in *)
  sb_cin : list N;           (* what the receive the client is in has read *)
  sb_server : sprog;
  sb_sout : to_write;        (* of the send the session is in, on either socket *)
  sb_sin : list N;           (* what the receive the session is in has read *)
  sb_daemon : daemon;
  sb_hist : hist;
  sb_dout : to_write;        (* of the firewall daemon's reply *)
  sb_din : list N;           (* what the firewall daemon has read *)
  sb_up : list N;            (* on the way from the client to letmeind *)
  sb_down : list N;          (* on the way from letmeind to the client *)
  sb_request : list N;       (* on the way from letmeind to letmeinfwd *)
  sb_reply : list N          (* on the way from letmeinfwd to letmeind *)
}.

(** One step; the number is 0 for what others do and 1 for this knock. *)
Inductive byte_step (conf : config) (c : chain_name) : nat -> streams -> streams -> Prop :=
(* the client *)
| bs_lookup : forall s mode k p so si d h do_ di up dn rq rp l a,
    lookup_typed (Some l) -> first_record mode l a ->
    byte_step conf c 1 (Streams (CLookup s mode k) None [] p so si d h do_ di up dn rq rp)
                       (Streams (k (Some l)) None [] p so si d h do_ di up dn rq rp)
| bs_connect : forall tcp a port k p so si d h do_ di up dn rq rp,
    byte_step conf c 1 (Streams (CConnect tcp a port k) None [] p so si d h do_ di up dn rq rp)
                       (Streams (k true) None [] p so si d h do_ di up dn rq rp)
| bs_crand : forall sz k p so si d h do_ di up dn rq rp b, good_bytes sz b ->
    byte_step conf c 1 (Streams (CRand sz k) None [] p so si d h do_ di up dn rq rp)
                       (Streams (k (Some b)) None [] p so si d h do_ di up dn rq rp)
| bs_csend : forall m k p so si d h do_ di up dn rq rp b, wire m b ->
    byte_step conf c 1 (Streams (CSend m k) None [] p so si d h do_ di up dn rq rp)
                       (Streams (CSend m k) (Some b) [] p so si d h do_ di up dn rq rp)
| bs_cwrite : forall m k p so si d h do_ di up dn rq rp x y, x <> [] ->
    byte_step conf c 1 (Streams (CSend m k) (Some (x ++ y)) [] p so si d h do_ di up dn rq rp)
                       (Streams (CSend m k) (Some y) [] p so si d h do_ di (up ++ x) dn rq rp)
| bs_csent : forall m k p so si d h do_ di up dn rq rp,
    byte_step conf c 1 (Streams (CSend m k) (Some []) [] p so si d h do_ di up dn rq rp)
                       (Streams (k TxOk) None [] p so si d h do_ di up dn rq rp)
| bs_cread : forall k i p so si d h do_ di up x dn rq rp, x <> [] -> (length (i ++ x) < MSG_SIZE)%nat ->
    byte_step conf c 1 (Streams (CRecv k) None i p so si d h do_ di up (x ++ dn) rq rp)
                       (Streams (CRecv k) None (i ++ x) p so si d h do_ di up dn rq rp)
| bs_crecv : forall k i p so si d h do_ di up x dn rq rp, x <> [] -> length (i ++ x) = MSG_SIZE ->
    byte_step conf c 1 (Streams (CRecv k) None i p so si d h do_ di up (x ++ dn) rq rp)
                       (Streams (k (RxBuf (i ++ x))) None [] p so si d h do_ di up dn rq rp)
(* the session of letmeind *)
| bs_srand : forall cl co ci sz k d h do_ di up dn rq rp b, good_bytes sz b ->
    byte_step conf c 1 (Streams cl co ci (SRand sz k) None [] d h do_ di up dn rq rp)
                       (Streams cl co ci (k (Some b)) None [] d h do_ di up dn rq rp)
| bs_fwconnect : forall cl co ci k d h do_ di up dn rq rp,
    byte_step conf c 1 (Streams cl co ci (SFwConnect k) None [] d h do_ di up dn rq rp)
                       (Streams cl co ci (k true) None [] d h do_ di up dn rq rp)
| bs_ssend : forall cl co ci m k d h do_ di up dn rq rp b, wire m b ->
    byte_step conf c 1 (Streams cl co ci (SSend m k) None [] d h do_ di up dn rq rp)
                       (Streams cl co ci (SSend m k) (Some b) [] d h do_ di up dn rq rp)
| bs_swrite : forall cl co ci m k d h do_ di up dn rq rp x y, x <> [] ->
    byte_step conf c 1 (Streams cl co ci (SSend m k) (Some (x ++ y)) [] d h do_ di up dn rq rp)
                       (Streams cl co ci (SSend m k) (Some y) [] d h do_ di up (dn ++ x) rq rp)
| bs_ssent : forall cl co ci m k d h do_ di up dn rq rp,
    byte_step conf c 1 (Streams cl co ci (SSend m k) (Some []) [] d h do_ di up dn rq rp)
                       (Streams cl co ci (k TxOk) None [] d h do_ di up dn rq rp)
| bs_sread : forall cl co ci k i d h do_ di x up dn rq rp, x <> [] -> (length (i ++ x) < MSG_SIZE)%nat ->
    byte_step conf c 1 (Streams cl co ci (SRecv k) None i d h do_ di (x ++ up) dn rq rp)
                       (Streams cl co ci (SRecv k) None (i ++ x) d h do_ di up dn rq rp)
| bs_srecv : forall cl co ci k i d h do_ di x up dn rq rp, x <> [] -> length (i ++ x) = MSG_SIZE ->
    byte_step conf c 1 (Streams cl co ci (SRecv k) None i d h do_ di (x ++ up) dn rq rp)
                       (Streams cl co ci (k (RxBuf (i ++ x))) None [] d h do_ di up dn rq rp)
| bs_fwsend : forall cl co ci m k d h do_ di up dn rq rp b, fw_serialize m = Ok b ->
    byte_step conf c 1 (Streams cl co ci (SFwSend m k) None [] d h do_ di up dn rq rp)
                       (Streams cl co ci (SFwSend m k) (Some b) [] d h do_ di up dn rq rp)
| bs_fwwrite : forall cl co ci m k d h do_ di up dn rq rp x y, x <> [] ->
    byte_step conf c 1 (Streams cl co ci (SFwSend m k) (Some (x ++ y)) [] d h do_ di up dn rq rp)
                       (Streams cl co ci (SFwSend m k) (Some y) [] d h do_ di up dn (rq ++ x) rp)
| bs_fwsent : forall cl co ci m k d h do_ di up dn rq rp,
    byte_step conf c 1 (Streams cl co ci (SFwSend m k) (Some []) [] d h do_ di up dn rq rp)
                       (Streams cl co ci (k true) None [] d h do_ di up dn rq rp)
| bs_fwread : forall cl co ci k i d h do_ di up dn rq x rp, x <> [] -> (length (i ++ x) < FWMSG_SIZE)%nat ->
    byte_step conf c 1 (Streams cl co ci (SFwRecv k) None i d h do_ di up dn rq (x ++ rp))
                       (Streams cl co ci (SFwRecv k) None (i ++ x) d h do_ di up dn rq rp)
| bs_fwrecv : forall cl co ci k i d h do_ di up dn rq x rp, x <> [] -> length (i ++ x) = FWMSG_SIZE ->
    byte_step conf c 1 (Streams cl co ci (SFwRecv k) None i d h do_ di up dn rq (x ++ rp))
                       (Streams cl co ci (k (FwRxBuf (i ++ x))) None [] d h do_ di up dn rq rp)
(* the firewall daemon *)
| bs_dread : forall cl co ci p so si d h i up dn x rq rp, x <> [] -> (length (i ++ x) < FWMSG_SIZE)%nat ->
    byte_step conf c 1 (Streams cl co ci p so si d h None i up dn (x ++ rq) rp)
                       (Streams cl co ci p so si d h None (i ++ x) up dn rq rp)
| bs_handle : forall cl co ci p so si d h i up dn x rq rp now d' m mb,
    x <> [] -> length (i ++ x) = FWMSG_SIZE ->
    fw_step conf d (FwMessage (FwRxBuf (i ++ x)) now true true) = Some (d', Some m) ->
    fw_serialize m = Ok mb ->
    byte_step conf c 1 (Streams cl co ci p so si d h None i up dn (x ++ rq) rp)
              (Streams cl co ci p so si d' (h ++ [(FwMessage (FwRxBuf (i ++ x)) now true true, Some m)])
                       (Some mb) [] up dn rq rp)
| bs_dwrite : forall cl co ci p so si d h i up dn rq rp x y, x <> [] ->
    byte_step conf c 1 (Streams cl co ci p so si d h (Some (x ++ y)) i up dn rq rp)
                       (Streams cl co ci p so si d h (Some y) i up dn rq (rp ++ x))
| bs_dsent : forall cl co ci p so si d h i up dn rq rp,
    byte_step conf c 1 (Streams cl co ci p so si d h (Some []) i up dn rq rp)
                       (Streams cl co ci p so si d h None i up dn rq rp)
(* maintenance, requests of other sessions, other programs *)
| bs_other : forall cl co ci p so si d h do_ di up dn rq rp ev d' reply,
    event_ok c d ev -> undisturbed c ev -> fw_step conf d ev = Some (d', reply) ->
    byte_step conf c 0 (Streams cl co ci p so si d h do_ di up dn rq rp)
                       (Streams cl co ci p so si d' (h ++ [(ev, reply)]) do_ di up dn rq rp).

(** An execution with [n] steps of this knock. *)
Inductive byte_steps (conf : config) (c : chain_name) : nat -> streams -> streams -> Prop :=
| bss_0 : forall s, byte_steps conf c 0 s s
| bss_S : forall n i s s1 s2,
    byte_steps conf c n s s1 -> byte_step conf c i s1 s2 -> byte_steps conf c (n + i) s s2.

(** Nothing is on the way or buffered. *)
Definition streams_start (cl : cprog) (p : sprog) (d : daemon) (h : hist) : streams :=
  Streams cl None [] p None [] d h None [] [] [] [] [].

(** Client and session have ended successfully and the port is open. *)
Definition streams_finished (conf : config) (c : chain_name) (h0 : hist) (peer : ip) (rs : resource)
           (s : streams) : Prop :=
  sb_client s = CRet (Ok tt) /\ sb_server s = SRet (Ok tt)
  /\ port_open conf c h0 peer rs (Full (Pair (sb_client s) (sb_server s) [] [] []) (sb_daemon s) (sb_hist s) [] []).
