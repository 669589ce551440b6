(** A client and the session that serves it, with nothing in between. *)

From Coq Require Import NArith List.
From Verif Require Import M_Base M_Proto M_IpAddr M_FwProto M_ConfTypes M_Server M_Client
  S_Wire S_Session S_Client S_System.
Import ListNotations.
Local Open Scope N_scope.

(** The client's address is the peer address of the session, and each of the two
    receives only what the other one has sent.  Nothing is said about loss, order or
    repetition. *)
Definition connected (w : world) (cid sid : nat) (tr : list gevent) : Prop :=
  w_home w cid = w_peer w sid
  /\ (forall pre d b post, tr = pre ++ GClient cid (CeRecv d (RxBuf b)) :: post ->
      exists d' m r, In (GServer sid (EvSend d' m r)) pre /\ wire m b)
  /\ (forall pre d b post, tr = pre ++ GServer sid (EvRecv d (RxBuf b)) :: post ->
      exists d' m r, In (GClient cid (CeSend d' m r)) pre /\ wire m b).

(** The client has reported success. *)
Definition client_succeeded (mac : list N -> list N -> list N) (parse_ip : list N -> option ip)
           (T : N) (w : world) (cid : nat) (tr : list gevent) : Prop :=
  crun T (knock_sequence mac parse_ip (w_client w cid) (w_mode w cid)) (client_events cid tr) (CRet (Ok tt)).
