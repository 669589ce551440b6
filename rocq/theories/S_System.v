(** Any number of server sessions and of clients of key holders, run
    concurrently.  Everything between them (delivery, loss, replay, reordering,
    injection of messages, name resolution, firewall socket, timing) is left
    open: an execution is any interleaving of executions of the parts.  The
    attacker is everything that is not a part. *)

From Coq Require Import NArith List.
From Verif Require Import M_Base M_Proto M_IpAddr M_FwProto M_ConfTypes M_Server M_Client
  S_Wire S_Session S_Client.
Import ListNotations.
Local Open Scope N_scope.

Inductive gevent :=
| GServer (sid : nat) (ev : sevent)
| GClient (cid : nat) (ev : cevent).

(** The events of one session, of one client. *)
Fixpoint server_events (sid : nat) (tr : list gevent) : list sevent :=
  match tr with
  | [] => []
  | GServer i ev :: r => if Nat.eqb i sid then ev :: server_events sid r else server_events sid r
  | GClient _ _ :: r => server_events sid r
  end.

Fixpoint client_events (cid : nat) (tr : list gevent) : list cevent :=
  match tr with
  | [] => []
  | GClient i ev :: r => if Nat.eqb i cid then ev :: client_events cid r else client_events cid r
  | GServer _ _ :: r => client_events cid r
  end.

(** Who takes part: the peer address of every session, and for every client of
    a key holder what it knocks for, over which address family, and the
    client's own address. *)
Record world := World {
  w_peer : nat -> ip;
  w_client : nat -> knock_seq;
  w_mode : nat -> res_mode;
  w_home : nat -> ip
}.

Definition execution (mac : list N -> list N -> list N) (parse_ip : list N -> option ip)
           (conf : config) (T : N) (w : world) (tr : list gevent) : Prop :=
  (forall sid, exists p,
     srun T (server_run mac conf (w_peer w sid)) (server_events sid tr) p)
  /\ (forall cid, exists p,
     crun T (knock_sequence mac parse_ip (w_client w cid) (w_mode w cid)) (client_events cid tr) p).

(** The session has drawn this challenge. *)
Definition session_nonce (sid : nat) (tr : list gevent) (nonce : list N) : Prop :=
  In (EvRand 32 (Some nonce)) (server_events sid tr).

(** The [n]-th event of a client is the transmission of a message for which it
    has authenticated [text]; the challenge in [text] is that of the message
    received last, or none if nothing was received. *)
Inductive computed (ctr : list cevent) (n : nat) (text : list N) : Prop :=
| computed_first : forall pre d m r post b o user resource salt auth,
    ctr = pre ++ CeSend d m r :: post -> length pre = n ->
    (forall d' r', ~ In (CeRecv d' r') pre) ->
    wire m b -> wire_layout b o user resource salt auth ->
    protected_text text o user resource salt no_challenge ->
    computed ctr n text
| computed_later : forall pre d0 cb u0 r0 s0 nonce mid d m r post b o user resource salt auth,
    ctr = pre ++ CeRecv d0 (RxBuf cb) :: mid ++ CeSend d m r :: post ->
    n = (length pre + S (length mid))%nat ->
    (forall d' r', ~ In (CeRecv d' r') mid) ->
    wire_layout cb Challenge u0 r0 s0 nonce ->
    wire m b -> wire_layout b o user resource salt auth ->
    protected_text text o user resource salt nonce ->
    computed ctr n text.

(** Nobody but the key holders can make authentic messages: if a session
    receives a response to its challenge that is authentic under the key of a
    configured user, then a client using this key has computed it before. *)
Definition unforgeable (mac : list N -> list N -> list N) (conf : config) (w : world)
           (tr : list gevent) : Prop :=
  forall pre sid d b post user key resource nonce salt text,
  tr = pre ++ GServer sid (EvRecv d (RxBuf b)) :: post ->
  In (user, key) (c_keys conf) ->
  session_nonce sid pre nonce ->
  wire_layout b Response user resource salt (mac key text) ->
  protected_text text Response user resource salt nonce ->
  exists cid n, kq_key (w_client w cid) = key /\ computed (client_events cid pre) n text.

(** The generator does not repeat itself. *)
Definition distinct_nonces (tr : list gevent) : Prop :=
  forall sid1 sid2 nonce, session_nonce sid1 tr nonce -> session_nonce sid2 tr nonce ->
  sid1 = sid2.

(** Nobody knows a challenge before it is drawn. *)
Definition unpredictable (tr : list gevent) : Prop :=
  forall pre sid nonce post, tr = pre ++ GServer sid (EvRand 32 (Some nonce)) :: post ->
  forall cid d b u r s, In (CeRecv d (RxBuf b)) (client_events cid pre) ->
  ~ wire_layout b Challenge u r s nonce.

(** No message is relayed under a foreign address: what a session receives as
    a response was computed by a client at the session's peer address. *)
Definition unrelayed (w : world) (tr : list gevent) : Prop :=
  forall pre sid d b post user resource salt auth nonce text cid n,
  tr = pre ++ GServer sid (EvRecv d (RxBuf b)) :: post ->
  wire_layout b Response user resource salt auth ->
  session_nonce sid pre nonce ->
  protected_text text Response user resource salt nonce ->
  computed (client_events cid pre) n text ->
  w_home w cid = w_peer w sid.
