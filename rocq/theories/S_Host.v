(** The whole system on a host whose daemons are killed and started again, perhaps
    with changed configurations: the sessions and clients of S_System.v, the firewall
    daemons of S_Crash.v one after the other, and the unix socket between them. *)

From Coq Require Import String NArith List.
From Verif Require Import M_Base M_Proto M_IpAddr M_FwProto M_ConfTypes M_Server M_Client M_Firewall
  S_Wire S_Session S_Client S_System S_Firewall S_Crash.
Import ListNotations.
Local Open Scope N_scope.

(** An event of a session or client, an event of the firewall daemon that runs ([conn]
    is the session whose connection a message came in on), or the successful start of
    a firewall daemon. *)
Inductive hevent :=
| HNet (g : gevent)
| HFw (conn : option nat) (ev : fw_event) (reply : option fw_message)
| HStart (conf : config).

Fixpoint host_net (tr : list hevent) : list gevent :=
  match tr with
  | [] => []
  | HNet g :: r => g :: host_net r
  | _ :: r => host_net r
  end.

Fixpoint host_fw (tr : list hevent) : hist :=
  match tr with
  | [] => []
  | HFw _ ev reply :: r => (ev, reply) :: host_fw r
  | _ :: r => host_fw r
  end.

(** The firewall daemons that were started, the newest first, each with what happened
    to it. *)
Inductive lifetimes : list hevent -> list (config * hist) -> Prop :=
| lt_none : forall tr, (forall conn ev reply, ~ In (HFw conn ev reply) tr) ->
    (forall conf, ~ In (HStart conf) tr) -> lifetimes tr []
| lt_start : forall tr l conf rest, lifetimes tr l -> (forall conf', ~ In (HStart conf') rest) ->
    lifetimes (tr ++ HStart conf :: rest) ((conf, host_fw rest) :: l).

Definition of_past (p : past) : config * hist := (ps_conf p, ps_hist p).

(** The socket carries only what was put into it. *)
Definition host_socket (tr : list hevent) : Prop :=
  forall pre conn b t ok send_ok reply post,
  tr = pre ++ HFw conn (FwMessage (FwRxBuf b) t ok send_ok) reply :: post ->
  exists sid m sent_ok, conn = Some sid
    /\ In (HNet (GServer sid (EvFwSend m sent_ok))) pre /\ fw_layout b m.

(** [conf_of sid] is the configuration of the letmeind process that serves the session
    [sid]; a session of a killed letmeind just has no further events.  [c] is the chain
    of all firewall daemons. *)
Record whole_host (mac : list N -> list N -> list N) (parse_ip : list N -> option ip)
       (conf_of : nat -> config) (T : N) (w : world) (c : chain_name)
       (tr : list hevent) (s : host) (ps : list past) : Prop := {
  ho_sessions : forall sid, exists p,
    srun T (server_run mac (conf_of sid) (w_peer w sid)) (server_events sid (host_net tr)) p;
  ho_clients : forall cid, exists p,
    crun T (knock_sequence mac parse_ip (w_client w cid) (w_mode w cid)) (client_events cid (host_net tr)) p;
  ho_fw : host_history c s ps;
  ho_lives : lifetimes tr (match s with
                           | Off _ => map of_past ps
                           | On conf _ h => (conf, h) :: map of_past ps
                           end);
  ho_socket : host_socket tr
}.

(** [unforgeable] of S_System.v with the keys of the session's own letmeind. *)
Definition unforgeable_keys (mac : list N -> list N -> list N) (conf_of : nat -> config) (w : world)
           (tr : list gevent) : Prop :=
  forall pre sid d b post user key resource nonce salt text,
  tr = pre ++ GServer sid (EvRecv d (RxBuf b)) :: post ->
  In (user, key) (c_keys (conf_of sid)) ->
  session_nonce sid pre nonce ->
  wire_layout b Response user resource salt (mac key text) ->
  protected_text text Response user resource salt nonce ->
  exists cid n, kq_key (w_client w cid) = key /\ computed (client_events cid pre) n text.

(** [execution] of S_System.v with the configuration of each session's own letmeind. *)
Definition restarting_execution (mac : list N -> list N -> list N) (parse_ip : list N -> option ip)
           (conf_of : nat -> config) (T : N) (w : world) (tr : list gevent) : Prop :=
  (forall sid, exists p,
     srun T (server_run mac (conf_of sid) (w_peer w sid)) (server_events sid tr) p)
  /\ (forall cid, exists p,
     crun T (knock_sequence mac parse_ip (w_client w cid) (w_mode w cid)) (client_events cid tr) p).
