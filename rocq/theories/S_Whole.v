(** The whole system: the sessions and clients of S_System.v, the firewall
    daemon with its kernel chain of S_Firewall.v, and the unix socket between
    them.  An execution is any interleaving. *)

From Coq Require Import NArith List.
From Verif Require Import M_Base M_Proto M_IpAddr M_FwProto M_ConfTypes M_Server M_Client M_Firewall
  S_Wire S_Session S_Client S_System S_Firewall.
Import ListNotations.
Local Open Scope N_scope.

(** An event of a session or client, or of the firewall daemon (with its reply).
    [conn] is the session whose connection a message came in on. *)
Inductive wevent :=
| WNet (g : gevent)
| WFw (conn : option nat) (ev : fw_event) (reply : option fw_message).

Fixpoint net_events (tr : list wevent) : list gevent :=
  match tr with
  | [] => []
  | WNet g :: r => g :: net_events r
  | WFw _ _ _ :: r => net_events r
  end.

Fixpoint fw_events (tr : list wevent) : hist :=
  match tr with
  | [] => []
  | WNet _ :: r => fw_events r
  | WFw _ ev reply :: r => (ev, reply) :: fw_events r
  end.

(** The unix socket between letmeind and letmeinfwd carries only what they put
    into it: a message that the firewall daemon receives was sent before by the
    session at the other end, and a reply that a session receives is the firewall
    daemon's reply on the same connection. *)
Definition socket_faithful (tr : list wevent) : Prop :=
  (forall pre conn b t ok send_ok reply post,
     tr = pre ++ WFw conn (FwMessage (FwRxBuf b) t ok send_ok) reply :: post ->
     exists sid m sent_ok, conn = Some sid
       /\ In (WNet (GServer sid (EvFwSend m sent_ok))) pre /\ fw_layout b m)
  /\ (forall pre sid b post,
     tr = pre ++ WNet (GServer sid (EvFwRecv (FwRxBuf b))) :: post ->
     exists rx t ok send_ok reply, In (WFw (Some sid) (FwMessage rx t ok send_ok) (Some reply)) pre
       /\ fw_layout b reply).

(** [conf_s] is the configuration loaded by letmeind, [conf_f] that of
    letmeinfwd; [c] is the chain, [d] the state of the firewall daemon and the
    kernel at the end. *)
Record whole (mac : list N -> list N -> list N) (parse_ip : list N -> option ip)
       (conf_s conf_f : config) (T : N) (w : world) (c : chain_name)
       (tr : list wevent) (d : daemon) : Prop := {
  wh_net : execution mac parse_ip conf_s T w (net_events tr);
  wh_fw : history conf_f c d (fw_events tr);
  wh_socket : socket_faithful tr
}.

(** The packet uses a transport of the resource. *)
Definition resource_covers (r : resource) (pk : packet) : Prop :=
  pk_dport pk = rs_port r
  /\ match pk_transport pk with Tcp => rs_tcp r | Udp => rs_udp r end = true.

(** The daemon has not expired a lease given at time [t]. *)
Definition not_expired (conf : config) (t : N) (after : hist) : Prop :=
  forall now o1 o2 b1 b2 b3 reply,
  In (FwMaintain now o1 o2 b1 b2 b3, reply) after -> now < t + c_nft_timeout conf.
