(** Specification vocabulary for control sessions, in terms of the bytes on the
    wire (S_Wire.v), the configuration and the events a session exchanges with
    the outside world. *)

From Coq Require Import NArith List.
From Verif Require Import M_Base M_Proto M_IpAddr M_FwProto M_ConfTypes M_Server S_Wire.
Import ListNotations.
Local Open Scope N_scope.

(** Keys are arrays of 32 bytes (type [Key] of the program). *)
Definition keys_sized (c : config) : Prop :=
  forall user key, In (user, key) (c_keys c) -> length key = 32%nat /\ all_bytes key.

(** Every resource has a transport (guaranteed by the configuration loader). *)
Definition resources_have_transport (c : config) : Prop :=
  forall id r, In (id, r) (c_resources c) -> rs_tcp r = true \/ rs_udp r = true.

(** The received bytes are a knock of [user] for [resource] authenticated with
    [key]. *)
Definition valid_knock (mac : list N -> list N -> list N) (key : list N)
           (user resource : N) (b : list N) : Prop :=
  exists salt auth text,
    wire_layout b Knock user resource salt auth
    /\ protected_text text Knock user resource salt no_challenge
    /\ auth = mac key text.

(** The received bytes are a response of [user] for [resource] to [challenge]
    authenticated with [key]. *)
Definition valid_response (mac : list N -> list N -> list N) (key : list N)
           (user resource : N) (challenge b : list N) : Prop :=
  exists salt auth text,
    wire_layout b Response user resource salt auth
    /\ protected_text text Response user resource salt challenge
    /\ auth = mac key text.

(** [m] is a message with this operation, user and resource. *)
Definition is_message (m : message) (o : operation) (user resource : N) : Prop :=
  m_op m = o /\ m_user m = user /\ m_resource m = resource.

(** The events of a completed challenge-response authentication, up to the
    connection to the firewall daemon. *)
Inductive authenticated (mac : list N -> list N -> list N) (conf : config)
          (user resource : N) : list sevent -> Prop :=
| authenticated_intro : forall key d1 kb salt nonce d2 chal d3 rb,
    In (user, key) (c_keys conf) ->
    valid_knock mac key user resource kb ->
    length nonce = 32%nat -> (forall c, nonce <> repeat c 32) ->
    is_message chal Challenge user resource -> m_auth chal = nonce ->
    valid_response mac key user resource nonce rb ->
    authenticated mac conf user resource
      [EvRecv d1 (RxBuf kb); EvRand 8 (Some salt); EvRand 32 (Some nonce);
       EvSend d2 chal TxOk; EvRecv d3 (RxBuf rb)].

(** The protocols of a port type. *)
Definition covers_tcp (t : port_type) : bool :=
  match t with PtTcp | PtTcpUdp => true | PtUdp => false end.
Definition covers_udp (t : port_type) : bool :=
  match t with PtUdp | PtTcpUdp => true | PtTcp => false end.

(** What the configuration grants to a user. *)
Record grants (conf : config) (user res_id : N) (r : resource) : Prop := {
  gr_resource : In (res_id, r) (c_resources conf);
  gr_key : exists key, In (user, key) (c_keys conf);
  gr_user : rs_users r = [] \/ In user (rs_users r);
  gr_port : rs_port r <> cp_port (c_port conf)
}.

(** Messages sent to the peer (or attempted to be sent). *)
Fixpoint sent (tr : list sevent) : list message :=
  match tr with
  | [] => []
  | EvSend _ m _ :: r => m :: sent r
  | _ :: r => sent r
  end.

(** Opening requests sent to the firewall daemon. *)
Fixpoint fw_requests (tr : list sevent) : list fw_message :=
  match tr with
  | [] => []
  | EvFwSend m _ :: r => m :: fw_requests r
  | _ :: r => fw_requests r
  end.

(** Time spent in communication with the peer. *)
Fixpoint peer_time (tr : list sevent) : N :=
  match tr with
  | [] => 0
  | EvRecv d _ :: r => d + peer_time r
  | EvSend d _ _ :: r => d + peer_time r
  | _ :: r => peer_time r
  end.

(** The communication itself failed: timeout, socket error, disconnect, bytes
    that are not a frame, or a failed transmission. *)
Definition comm_failure (ev : sevent) : Prop :=
  match ev with
  | EvRecv _ (RxBuf b) => ~ valid_frame b
  | EvRecv _ _ => True
  | EvSend _ _ TxOk => False
  | EvSend _ _ _ => True
  | _ => False
  end.

(** The operating system generator works: it delivers bytes that are not all
    equal. *)
Definition good_random (ev : sevent) : Prop :=
  match ev with
  | EvRand sz (Some b) => forall c, b <> repeat c sz
  | EvRand _ None => False
  | _ => True
  end.

(** The firewall daemon acknowledged. *)
Definition is_ack (ev : sevent) : Prop :=
  match ev with EvFwRecv (FwRxBuf b) => u16_at b 0 = 1 | _ => False end.

(** The last event is an attempt to send a GoAway. *)
Definition ends_with_go_away (tr : list sevent) : Prop :=
  exists tr' d m r, tr = tr' ++ [EvSend d m r] /\ m_op m = GoAway.
