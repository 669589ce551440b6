(** Model of one control session of letmeind:
    /repo/letmeind/src/protocol.rs, with
    /repo/letmeind/src/firewall_client.rs and the connection operations of
    /repo/letmeind/src/server.rs 31-76.

    The session is an interaction tree: [sprog] performs external calls
    (receive, send, random bytes, firewall socket) and continues with whatever
    the environment answers.  Theorems quantify over all answers. *)

From Coq Require Import String NArith List Bool.
From Verif Require Import M_Base M_Proto M_IpAddr M_FwProto M_ConfTypes.
Import ListNotations.
Local Open Scope N_scope.

(** Answers to [timeout(.., conn.recv_msg())] (protocol.rs 56-58): the timer
    fired, the socket failed, the peer disconnected, or a full-size message
    buffer was received. *)
Inductive rx_result :=
| RxTimeout
| RxErr
| RxNone
| RxBuf (b : list byte).

(** Answers to [timeout(.., conn.send_msg(msg))] (protocol.rs 87-89). *)
Inductive tx_result :=
| TxTimeout
| TxErr
| TxOk.

(** Answers to [FirewallMessage::recv] before decoding
    (firewall_client.rs 45-47). *)
Inductive fw_rx_result :=
| FwRxErr
| FwRxNone
| FwRxBuf (b : list byte).

(** A running session: what it is going to do next. *)
Inductive sprog :=
| SRet (r : res unit)
| SRecv (k : rx_result -> sprog)
| SSend (m : message) (k : tx_result -> sprog)
| SRand (sz : nat) (k : option (list byte) -> sprog)
| SFwConnect (k : bool -> sprog)
| SFwSend (m : fw_message) (k : bool -> sprog)
| SFwRecv (k : fw_rx_result -> sprog).

(** What the outside world can observe of a session.  [EvRecv]/[EvSend] carry
    the time spent in the call. *)
Inductive sevent :=
| EvRecv (d : N) (r : rx_result)
| EvSend (d : N) (m : message) (r : tx_result)
| EvRand (sz : nat) (os : option (list byte))
| EvFwConnect (ok : bool)
| EvFwSend (m : fw_message) (ok : bool)
| EvFwRecv (r : fw_rx_result).

(** Typing of the answers: a received buffer is a [[u8; MSG_SIZE]]
    (letmein-proto lib.rs 401-412), a firewall reply a [[u8; FWMSG_SIZE]], and
    random bytes fill the requested array. *)
Definition rx_typed (r : rx_result) : Prop :=
  match r with
  | RxBuf b => length b = MSG_SIZE /\ bytes_ok b = true
  | _ => True
  end.

Definition fw_rx_typed (r : fw_rx_result) : Prop :=
  match r with
  | FwRxBuf b => length b = FWMSG_SIZE /\ bytes_ok b = true
  | _ => True
  end.

Definition rand_typed (sz : nat) (os : option (list byte)) : Prop :=
  match os with
  | Some b => length b = sz /\ bytes_ok b = true
  | None => True
  end.

(** One step of a session.  [T] is the control timeout: calls wrapped into
    [timeout(T, ..)] take at most [T] (protocol.rs 56, 87; timers are taken to
    be ideal).  The calls to the firewall daemon have no timeout
    (protocol.rs 205-223). *)
Inductive sstep (T : N) : sprog -> sevent -> sprog -> Prop :=
| st_recv : forall k d r, d <= T -> rx_typed r -> sstep T (SRecv k) (EvRecv d r) (k r)
| st_send : forall m k d r, d <= T -> sstep T (SSend m k) (EvSend d m r) (k r)
| st_rand : forall sz k os, rand_typed sz os -> sstep T (SRand sz k) (EvRand sz os) (k os)
| st_fwc : forall k ok, sstep T (SFwConnect k) (EvFwConnect ok) (k ok)
| st_fws : forall m k ok, sstep T (SFwSend m k) (EvFwSend m ok) (k ok)
| st_fwr : forall k r, fw_rx_typed r -> sstep T (SFwRecv k) (EvFwRecv r) (k r).

(** All partial executions of a session. *)
Inductive srun (T : N) : sprog -> list sevent -> sprog -> Prop :=
| sr_nil : forall p, srun T p [] p
| sr_snoc : forall p tr p' ev p'',
    srun T p tr p' -> sstep T p' ev p'' -> srun T p (tr ++ [ev]) p''.

(** protocol.rs 21-31: [AuthState]. *)
Inductive auth_state := NotAuth | BasicAuth | ChallengeResponseAuth.

Definition auth_eqb (a b : auth_state) : bool :=
  match a, b with
  | NotAuth, NotAuth => true
  | BasicAuth, BasicAuth => true
  | ChallengeResponseAuth, ChallengeResponseAuth => true
  | _, _ => false
  end.

(** protocol.rs 34-41: the mutable fields of [Protocol]. *)
Record pstate := PState {
  ps_user : option N;
  ps_resource : option N;
  ps_auth : auth_state
}.

(** lib.rs (letmein-proto) 401-412: [Message::recv] after the raw receive:
    decode the buffer. *)
Definition decode_rx (b : list byte) : res message := try_msg_deserialize b.

(** [u32::MAX] in protocol.rs 113-114. *)
Definition ID_NONE : N := 4294967295.

Definition unwrap_or (o : option N) (d : N) : N :=
  match o with Some x => x | None => d end.

Section Session.

Variable mac : list byte -> list byte -> list byte.
Variable conf : config.
(** The IP address of the peer: [conn.peer_addr().ip()] (protocol.rs 219). *)
Variable peer : ip.

(** protocol.rs 94-108: may the error message be sent? *)
Definition go_away_allowed (st : pstate) : bool :=
  match c_policy conf with
  | PolAlways => true
  | PolBasicAuth =>
      negb (negb (auth_eqb (ps_auth st) BasicAuth)
            && negb (auth_eqb (ps_auth st) ChallengeResponseAuth))
  | PolFullAuth => negb (negb (auth_eqb (ps_auth st) ChallengeResponseAuth))
  end.

(** protocol.rs 86-90: [send_msg]. *)
Definition send_msg (m : message) (k : res unit -> sprog) : sprog :=
  SSend m (fun r => match r with
                    | TxOk => k (Ok tt)
                    | TxErr => k (Err "TX error")
                    | TxTimeout => k (Err "TX communication with peer timed out")
                    end).

(** [Message::new] inside of the session: draws the salt. *)
Definition new_msg (o : operation) (u r : N) (k : message -> sprog) : sprog :=
  SRand SALT_SIZE (fun os => match msg_new o u r os with
                             | Ok m => k m
                             | Err e => SRet (Err e)
                             | Panic => SRet Panic
                             end).

(** protocol.rs 92-117: [send_go_away]; all callers ignore the result
    ([let _ = ...]). *)
Definition send_go_away (st : pstate) (k : sprog) : sprog :=
  if go_away_allowed st then
    new_msg GoAway (unwrap_or (ps_user st) ID_NONE) (unwrap_or (ps_resource st) ID_NONE)
      (fun m => send_msg m (fun _ => k))
  else k.

(** The pattern [let _ = self.send_go_away().await; return Err(..)]. *)
Definition reject (st : pstate) (e : string) : sprog :=
  send_go_away st (SRet (Err e)).

(** protocol.rs 55-84: [recv_msg]. *)
Definition recv_msg (st : pstate) (expect : operation) (k : message -> sprog) : sprog :=
  SRecv (fun r =>
    match r with
    | RxTimeout => SRet (Err "RX communication with peer timed out")
    | RxErr => SRet (Err "RX error")
    | RxNone => SRet (Err "Disconnected.")
    | RxBuf b =>
        match decode_rx b with
        | Panic => SRet Panic
        | Err e => SRet (Err e)
        | Ok msg =>
            if negb (op_eqb (m_op msg) expect) then
              reject st "Invalid reply message operation"
            else if match ps_user st with
                    | Some u => negb (m_user msg =? u)
                    | None => false
                    end then
              reject st "Received message user mismatch"
            else if match ps_resource st with
                    | Some r => negb (m_resource msg =? r)
                    | None => false
                    end then
              reject st "Received message resource mismatch"
            else k msg
        end
    end).

(** firewall_client.rs 31-56: [FirewallClient::open_port]. *)
Definition fw_open_port (a : ip) (t : port_type) (p : N) (k : res unit -> sprog) : sprog :=
  SFwSend (fw_new_open a t p) (fun ok =>
    if negb ok then k (Err "Send port-open message")
    else SFwRecv (fun r =>
      match r with
      | FwRxErr => k (Err "Receive port-open reply")
      | FwRxNone => k (Err "Connection terminated")
      | FwRxBuf b =>
          match fw_deserialize b with
          | Panic => SRet Panic
          | Err e => k (Err e)
          | Ok reply =>
              match f_op reply with
              | FwAck => k (Ok tt)
              | FwNack => k (Err "The firewall rejected the port-open request")
              | FwOpen => k (Err "Received invalid reply")
              end
          end
      end)).

(** protocol.rs 190-196: the port type to open. *)
Definition port_type_of (tcp udp : bool) : option port_type :=
  match tcp, udp with
  | true, false => Some PtTcp
  | false, true => Some PtUdp
  | true, true => Some PtTcpUdp
  | false, false => None          (* unreachable!() *)
  end.

(** protocol.rs 229-234: the end of the session. *)
Definition send_come_in (user_id resource_id : N) : sprog :=
  new_msg ComeIn user_id resource_id
    (fun m => send_msg m (fun r => match r with
                                   | Ok _ => SRet (Ok tt)
                                   | Err e => SRet (Err e)
                                   | Panic => SRet Panic
                                   end)).

(** protocol.rs 181-234: reconfigure the firewall and finish. *)
Definition open_firewall (st : pstate) (resource : resource) (user_id resource_id : N)
  : sprog :=
  match port_type_of (rs_tcp resource) (rs_udp resource) with
  | None => SRet Panic
  | Some pt =>
      SFwConnect (fun ok =>
        if negb ok then reject st "Failed to connect to letmeinfwd"
        else if negb (auth_eqb (ps_auth st) ChallengeResponseAuth) then SRet Panic
        else fw_open_port peer pt (rs_port resource) (fun r =>
          match r with
          | Err e => reject st "letmeinfwd firewall open"
          | Panic => SRet Panic
          | Ok _ => send_come_in user_id resource_id
          end))
  end.

(** protocol.rs 166-180: challenge and response. *)
Definition challenge_response (st : pstate) (key : list byte) (resource : resource)
           (user_id resource_id : N) : sprog :=
  new_msg Challenge user_id resource_id (fun ch0 =>
    SRand AUTH_SIZE (fun os =>
      match generate_challenge ch0 os with
      | Panic => SRet Panic
      | Err e => SRet (Err e)
      | Ok challenge =>
          send_msg challenge (fun r =>
            match r with
            | Err e => SRet (Err e)
            | Panic => SRet Panic
            | Ok _ =>
                recv_msg st Response (fun response =>
                  match check_auth_ok mac response key challenge with
                  | Panic => SRet Panic
                  | Err e => SRet (Err e)
                  | Ok false => reject st "Response: Authentication failed"
                  | Ok true =>
                      open_firewall
                        (PState (ps_user st) (ps_resource st) ChallengeResponseAuth)
                        resource user_id resource_id
                  end)
            end)
      end)).

(** protocol.rs 119-237: [Protocol::run]. *)
Definition server_run : sprog :=
  let st0 := PState None None NotAuth in
  recv_msg st0 Knock (fun knock =>
    let user_id := m_user knock in
    let resource_id := m_resource knock in
    let st1 := PState (Some user_id) (Some resource_id) NotAuth in
    match conf_key conf user_id with
    | None => reject st1 "Unknown user"
    | Some key =>
        match check_auth_ok_no_challenge mac knock key with
        | Panic => SRet Panic
        | Err e => SRet (Err e)
        | Ok false => reject st1 "Knock: Authentication failed"
        | Ok true =>
            let st2 := PState (Some user_id) (Some resource_id) BasicAuth in
            match conf_resource conf resource_id with
            | None => reject st2 "Unknown resource"
            | Some resource =>
                if negb (contains_user resource user_id) then
                  reject st2 "Resource not allowed for user"
                else if rs_port resource =? cp_port (c_port conf) then
                  reject st2 "Incorrect configuration: control port"
                else challenge_response st2 key resource user_id resource_id
            end
        end
    end).

End Session.
