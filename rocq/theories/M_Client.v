(** Model of the letmein client: /repo/letmein/src/resolver.rs,
    /repo/letmein/src/client.rs, /repo/letmein/src/command/knock.rs and
    /repo/letmein/src/main.rs 237-296.

    As in M_Server.v the program is an interaction tree. *)

From Coq Require Import String NArith List Bool.
From Verif Require Import M_Base M_Proto M_IpAddr M_ConfTypes M_Server.
Import ListNotations.
Local Open Scope N_scope.

(** resolver.rs 21-29: [ResMode]. *)
Inductive res_mode := RmIpv6 | RmIpv4.

(** resolver.rs 33-45: [ResSrv]. *)
Record res_srv := ResSrv { sv_system : bool; sv_quad9 : bool; sv_google : bool; sv_cloudflare : bool }.

(** resolver.rs 49-58: [ResCrypt]. *)
Record res_crypt := ResCrypt { cr_tls : bool; cr_https : bool; cr_unencrypted : bool }.

(** resolver.rs 62-71: [ResConf]. *)
Record res_conf := ResConf { rc_mode : res_mode; rc_srv : res_srv; rc_crypt : res_crypt }.

(** The DNS services that can be asked (resolver.rs 136-187). *)
Inductive dns_provider := Quad9 | Google | Cloudflare.
Inductive dns_transport := OverTls | OverHttps | Unencrypted.
Inductive dns_service :=
| DnsSystem
| DnsPublic (p : dns_provider) (t : dns_transport).

(** Record data of a lookup result (resolver.rs 91-97); other record types are
    [ROther]. *)
Inductive rdata := RAAAA (octets : list byte) | RA (octets : list byte) | ROther.

(** Answer of a lookup: [None] if the resolver could not be built or the lookup
    failed. *)
Definition lookup_result := option (list rdata).

Inductive cprog :=
| CRet (r : res unit)
| CLookup (s : dns_service) (mode : res_mode) (k : lookup_result -> cprog)
| CConnect (tcp : bool) (a : ip) (port : N) (k : bool -> cprog)
| CRand (sz : nat) (k : option (list byte) -> cprog)
| CSend (m : message) (k : tx_result -> cprog)
| CRecv (k : rx_result -> cprog).

Inductive cevent :=
| CeLookup (s : dns_service) (mode : res_mode) (r : lookup_result)
| CeConnect (tcp : bool) (a : ip) (port : N) (ok : bool)
| CeRand (sz : nat) (os : option (list byte))
| CeSend (d : N) (m : message) (r : tx_result)
| CeRecv (d : N) (r : rx_result).

(** Typing of lookup answers: an A record has 4 octets, an AAAA record 16. *)
Definition rdata_typed (x : rdata) : Prop :=
  match x with
  | RAAAA o => length o = 16%nat /\ bytes_ok o = true
  | RA o => length o = 4%nat /\ bytes_ok o = true
  | ROther => True
  end.

Definition lookup_typed (r : lookup_result) : Prop :=
  match r with Some l => forall x, In x l -> rdata_typed x | None => True end.

(** One step of the client.  [T] is the control timeout (client.rs 79, 107);
    lookups and connects have no timeout of their own. *)
Inductive cstep (T : N) : cprog -> cevent -> cprog -> Prop :=
| ct_lookup : forall s mode k r, lookup_typed r ->
    cstep T (CLookup s mode k) (CeLookup s mode r) (k r)
| ct_connect : forall tcp a port k ok, cstep T (CConnect tcp a port k) (CeConnect tcp a port ok) (k ok)
| ct_rand : forall sz k os, rand_typed sz os -> cstep T (CRand sz k) (CeRand sz os) (k os)
| ct_send : forall m k d r, d <= T -> cstep T (CSend m k) (CeSend d m r) (k r)
| ct_recv : forall k d r, d <= T -> rx_typed r -> cstep T (CRecv k) (CeRecv d r) (k r).

Inductive crun (T : N) : cprog -> list cevent -> cprog -> Prop :=
| cr_nil : forall p, crun T p [] p
| cr_cons : forall p ev p1 tr p', cstep T p ev p1 -> crun T p1 tr p' -> crun T p (ev :: tr) p'.

(** Run [p], then continue with its result; a panic ends the program. *)
Fixpoint cbind (p : cprog) (f : res unit -> cprog) : cprog :=
  match p with
  | CRet Panic => CRet Panic
  | CRet r => f r
  | CLookup s mode k => CLookup s mode (fun r => cbind (k r) f)
  | CConnect tcp a port k => CConnect tcp a port (fun ok => cbind (k ok) f)
  | CRand sz k => CRand sz (fun os => cbind (k os) f)
  | CSend m k => CSend m (fun r => cbind (k r) f)
  | CRecv k => CRecv (fun r => cbind (k r) f)
  end.

(** resolver.rs 89-103: [get_first_result]. *)
Fixpoint get_first_result (l : list rdata) (mode : res_mode) : res ip :=
  match l with
  | [] => Err "No IP address found for host"
  | x :: r =>
      match mode, x with
      | RmIpv6, RAAAA o => Ok (V6 o)
      | RmIpv4, RA o => Ok (V4 o)
      | _, _ => get_first_result r mode
      end
  end.

(** resolver.rs 127-138, macro [lookup_and_return] guarded by its two
    conditions: ask [s] if [enabled]; a successful lookup decides. *)
Definition ask (enabled : bool) (s : dns_service) (mode : res_mode)
           (k : res ip -> cprog) (next : cprog) : cprog :=
  if enabled then
    CLookup s mode (fun r => match r with
                             | Some l => k (get_first_result l mode)
                             | None => next
                             end)
  else next.

(** knock.rs 20-26: [AddrMode]. *)
Inductive addr_mode := AmTryBoth | AmBoth | AmIpv6 | AmIpv4.

(** knock.rs 28-37: [From<(bool, bool)> for AddrMode]; the pair is
    (ipv4, ipv6). *)
Definition addr_mode_of (ipv4 ipv6 : bool) : addr_mode :=
  match ipv4, ipv6 with
  | false, false => AmTryBoth
  | true, true => AmBoth
  | false, true => AmIpv6
  | true, false => AmIpv4
  end.

(** knock.rs 130-136: the server part of the command line ([addr] is separate). *)
Record knock_server := KnockServer {
  ks_addr_mode : addr_mode;
  ks_port : option N;
  ks_tcp : bool;
  ks_udp : bool
}.

(** knock.rs 139-158: [KnockServer::to_control_port]. *)
Definition to_control_port (s : knock_server) (conf : config) : control_port :=
  let cp := c_port conf in
  let cp := match ks_port s with
            | Some p => ControlPort p (cp_tcp cp) (cp_udp cp)
            | None => cp
            end in
  let cp := if ks_udp s then ControlPort (cp_port cp) false true else cp in
  let cp := if ks_tcp s then ControlPort (cp_port cp) true false else cp in
  if cp_tcp cp && cp_udp cp then ControlPort (cp_port cp) (cp_tcp cp) false else cp.

Section Client.

Variable mac : list byte -> list byte -> list byte.
(** [str::parse::<IpAddr>] (resolver.rs 75, 80, 108). *)
Variable parse_ip : text -> option ip.

(** resolver.rs 106-193: [resolve]. *)
Definition resolve (host : text) (cfg : res_conf) (k : res ip -> cprog) : cprog :=
  match parse_ip host with
  | Some a =>
      match rc_mode cfg with
      | RmIpv4 => if negb (is_ipv4 a) then k (Err "Supplied a raw IPv6 address")
                  else k (Ok a)
      | RmIpv6 => if negb (is_ipv6 a) then k (Err "Supplied a raw IPv4 address")
                  else k (Ok a)
      end
  | None =>
      let m := rc_mode cfg in
      let sv := rc_srv cfg in
      let cr := rc_crypt cfg in
      ask (sv_system sv) DnsSystem m k
     (ask (cr_tls cr && sv_quad9 sv) (DnsPublic Quad9 OverTls) m k
     (ask (cr_tls cr && sv_google sv) (DnsPublic Google OverTls) m k
     (ask (cr_tls cr && sv_cloudflare sv) (DnsPublic Cloudflare OverTls) m k
     (ask (cr_https cr && sv_quad9 sv) (DnsPublic Quad9 OverHttps) m k
     (ask (cr_https cr && sv_google sv) (DnsPublic Google OverHttps) m k
     (ask (cr_https cr && sv_cloudflare sv) (DnsPublic Cloudflare OverHttps) m k
     (ask (cr_unencrypted cr && sv_quad9 sv) (DnsPublic Quad9 Unencrypted) m k
     (ask (cr_unencrypted cr && sv_google sv) (DnsPublic Google Unencrypted) m k
     (ask (cr_unencrypted cr && sv_cloudflare sv) (DnsPublic Cloudflare Unencrypted) m k
     (k (Err "DNS lookup of host failed")))))))))))
  end.

(** client.rs 31-75: [Client::new].  Binding a local UDP socket, connecting and
    wrapping the socket are one step that can fail. *)
Definition client_new (host : text) (cp : control_port) (cfg : res_conf)
           (k : res unit -> cprog) : cprog :=
  resolve host cfg (fun r =>
    match r with
    | Panic => CRet Panic
    | Err e => k (Err e)
    | Ok a =>
        if cp_tcp cp then
          if cp_udp cp then CRet Panic           (* assert!(!control_port.udp) *)
          else CConnect true a (cp_port cp)
                 (fun ok => k (if ok then Ok tt else Err "Connect to server"))
        else if negb (cp_udp cp) then CRet Panic   (* assert!(control_port.udp) *)
        else CConnect false a (cp_port cp)
               (fun ok => k (if ok then Ok tt else Err "Connect to server"))
    end).

(** client.rs 105-109: [Client::send_msg]. *)
Definition client_send (m : message) (k : cprog) : cprog :=
  CSend m (fun r => match r with
                    | TxOk => k
                    | TxErr => CRet (Err "TX error")
                    | TxTimeout => CRet (Err "TX communication with peer timed out")
                    end).

(** client.rs 78-102: [Client::recv_msg] and [Client::recv_specific_msg]. *)
Definition recv_specific (expect : operation) (k : message -> cprog) : cprog :=
  CRecv (fun r =>
    match r with
    | RxTimeout => CRet (Err "RX communication with peer timed out")
    | RxErr => CRet (Err "RX error")
    | RxNone => CRet (Err "Connection terminated")
    | RxBuf b =>
        match decode_rx b with
        | Panic => CRet Panic
        | Err e => CRet (Err e)
        | Ok m =>
            if op_eqb (m_op m) GoAway then CRet (Err "The server rejected the request")
            else if negb (op_eqb (m_op m) expect) then
                   CRet (Err "Invalid reply message operation")
                 else k m
        end
    end).

(** [Message::new]. *)
Definition client_msg (o : operation) (u r : N) (k : message -> cprog) : cprog :=
  CRand SALT_SIZE (fun os => match msg_new o u r os with
                             | Ok m => k m
                             | Err e => CRet (Err e)
                             | Panic => CRet Panic
                             end).

(** [a?]-free calls that may panic. *)
Definition unres {A : Type} (r : res A) (k : A -> cprog) : cprog :=
  match r with Ok a => k a | Err e => CRet (Err e) | Panic => CRet Panic end.

(** knock.rs 40-50: the fields of [KnockSeq] that matter; [check_reply]
    (53-72) only prints warnings. *)
Record knock_seq := KnockSeq {
  kq_addr : text;
  kq_srv : res_srv;
  kq_crypt : res_crypt;
  kq_port : control_port;
  kq_user : N;
  kq_resource : N;
  kq_key : list byte
}.

(** knock.rs 75-127: [KnockSeq::knock_sequence]. *)
Definition knock_sequence (q : knock_seq) (mode : res_mode) : cprog :=
  client_new (kq_addr q) (kq_port q) (ResConf mode (kq_srv q) (kq_crypt q)) (fun r =>
    match r with
    | Panic => CRet Panic
    | Err e => CRet (Err e)
    | Ok _ =>
        client_msg Knock (kq_user q) (kq_resource q) (fun m =>
          unres (generate_auth_no_challenge mac m (kq_key q)) (fun knock =>
            client_send knock
              (recv_specific Challenge (fun challenge =>
                client_msg Response (kq_user q) (kq_resource q) (fun m2 =>
                  unres (generate_auth mac m2 (kq_key q) challenge) (fun response =>
                    client_send response
                      (recv_specific ComeIn (fun comein => CRet (Ok tt)))))))))
    end).

(** [r?] at the end of a sequence of knocks. *)
Definition and_then (p : cprog) (q : cprog) : cprog :=
  cbind p (fun r => match r with Ok _ => q | _ => CRet r end).

(** resolver.rs 74-81: [is_ipv4_addr], [is_ipv6_addr]. *)
Definition is_ipv4_addr (h : text) : bool :=
  match parse_ip h with Some a => is_ipv4 a | None => false end.
Definition is_ipv6_addr (h : text) : bool :=
  match parse_ip h with Some a => is_ipv6 a | None => false end.

(** knock.rs 196-240: the knocks of [run_knock]. *)
Definition run_modes (q : knock_seq) (am : addr_mode) : cprog :=
  match am with
  | AmTryBoth =>
      if is_ipv4_addr (kq_addr q) then knock_sequence q RmIpv4
      else if is_ipv6_addr (kq_addr q) then knock_sequence q RmIpv6
      else
        cbind (knock_sequence q RmIpv6) (fun res6 =>
          cbind (knock_sequence q RmIpv4) (fun res4 =>
            match res6, res4 with
            | Err _, Err _ => CRet res6
            | _, _ => CRet (Ok tt)
            end))
  | AmBoth => and_then (knock_sequence q RmIpv6) (knock_sequence q RmIpv4)
  | AmIpv6 => knock_sequence q RmIpv6
  | AmIpv4 => knock_sequence q RmIpv4
  end.

(** knock.rs 161-195: [run_knock] up to the knocks. *)
Definition run_knock (conf : config) (host : text) (server : knock_server)
           (knock_port : N) (user : option N) (srv : res_srv) (crypt : res_crypt) : cprog :=
  let user := match user with Some u => u | None => c_default_user conf end in
  match conf_key conf user with
  | None => CRet (Err "No key found")
  | Some key =>
      match resource_id_by_port conf knock_port (Some user) with
      | None => CRet (Err "Port is not mapped to a resource")
      | Some resource =>
          let cp := to_control_port server conf in
          run_modes (KnockSeq host srv crypt cp user resource key) (ks_addr_mode server)
      end
  end.

End Client.
