(** Specification vocabulary for the client. *)

From Coq Require Import NArith List Bool.
From Verif Require Import M_Base M_Proto M_IpAddr M_ConfTypes M_Server M_Client S_Wire S_Session.
Import ListNotations.
Local Open Scope N_scope.

(** DNS services in the documented order of preference: the operating system
    first, then encrypted public services, unencrypted ones last. *)
Definition preference : list dns_service :=
  [DnsSystem;
   DnsPublic Quad9 OverTls; DnsPublic Google OverTls; DnsPublic Cloudflare OverTls;
   DnsPublic Quad9 OverHttps; DnsPublic Google OverHttps; DnsPublic Cloudflare OverHttps;
   DnsPublic Quad9 Unencrypted; DnsPublic Google Unencrypted; DnsPublic Cloudflare Unencrypted].

Definition provider_on (sv : res_srv) (p : dns_provider) : bool :=
  match p with Quad9 => sv_quad9 sv | Google => sv_google sv | Cloudflare => sv_cloudflare sv end.
Definition transport_on (cr : res_crypt) (t : dns_transport) : bool :=
  match t with
  | OverTls => cr_tls cr | OverHttps => cr_https cr | Unencrypted => cr_unencrypted cr
  end.

(** The user has enabled this service. *)
Definition enabled (sv : res_srv) (cr : res_crypt) (s : dns_service) : bool :=
  match s with
  | DnsSystem => sv_system sv
  | DnsPublic p t => provider_on sv p && transport_on cr t
  end.

(** The address has the requested family. *)
Definition family_ok (mode : res_mode) (a : ip) : Prop :=
  match mode, a with
  | RmIpv4, V4 _ => True
  | RmIpv6, V6 _ => True
  | _, _ => False
  end.

(** The first record of the requested family. *)
Inductive first_record : res_mode -> list rdata -> ip -> Prop :=
| fr_6 : forall o l, first_record RmIpv6 (RAAAA o :: l) (V6 o)
| fr_4 : forall o l, first_record RmIpv4 (RA o :: l) (V4 o)
| fr_skip6 : forall x l a, (forall o, x <> RAAAA o) -> first_record RmIpv6 l a ->
    first_record RmIpv6 (x :: l) a
| fr_skip4 : forall x l a, (forall o, x <> RA o) -> first_record RmIpv4 l a ->
    first_record RmIpv4 (x :: l) a.

(** The lookups of an execution. *)
Definition query_event (mode : res_mode) (q : dns_service * lookup_result) : cevent :=
  CeLookup (fst q) mode (snd q).

(** The bytes on the wire of a message the client sends. *)
Definition wire (m : message) (b : list N) : Prop := msg_serialize m = Ok b.

(** The exchange of a complete knock over an open connection. *)
Inductive full_exchange (mac : list N -> list N -> list N) (key : list N) (user resource : N)
  : list cevent -> Prop :=
| full_exchange_intro : forall os1 d1 knock kb d2 cb cu cr cs nonce os2 d3 resp rb d4 ib iu ir is ia,
    wire knock kb -> valid_knock mac key user resource kb ->
    wire_layout cb Challenge cu cr cs nonce ->
    wire resp rb -> valid_response mac key user resource nonce rb ->
    wire_layout ib ComeIn iu ir is ia ->
    full_exchange mac key user resource
      [CeRand 8 os1; CeSend d1 knock TxOk; CeRecv d2 (RxBuf cb);
       CeRand 8 os2; CeSend d3 resp TxOk; CeRecv d4 (RxBuf ib)].

(** The operating system generator works. *)
Definition c_good_random (ev : cevent) : Prop :=
  match ev with
  | CeRand sz (Some b) => forall c, b <> repeat c sz
  | CeRand _ None => False
  | _ => True
  end.

(** The identity the client knocks with is well formed. *)
Definition sane_identity (q : knock_seq) : Prop :=
  length (kq_key q) = 32%nat /\ kq_user q < 2 ^ 32 /\ kq_resource q < 2 ^ 32.

(** Exactly one transport is selected. *)
Definition one_transport (cp : control_port) : Prop := cp_tcp cp = negb (cp_udp cp).

(** What the client waits for after the events [pre]: the first message must be
    the challenge, the second one ComeIn. *)
Fixpoint expected (pre : list cevent) : operation :=
  match pre with
  | [] => Challenge
  | CeRecv _ _ :: _ => ComeIn
  | _ :: l => expected l
  end.

(** [r] is a received message with operation [o]. *)
Definition received (o : operation) (r : rx_result) : Prop :=
  exists b u res s a, r = RxBuf b /\ wire_layout b o u res s a.

(** The knock over one address family, executed to its end. *)
Definition attempt (T : N) (p : cprog) (tr : list cevent) (r : res unit) : Prop :=
  crun T p tr (CRet r).

(** Outcome of the knock command, in terms of the outcomes of the knocks over
    IPv6 ([p6]) and IPv4 ([p4]).  [literal] is the address if the host argument
    is a literal address; the two flags are the options --ipv4 and --ipv6. *)
Inductive outcome (T : N) (p6 p4 : cprog) (literal : option ip)
  : bool -> bool -> list cevent -> res unit -> Prop :=
| oc_name : forall t6 t4 r6 r4 r,
    literal = None -> attempt T p6 t6 r6 -> attempt T p4 t4 r4 ->
    (r = Ok tt <-> r6 = Ok tt \/ r4 = Ok tt) ->
    outcome T p6 p4 literal false false (t6 ++ t4) r
| oc_raw4 : forall o t r, literal = Some (V4 o) -> attempt T p4 t r ->
    outcome T p6 p4 literal false false t r
| oc_raw6 : forall o t r, literal = Some (V6 o) -> attempt T p6 t r ->
    outcome T p6 p4 literal false false t r
| oc_both : forall t6 t4 r, attempt T p6 t6 (Ok tt) -> attempt T p4 t4 r ->
    outcome T p6 p4 literal true true (t6 ++ t4) r
| oc_both_fail : forall t6 r, attempt T p6 t6 r -> r <> Ok tt ->
    outcome T p6 p4 literal true true t6 r
| oc_only4 : forall t r, attempt T p4 t r -> outcome T p6 p4 literal true false t r
| oc_only6 : forall t r, attempt T p6 t r -> outcome T p6 p4 literal false true t r.

(** The knock that the command line and the configuration ask for. *)
Record knock_for (conf : config) (host : text) (port : N) (user : option N)
       (srv : res_srv) (crypt : res_crypt) (q : knock_seq) : Prop := {
  kf_addr : kq_addr q = host;
  kf_srv : kq_srv q = srv;
  kf_crypt : kq_crypt q = crypt;
  kf_user : kq_user q = match user with Some u => u | None => c_default_user conf end;
  kf_key : In (kq_user q, kq_key q) (c_keys conf);
  kf_resource : exists rs, In (kq_resource q, rs) (c_resources conf) /\ rs_port rs = port
                  /\ (rs_users rs = [] \/ In (kq_user q) (rs_users rs))
}.
