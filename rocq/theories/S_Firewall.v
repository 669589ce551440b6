(** Specification vocabulary for the firewall daemon: packets, what a rule
    accepts, requests, histories. *)

From Coq Require Import String NArith List Bool Permutation.
From Verif Require Import M_Base M_IpAddr M_FwProto M_ConfTypes M_Server M_Text M_Firewall S_Wire S_Ip.
Import ListNotations.
Local Open Scope N_scope.

(** The chain that the configuration names. *)
Definition configured_chain (conf : config) (c : chain_name) : Prop :=
  cn_table c = c_nft_table conf /\ cn_table c <> []
  /\ cn_chain c = c_nft_chain conf /\ cn_chain c <> []
  /\ c_nft_family conf = lit (match cn_family c with
                              | INet => "inet" | FIp => "ip" | FIp6 => "ip6" end)%string.

(** The rules of a chain, in order, and the rules of all other chains. *)
Definition rules_of (c : chain_name) (k : kernel) : list rule :=
  filter (fun r => chain_eqb (r_chain r) c) (k_rules k).
Definition rules_elsewhere (c : chain_name) (k : kernel) : list rule :=
  filter (fun r => negb (chain_eqb (r_chain r) c)) (k_rules k).

(** *** Packets *)

Inductive transport := Tcp | Udp.
Record packet := Packet { pk_src : ip; pk_transport : transport; pk_dport : N }.

(** Which packets a chain sees: an [ip] table only IPv4, an [ip6] table only
    IPv6, an [inet] table both. *)
Definition traverses (c : chain_name) (pk : packet) : Prop :=
  match cn_family c, pk_src pk with
  | INet, _ => True
  | FIp, V4 _ => True
  | FIp6, V6 _ => True
  | _, _ => False
  end.

(** nft's meaning of a match: the packet comes from the address that the text
    denotes. *)
Definition matches (pk : packet) (s : stmt) : Prop :=
  match s with
  | MatchSaddr false t => exists o, pk_src pk = V4 o /\ ipv4_text t o
  | MatchSaddr true t => exists o, pk_src pk = V6 o /\ ipv6_text t o
  | MatchDport (SpTcp p) => pk_transport pk = Tcp /\ pk_dport pk = p
  | MatchDport (SpUdp p) => pk_transport pk = Udp /\ pk_dport pk = p
  | Accept => True
  end.

(** Statements are evaluated from left to right; a failing match ends the
    evaluation of the rule. *)
Fixpoint expr_accepts (pk : packet) (e : list stmt) : Prop :=
  match e with
  | [] => False
  | Accept :: _ => True
  | s :: r => matches pk s /\ expr_accepts pk r
  end.

Definition chain_accepts (k : kernel) (c : chain_name) (pk : packet) : Prop :=
  traverses c pk /\ exists r, In r (k_rules k) /\ r_chain r = c /\ expr_accepts pk (r_expr r).

(** The packet goes to the control port with a configured transport. *)
Definition to_control_port (conf : config) (pk : packet) : Prop :=
  pk_dport pk = cp_port (c_port conf)
  /\ match pk_transport pk with Tcp => cp_tcp (c_port conf) | Udp => cp_udp (c_port conf) end = true.

(** [a] and the packet source [src] are the same host: IPv4-mapped IPv6
    addresses count as IPv4. *)
Definition mapped_prefix : list N := [0;0;0;0;0;0;0;0;0;0;255;255].
Definition same_host (a src : ip) : Prop :=
  (exists o, length o = 4%nat /\ a = V6 (mapped_prefix ++ o) /\ src = V4 o)
  \/ (src = a /\ forall o, length o = 4%nat -> a <> V6 (mapped_prefix ++ o)).

(** The ports and transports a request is about. *)
Definition port_covers (t : port_type) (port : N) (pk : packet) : Prop :=
  pk_dport pk = port
  /\ match t, pk_transport pk with
     | PtTcp, Tcp | PtUdp, Udp | PtTcpUdp, _ => True
     | _, _ => False
     end.

(** *** Requests *)

(** [b] is the encoding of a request to open port [port] with transport(s) [t]
    for address [a]. *)
Definition asks (b : list N) (a : ip) (t : port_type) (port : N) : Prop :=
  exists m, fw_layout b m /\ f_op m = FwOpen /\ f_port_type m = t /\ f_port m = port
            /\ a = match f_addr_type m with
                   | AtIpv4 => V4 (skipn 12 (f_addr m))
                   | AtIpv6 => V6 (f_addr m)
                   end.

(** Addresses and ports the daemon may open. *)
Definition plausible_address (a : ip) : Prop :=
  match a with
  | V4 o | V6 o => (exists x, In x o /\ x <> 0) /\ (exists x, In x o /\ x <> 255)
  end.
Definition permitted_port (conf : config) (port : N) : Prop :=
  port <> cp_port (c_port conf) /\ exists id r, In (id, r) (c_resources conf) /\ rs_port r = port.

(** *** Histories *)

(** Steps of other programs leave letmein's chain alone and handles are not
    reused. *)
Definition foreign (c : chain_name) (k k' : kernel) : Prop :=
  rules_of c k' = rules_of c k /\ k_next k <= k_next k'.

Definition event_ok (c : chain_name) (d : daemon) (ev : fw_event) : Prop :=
  match ev with
  | FwMessage (FwRxBuf b) _ _ _ => all_bytes b
  | FwMessage _ _ _ _ => True
  | FwMaintain _ o1 o2 _ _ _ => (forall l, Permutation (o1 l) l) /\ (forall l, Permutation (o2 l) l)
  | FwShutdown _ => True
  | FwExternal k => foreign c (d_kernel d) k
  end.

Definition hist := list (fw_event * option fw_message).

(** [history conf c d h]: the daemon started with configuration [conf], whose
    chain is [c], on some ruleset; [h] happened and it is now in state [d]. *)
Inductive history (conf : config) (c : chain_name) : daemon -> hist -> Prop :=
| hist_start : forall k exe_ok ok k' d,
    configured_chain conf c ->
    fw_start conf k exe_ok ok = (k', Ok d) -> history conf c d []
| hist_step : forall d h ev d' reply,
    history conf c d h -> event_ok c d ev -> fw_step conf d ev = Some (d', reply) ->
    history conf c d' (h ++ [(ev, reply)]).

(** The daemon still handles requests (it has not been shut down). *)
Definition serving (d : daemon) : Prop := d_phase d = PhRun \/ d_phase d = PhFatal.

(** The chain's address family can match packets of host [a]. *)
Definition family_fits (c : chain_name) (a : ip) : Prop :=
  exists src, same_host a src /\ traverses c (Packet src Tcp 0).

(** An acknowledged request at time [t]. *)
Definition acked (x : fw_event * option fw_message) (t : N) (a : ip) (pt : port_type) (port : N)
  : Prop :=
  exists b ok send_ok, x = (FwMessage (FwRxBuf b) t ok send_ok, Some fw_new_ack) /\ asks b a pt port.

(** The clock never runs backwards during the history. *)
Definition event_time (ev : fw_event) : option N :=
  match ev with
  | FwMessage _ t _ _ => Some t
  | FwMaintain t _ _ _ _ _ => Some t
  | _ => None
  end.
Definition clock_monotone (h : hist) : Prop :=
  forall p x q y r t u, h = p ++ x :: q ++ y :: r ->
  event_time (fst x) = Some t -> event_time (fst y) = Some u -> t <= u.

(** A request acknowledged at [t] whose lease time is not over at any later
    maintenance run. *)
Definition live_grant (conf : config) (h : hist) (a : ip) (pt : port_type) (port : N) : Prop :=
  exists pre x post t, h = pre ++ x :: post /\ acked x t a pt port
    /\ forall now o1 o2 b1 b2 b3 reply,
       In (FwMaintain now o1 o2 b1 b2 b3, reply) post -> now < t + c_nft_timeout conf.

(** A request acknowledged at any time. *)
Definition granted (h : hist) (a : ip) (pt : port_type) (port : N) : Prop :=
  exists x t, In x h /\ acked x t a pt port.

(** *** Rules of a lease *)

(** Comment and statements of the rules for the control port and for a lease. *)
Definition content (r : rule) : option text * list stmt := (r_comment r, r_expr r).

Definition source_match (a : ip) : stmt :=
  match a with
  | V4 o => MatchSaddr false (fmt_ipv4 o)
  | V6 o => match to_ipv4_mapped o with
            | Some v => MatchSaddr false (fmt_ipv4 v)
            | None => MatchSaddr true (fmt_ipv6 o)
            end
  end.

Definition control_contents (conf : config) : list (option text * list stmt) :=
  let p := cp_port (c_port conf) in
  (if cp_tcp (c_port conf)
   then [(Some (lit "any/" ++ fmt_dec p ++ lit "/TCP/accept/letmein/GENERATED"),
          [MatchDport (SpTcp p); Accept])] else [])
  ++ (if cp_udp (c_port conf)
      then [(Some (lit "any/" ++ fmt_dec p ++ lit "/UDP/accept/letmein/GENERATED"),
             [MatchDport (SpUdp p); Accept])] else []).

Definition lease_contents (l : lease) : list (option text * list stmt) :=
  let tcp p := (Some (fmt_ip (l_addr l) ++ lit "/" ++ fmt_dec p
                      ++ lit "/TCP/accept/letmein/GENERATED"),
                [source_match (l_addr l); MatchDport (SpTcp p); Accept]) in
  let udp p := (Some (fmt_ip (l_addr l) ++ lit "/" ++ fmt_dec p
                      ++ lit "/UDP/accept/letmein/GENERATED"),
                [source_match (l_addr l); MatchDport (SpUdp p); Accept]) in
  match l_port l with
  | LpTcp p => [tcp p]
  | LpUdp p => [udp p]
  | LpTcpUdp p => [tcp p; udp p]
  end.

(** The current leases. *)
Definition leases (d : daemon) : list lease := map snd (fw_leases (d_fw d)).

(** The chain contains exactly the control rules and the lease rules. *)
Definition mirrors (conf : config) (c : chain_name) (d : daemon) : Prop :=
  Permutation (map content (rules_of c (d_kernel d)))
              (control_contents conf ++ flat_map lease_contents (leases d)).
