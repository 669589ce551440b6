(** Specification of the configuration file format, independent of the parser. *)

From Coq Require Import String NArith List Bool.
From Verif Require Import M_ConfTypes M_Text S_Text.
Import ListNotations.
Local Open Scope N_scope.

(** *** The ini format *)

(** A line without meaning: blank, or a comment. *)
Definition ignored_line (l : text) : Prop :=
  blank l \/ exists w r, l = w ++ 35 :: r /\ blank w.
(** "[name]" with white space around. *)
Definition header_line (l name : text) : Prop :=
  exists w1 w2, l = w1 ++ 91 :: name ++ 93 :: w2 /\ blank w1 /\ blank w2.
(** "name = value": the name is what is before the first '=' without the white
    space around; it does not look like a comment or a section header.  The value
    is everything after the '='. *)
Definition option_line (l name value : text) : Prop :=
  exists w1 w2, l = w1 ++ name ++ w2 ++ 61 :: value /\ blank w1 /\ blank w2 /\ tight name
    /\ ~ In 61 name /\ (exists c r, name = c :: r /\ c <> 35 /\ c <> 91).

(** A file is well-formed if each line is one of these, no header is empty or
    repeated, and the first line with a meaning is a header. *)
Definition well_formed (ls : list text) : Prop :=
  (forall l, In l ls -> ignored_line l \/ (exists n, header_line l n /\ n <> []) \/ exists n v, option_line l n v)
  /\ (forall a b c l m n, ls = a ++ l :: b ++ m :: c -> header_line l n -> ~ header_line m n)
  /\ (forall a l c n v, ls = a ++ l :: c -> option_line l n v -> exists h m, In h a /\ header_line h m).

(** [has_option ls s o v]: section [s] sets option [o] to [v], and this is the
    last time it is set in this section. *)
Definition sets_option (ls : list text) (s o v : text) (rest : list text) : Prop :=
  exists pre h mid l, ls = pre ++ h :: mid ++ l :: rest
    /\ header_line h s /\ option_line l o v
    /\ forall m n, In m mid -> ~ header_line m n.
Definition has_option (ls : list text) (s o v : text) : Prop :=
  exists rest, sets_option ls s o v rest
    /\ forall a l b v', rest = a ++ l :: b -> option_line l o v' -> exists h n, In h a /\ header_line h n.

(** *** Values *)

(** A key: 64 hexadecimal digits that are neither all 0 nor all F. *)
Definition key_text (t : text) (k : list N) : Prop :=
  exists body, padded t body /\ hex_bytes body k /\ length k = 32%nat
    /\ k <> repeat 0 32 /\ k <> repeat 255 32.

(** A list of transports. *)
Inductive transport := TrTcp | TrUdp.
Definition transport_word (t : text) (x : transport) : Prop :=
  match x with TrTcp => word_is "tcp" t | TrUdp => word_is "udp" t end.
Definition transports_text (t : text) (l : list transport) : Prop :=
  exists ws, separated 44 t ws /\ Forall2 transport_word ws l.

(** One part of a resource. *)
Inductive resource_part :=
| PartPort (n : N)
| PartUsers (ids : list N)
| PartTransports (l : list transport).
Definition keyed (t : text) (key : string) (value : text) : Prop :=
  exists k, t = k ++ 58 :: value /\ ~ In 58 k /\ padded k (lit key).
Definition part_text (t : text) (p : resource_part) : Prop :=
  match p with
  | PartPort n => exists v, keyed t "port" v /\ int_text 65536 v n
  | PartUsers ids => exists v us, keyed t "users" v /\ separated 44 v us /\ Forall2 id_text us ids
  | PartTransports l => ~ In 58 t /\ transports_text t l
  end.
Definition part_ports (ps : list resource_part) : list N :=
  flat_map (fun p => match p with PartPort n => [n] | _ => [] end) ps.
Definition part_users (ps : list resource_part) : list (list N) :=
  flat_map (fun p => match p with PartUsers u => [u] | _ => [] end) ps.
Definition part_transports (ps : list resource_part) : list transport :=
  flat_map (fun p => match p with PartTransports l => l | _ => [] end) ps.

(** A resource: parts separated by '/'; exactly one port, at most one list of
    users; TCP if no transport is given. *)
Definition resource_text (t : text) (r : resource) : Prop :=
  exists ts ps, separated 47 t ts /\ Forall2 part_text ts ps
    /\ part_ports ps = [rs_port r]
    /\ ((part_users ps = [] /\ rs_users r = []) \/ part_users ps = [rs_users r])
    /\ (rs_tcp r = true <-> In TrTcp (part_transports ps) \/ part_transports ps = [])
    /\ (rs_udp r = true <-> In TrUdp (part_transports ps)).

(** The control port: plain numbers (the last one counts) and transports. *)
Inductive port_part := PPort (n : N) | PTransports (l : list transport).
Definition plain_int_text (bound : N) (t : text) (v : N) : Prop :=
  exists body, padded t body /\ v < bound
    /\ ((body <> [] /\ numeral 10 body v)
        \/ exists h, body = lit "0x" ++ h /\ h <> [] /\ numeral 16 h v).
Definition port_part_text (t : text) (p : port_part) : Prop :=
  ~ In 58 t /\
  match p with
  | PPort n => ~ In 44 t /\ plain_int_text 65536 t n
  | PTransports l => transports_text t l
  end.
Definition pp_ports (ps : list port_part) : list N :=
  flat_map (fun p => match p with PPort n => [n] | _ => [] end) ps.
Definition pp_transports (ps : list port_part) : list transport :=
  flat_map (fun p => match p with PTransports l => l | _ => [] end) ps.
Definition control_port_text (t : text) (c : control_port) : Prop :=
  exists ts ps, separated 47 t ts /\ Forall2 port_part_text ts ps
    /\ cp_port c = last (pp_ports ps) 5800
    /\ (cp_tcp c = true <-> In TrTcp (pp_transports ps) \/ pp_transports ps = [])
    /\ (cp_udp c = true <-> In TrUdp (pp_transports ps)).

Definition bool_text (t : text) (b : bool) : Prop :=
  if b then word_is "true" t \/ word_is "1" t \/ word_is "yes" t \/ word_is "on" t
  else word_is "false" t \/ word_is "0" t \/ word_is "no" t \/ word_is "off" t.
Definition policy_text (t : text) (p : error_policy) : Prop :=
  match p with
  | PolAlways => word_is "always" t
  | PolBasicAuth => word_is "basic-auth" t
  | PolFullAuth => word_is "full-auth" t
  end.
Definition seccomp_text (t : text) (m : seccomp_mode) : Prop :=
  match m with
  | ScOff => word_is "off" t
  | ScLog => word_is "log" t
  | ScKill => word_is "kill" t
  end.
Definition family_text (t body : text) : Prop :=
  padded t body /\ (body = lit "inet" \/ body = lit "ip" \/ body = lit "ip6").

(** A duration: whole seconds, or what [fraction] makes of any other text;
    in nanoseconds. *)
Definition duration_text (fraction : text -> option N) (t : text) (ns : N) : Prop :=
  (exists s, int_text 4294967296 t s /\ ns = s * 1000000000)
  \/ ((forall s, ~ int_text 4294967296 t s) /\ exists body, padded t body /\ fraction body = Some ns).

(** *** The whole file *)

(** An option with a default value. *)
Definition setting {A : Type} (ls : list text) (s o : string) (means : text -> A -> Prop) (default : A)
           (x : A) : Prop :=
  (exists v, has_option ls (lit s) (lit o) v /\ means v x)
  \/ ((forall v, ~ has_option ls (lit s) (lit o) v) /\ x = default).

(** A section that is a table: every option is an entry, no two options denote
    the same identifier. *)
Definition table {A : Type} (ls : list text) (s : string) (means : text -> A -> Prop) (lookup : N -> option A)
  : Prop :=
  (forall o v, has_option ls (lit s) o v -> exists id x, id_text o id /\ means v x)
  /\ (forall o1 o2 v1 v2 id, has_option ls (lit s) o1 v1 -> has_option ls (lit s) o2 v2 ->
        id_text o1 id -> id_text o2 id -> o1 = o2)
  /\ (forall id x, lookup id = Some x <-> exists o v, has_option ls (lit s) o v /\ id_text o id /\ means v x).

(** [duration]: what duration texts mean, in nanoseconds. *)
Record configures (duration : text -> N -> Prop) (ls : list text) (c : config) : Prop := {
  cf_debug : setting ls "GENERAL" "debug" bool_text false (c_debug c);
  cf_port : setting ls "GENERAL" "port" control_port_text (ControlPort 5800 true false) (c_port c);
  cf_timeout : setting ls "GENERAL" "control-timeout" duration 5000000000 (c_control_timeout c);
  cf_policy : setting ls "GENERAL" "control-error-policy" policy_text PolAlways (c_policy c);
  cf_seccomp : setting ls "GENERAL" "seccomp" seccomp_text ScOff (c_seccomp c);
  cf_keys : table ls "KEYS" key_text (conf_key c);
  cf_resources : table ls "RESOURCES" resource_text (conf_resource c);
  cf_ports : forall i j r r', conf_resource c i = Some r -> conf_resource c j = Some r' ->
    rs_port r = rs_port r' -> i = j;
  cf_client : c_variant c = VarClient ->
    setting ls "CLIENT" "default-user" id_text 0 (c_default_user c);
  cf_server : c_variant c = VarServer ->
    c_default_user c = 0
    /\ setting ls "NFTABLES" "exe" padded (lit "nft") (c_nft_exe c)
    /\ setting ls "NFTABLES" "family" family_text [] (c_nft_family c)
    /\ setting ls "NFTABLES" "table" padded [] (c_nft_table c)
    /\ setting ls "NFTABLES" "chain-input" padded [] (c_nft_chain c)
    /\ setting ls "NFTABLES" "timeout" duration 600000000000 (c_nft_timeout c)
}.

(** Two configurations that cannot be told apart. *)
Definition same_config (a b : config) : Prop :=
  c_variant a = c_variant b /\ c_debug a = c_debug b /\ c_port a = c_port b
  /\ c_control_timeout a = c_control_timeout b /\ c_policy a = c_policy b /\ c_seccomp a = c_seccomp b
  /\ (forall id, conf_key a id = conf_key b id)
  /\ (forall id, conf_resource a id = conf_resource b id)
  /\ c_default_user a = c_default_user b
  /\ (c_variant a = VarServer ->
      c_nft_exe a = c_nft_exe b /\ c_nft_family a = c_nft_family b /\ c_nft_table a = c_nft_table b
      /\ c_nft_chain a = c_nft_chain b /\ c_nft_timeout a = c_nft_timeout b).

(** What the file says, if it can be read and is UTF-8. *)
Definition file_lines (file : option (list N)) (ls : list text) : Prop :=
  exists bytes t, file = Some bytes /\ utf8 bytes t /\ lines_of t ls.

(** The configuration with one more key. *)
Definition with_key (c : config) (u : N) (key : list N) : config :=
  Config (c_variant c) (c_path c) (c_debug c) (c_port c) (c_control_timeout c) (c_policy c)
         (c_seccomp c) ((u, key) :: c_keys c) (c_resources c) (c_default_user c) (c_nft_exe c)
         (c_nft_family c) (c_nft_table c) (c_nft_chain c) (c_nft_timeout c).

(** The line after [pre] belongs to section [s]. *)
Definition in_section (pre : list text) (s : text) : Prop :=
  exists a h mid, pre = a ++ h :: mid /\ header_line h s /\ forall m n, In m mid -> ~ header_line m n.
