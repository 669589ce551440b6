(** Model of the firewall part of letmeinfwd:
    /repo/letmeinfwd/src/firewall.rs, /repo/letmeinfwd/src/firewall/nftables.rs
    and the request handler of /repo/letmeinfwd/src/server.rs 41-141.

    The kernel ruleset is explicit state.  Every call of the `nft` program can
    fail; whether it does is an argument.  A failing batch changes nothing
    (nft transactions are atomic).  The JSON text passed to and from `nft` is
    not modelled, and neither are messages printed in debug mode (including
    [num_ctrl_rules], which only feeds them). *)

From Coq Require Import String NArith List Bool.
From Verif Require Import M_Base M_IpAddr M_FwProto M_ConfTypes M_Server M_Text.
Import ListNotations.
Local Open Scope N_scope.
Local Open Scope res_scope.

(** firewall.rs 16-24: [LeasePort]. *)
Inductive lease_port := LpTcp (p : N) | LpUdp (p : N) | LpTcpUdp (p : N).

(** firewall.rs 37-43: [SingleLeasePort]. *)
Inductive single_port := SpTcp (p : N) | SpUdp (p : N).

(** Derived [PartialEq] of firewall.rs 15. *)
Definition lease_port_eqb (a b : lease_port) : bool :=
  match a, b with
  | LpTcp p, LpTcp q | LpUdp p, LpUdp q | LpTcpUdp p, LpTcpUdp q => p =? q
  | _, _ => false
  end.

(** firewall.rs 67-71: the number of a [LeasePort]. *)
Definition lp_number (p : lease_port) : N :=
  match p with LpTcp p => p | LpUdp p => p | LpTcpUdp p => p end.

(** firewall.rs 45-52: [Display] for [SingleLeasePort]. *)
Definition fmt_single_port (p : single_port) : text :=
  match p with
  | SpTcp p => fmt_dec p ++ lit "/TCP"
  | SpUdp p => fmt_dec p ++ lit "/UDP"
  end.

(** firewall.rs 55-60: [Lease].  Times are in nanoseconds. *)
Record lease := Lease { l_addr : ip; l_port : lease_port; l_timeout : N }.

(** firewall.rs 64-79: [Lease::new]. *)
Definition lease_new (conf : config) (now : N) (a : ip) (p : lease_port) : res lease :=
  assert_ (negb (cp_port (c_port conf) =? lp_number p))
    (Ok (Lease a p (now + c_nft_timeout conf))).

(** firewall.rs 82-84: [refresh_timeout]. *)
Definition refresh_timeout (conf : config) (now : N) (l : lease) : lease :=
  Lease (l_addr l) (l_port l) (now + c_nft_timeout conf).

(** firewall.rs 87-89: [is_timed_out]. *)
Definition is_timed_out (l : lease) (now : N) : bool := l_timeout l <=? now.

(** firewall.rs 108-111: [LeaseId], [LeaseMap]; the list order stands for the
    iteration order. *)
Definition lease_id : Type := (ip * lease_port)%type.
Definition id_eqb (a b : lease_id) : bool :=
  ip_eqb (fst a) (fst b) && lease_port_eqb (snd a) (snd b).
Definition lease_map := list (lease_id * lease).

(** [HashMap::get_mut] of nftables.rs 461 and the update of 462. *)
Fixpoint map_update (m : lease_map) (id : lease_id) (f : lease -> lease) : option lease_map :=
  match m with
  | [] => None
  | (i, l) :: r =>
      if id_eqb i id then Some ((i, f l) :: r)
      else match map_update r id f with
           | Some r' => Some ((i, l) :: r')
           | None => None
           end
  end.

(** firewall.rs 117-133: [prune_all_lease_timeouts]: the pruned and the
    remaining leases. *)
Definition prune (m : lease_map) (now : N) : list lease * lease_map :=
  (map snd (filter (fun x => is_timed_out (snd x) now) m),
   filter (fun x => negb (is_timed_out (snd x) now)) m).

(** nftables crate: address families used here. *)
Inductive nf_family := INet | FIp | FIp6.
Definition family_eqb (a b : nf_family) : bool :=
  match a, b with INet, INet | FIp, FIp | FIp6, FIp6 => true | _, _ => false end.

(** nftables.rs 25-29: [NftNames]; it identifies a chain. *)
Record chain_name := ChainName { cn_family : nf_family; cn_table : text; cn_chain : text }.
Definition chain_eqb (a b : chain_name) : bool :=
  family_eqb (cn_family a) (cn_family b) && list_eqb (cn_table a) (cn_table b)
  && list_eqb (cn_chain a) (cn_chain b).

(** nftables.rs 32-58: [NftNames::get]. *)
Definition nft_names (conf : config) : res chain_name :=
  do fam <- (if list_eqb (c_nft_family conf) (lit "inet") then Ok INet
             else if list_eqb (c_nft_family conf) (lit "ip") then Ok FIp
             else if list_eqb (c_nft_family conf) (lit "ip6") then Ok FIp6
             else Err "Unknown nftables family");
  match c_nft_table conf with
  | [] => Err "nftables table not specified."
  | table =>
      match c_nft_chain conf with
      | [] => Err "nftables chain-input not specified."
      | chain => Ok (ChainName fam table chain)
      end
  end.

(** Statements of a rule.  [MatchSaddr false t] is [ip saddr == t],
    [MatchSaddr true t] is [ip6 saddr == t]. *)
Inductive stmt :=
| MatchSaddr (v6 : bool) (addr : text)
| MatchDport (p : single_port)
| Accept.

(** nftables.rs 62-95: [statement_match_saddr]. *)
Definition match_saddr (fam : nf_family) (a : ip) : res stmt :=
  let v4 (o : list byte) :=
    match fam with
    | INet | FIp => Ok (MatchSaddr false (fmt_ipv4 o))
    | FIp6 => Err "IP version not supported by nftables firewall family"
    end in
  match a with
  | V4 o => v4 o
  | V6 o =>
      match to_ipv4_mapped o with
      | Some m => v4 m
      | None =>
          match fam with
          | INet | FIp6 => Ok (MatchSaddr true (fmt_ipv6 o))
          | FIp => Err "IP version not supported by nftables firewall family"
          end
      end
  end.

(** nftables.rs 123-132: [gen_rule_comment]. *)
Definition rule_comment (a : option ip) (p : single_port) : text :=
  (match a with Some a => fmt_ip a | None => lit "any" end)
  ++ lit "/" ++ fmt_single_port p ++ lit "/accept/letmein/GENERATED".

(** A rule of the kernel ruleset: its chain, handle, comment and statements.
    Rules of other programs may have no comment or other statements; their
    statements are not looked at. *)
Record rule := Rule {
  r_chain : chain_name;
  r_handle : N;
  r_comment : option text;
  r_expr : list stmt
}.

(** Commands of a batch (nftables.rs 155, 256, 348). *)
Inductive nf_cmd :=
| CmdFlush (c : chain_name)
| CmdAdd (c : chain_name) (comment : text) (e : list stmt)
| CmdDelete (c : chain_name) (handle : N).

(** nftables.rs 136-156: [gen_add_lease_cmd]. *)
Definition gen_add_cmd (conf : config) (a : option ip) (p : single_port) : res nf_cmd :=
  do names <- nft_names conf;
  do saddr <- (match a with
               | Some a => do s <- match_saddr (cn_family names) a; Ok [s]
               | None => Ok []
               end);
  Ok (CmdAdd names (rule_comment a p) (saddr ++ [MatchDport p; Accept])).

(** The single ports of a lease port (nftables.rs 163-174, 260-271). *)
Definition single_ports (p : lease_port) : list single_port :=
  match p with
  | LpTcp p => [SpTcp p]
  | LpUdp p => [SpUdp p]
  | LpTcpUdp p => [SpTcp p; SpUdp p]
  end.

(** Collect results, stopping at the first error ([?] in a loop). *)
Fixpoint collect {A B : Type} (f : A -> res B) (l : list A) : res (list B) :=
  match l with
  | [] => Ok []
  | x :: r => do y <- f x; do ys <- collect f r; Ok (y :: ys)
  end.

(** nftables.rs 160-179: [gen_add_lease_cmds]. *)
Definition gen_add_cmds (conf : config) (l : lease) : res (list nf_cmd) :=
  collect (fun p => gen_add_cmd conf (Some (l_addr l)) p) (single_ports (l_port l)).

(** The kernel: existing chains, rules in order, next free handle. *)
Record kernel := Kernel {
  k_chains : list chain_name;
  k_rules : list rule;
  k_next : N
}.

Definition has_chain (k : kernel) (c : chain_name) : bool := existsb (chain_eqb c) (k_chains k).

(** Effect of one command, [None] if nft rejects it: flushing or adding to a
    chain that does not exist, deleting a rule that does not exist. *)
Definition run_cmd (k : kernel) (cmd : nf_cmd) : option kernel :=
  match cmd with
  | CmdFlush c =>
      if has_chain k c
      then Some (Kernel (k_chains k)
                        (filter (fun r => negb (chain_eqb (r_chain r) c)) (k_rules k)) (k_next k))
      else None
  | CmdAdd c comment e =>
      if has_chain k c
      then Some (Kernel (k_chains k) (k_rules k ++ [Rule c (k_next k) (Some comment) e])
                        (k_next k + 1))
      else None
  | CmdDelete c h =>
      let hit r := chain_eqb (r_chain r) c && (r_handle r =? h) in
      if existsb hit (k_rules k)
      then Some (Kernel (k_chains k) (filter (fun r => negb (hit r)) (k_rules k)) (k_next k))
      else None
  end.

Fixpoint run_cmds (k : kernel) (l : list nf_cmd) : option kernel :=
  match l with
  | [] => Some k
  | c :: r => match run_cmd k c with Some k' => run_cmds k' r | None => None end
  end.

(** nftables.rs 331-341: [nftables_apply_batch]: all or nothing.  [ok] is false
    if nft fails for another reason (cannot be executed, no permission, ...). *)
Definition apply_batch (k : kernel) (l : list nf_cmd) (ok : bool) : kernel * res unit :=
  if ok then
    match run_cmds k l with
    | Some k' => (k', Ok tt)
    | None => (k, Err "Apply nftables")
    end
  else (k, Err "Apply nftables").

(** nftables.rs 202-236: [find_handle]: the first rule of the listing with this
    chain and comment.  The listing is the kernel's ruleset. *)
Definition find_handle (k : kernel) (c : chain_name) (a : ip) (p : single_port) : res N :=
  match find (fun r => chain_eqb (r_chain r) c
                       && match r_comment r with
                          | Some x => list_eqb x (rule_comment (Some a) p)
                          | None => false
                          end) (k_rules k) with
  | Some r => Ok (r_handle r)
  | None => Err "Nftables 'handle' not found in the kernel ruleset."
  end.

(** nftables.rs 240-276: [gen_delete_lease_cmds]. *)
Definition gen_delete_cmds (k : kernel) (conf : config) (l : lease) : res (list nf_cmd) :=
  do names <- nft_names conf;
  collect (fun p => do h <- find_handle k names (l_addr l) p; Ok (CmdDelete names h))
          (single_ports (l_port l)).

(** nftables.rs 279-283: [NftFirewall]. *)
Record firewall := Firewall { fw_leases : lease_map; fw_shutdown : bool }.

(** nftables.rs 357-375: the control port rules. *)
Definition ctrl_ports (conf : config) : list single_port :=
  (if cp_tcp (c_port conf) then [SpTcp (cp_port (c_port conf))] else [])
  ++ (if cp_udp (c_port conf) then [SpUdp (cp_port (c_port conf))] else []).

(** nftables.rs 344-387: [nftables_full_rebuild].  [order] is the iteration
    order of the hash map. *)
Definition full_rebuild (conf : config) (k : kernel) (fw : firewall)
           (order : list lease -> list lease) (ok : bool) : kernel * res unit :=
  match
    (do names <- nft_names conf;
    do adds <- (if fw_shutdown fw then Ok []
                else do ctrl <- collect (gen_add_cmd conf None) (ctrl_ports conf);
                     do ls <- collect (gen_add_cmds conf) (order (map snd (fw_leases fw)));
                     Ok (ctrl ++ concat ls));
    Ok (CmdFlush names :: adds))
  with
  | Ok cmds => apply_batch k cmds ok
  | Err e => (k, Err e)
  | Panic => (k, Panic)
  end.

(** nftables.rs 288-317: [NftFirewall::new].  [exe_ok] is false if nft cannot be
    executed. *)
Definition fw_new (conf : config) (k : kernel) (exe_ok ok : bool) : kernel * res firewall :=
  if exe_ok then
    let fw := Firewall [] false in
    match full_rebuild conf k fw (fun l => l) ok with
    | (k', Ok _) => (k', Ok fw)
    | (k', Err e) => (k', Err e)
    | (k', Panic) => (k', Panic)
    end
  else (k, Err "Failed to execute the 'nft' program.").

(** nftables.rs 390-399: [nftables_add_lease]. *)
Definition add_lease (conf : config) (k : kernel) (l : lease) (ok : bool) : kernel * res unit :=
  match gen_add_cmds conf l with
  | Ok cmds => apply_batch k cmds ok
  | Err e => (k, Err e)
  | Panic => (k, Panic)
  end.

(** nftables.rs 402-419: [nftables_remove_leases].  [list_ok] is false if the
    ruleset cannot be listed. *)
Definition remove_leases (conf : config) (k : kernel) (ls : list lease) (list_ok ok : bool)
  : kernel * res unit :=
  match ls with
  | [] => (k, Ok tt)
  | _ =>
      if list_ok then
        match collect (gen_delete_cmds k conf) ls with
        | Ok cmds => apply_batch k (concat cmds) ok
        | Err e => (k, Err e)
        | Panic => (k, Panic)
        end
      else (k, Err "Failed to list the ruleset")
  end.

(** nftables.rs 424-431: [shutdown]. *)
Definition fw_shutdown_op (conf : config) (k : kernel) (fw : firewall) (ok : bool)
  : kernel * firewall * res unit :=
  if fw_shutdown fw then (k, fw, Panic)
  else
    let fw := Firewall [] true in
    let (k', r) := full_rebuild conf k fw (fun l => l) ok in
    (k', fw, r).

(** nftables.rs 435-447: [maintain].  [order1] and [order2] are iteration orders
    of the hash map. *)
Definition maintain (conf : config) (k : kernel) (fw : firewall) (now : N)
           (order1 order2 : list lease -> list lease) (list_ok del_ok rebuild_ok : bool)
  : kernel * firewall * res unit :=
  if fw_shutdown fw then (k, fw, Panic)
  else
    let (pruned, rest) := prune (fw_leases fw) now in
    let pruned := order1 pruned in
    let fw := Firewall rest false in
    match pruned with
    | [] => (k, fw, Ok tt)
    | _ =>
        match remove_leases conf k pruned list_ok del_ok with
        | (k', Ok _) => (k', fw, Ok tt)
        | (k', Panic) => (k', fw, Panic)
        | (k', Err _) =>
            let (k'', r) := full_rebuild conf k' fw order2 rebuild_ok in
            (k'', fw, r)
        end
    end.

(** nftables.rs 453-471: [open_port]. *)
Definition open_port (conf : config) (k : kernel) (fw : firewall) (now : N)
           (a : ip) (p : lease_port) (ok : bool) : kernel * firewall * res unit :=
  if fw_shutdown fw then (k, fw, Panic)
  else
    match map_update (fw_leases fw) (a, p) (refresh_timeout conf now) with
    | Some m => (k, Firewall m false, Ok tt)
    | None =>
        match lease_new conf now a p with
        | Ok l =>
            match add_lease conf k l ok with
            | (k', Ok _) => (k', Firewall (((a, p), l) :: fw_leases fw) false, Ok tt)
            | (k', Err e) => (k', fw, Err e)
            | (k', Panic) => (k', fw, Panic)
            end
        | Err e => (k, fw, Err e)
        | Panic => (k, fw, Panic)
        end
    end.

(** server.rs 45-56: [addr_check]; octets as a number. *)
Definition addr_check (a : ip) : bool :=
  match a with
  | V4 o => negb (of_be o =? 0) && negb (of_be o =? 4294967295)
  | V6 o => negb (of_be o =? 0) && negb (of_be o =? 340282366920938463463374607431768211455)
  end.

(** server.rs 118-122: the lease port of a request. *)
Definition lease_port_of (t : port_type) (p : N) : lease_port :=
  match t with PtTcp => LpTcp p | PtUdp => LpUdp p | PtTcpUdp => LpTcpUdp p end.

(** server.rs 76-141: [handle_message].  [r] is the received message buffer (or
    error or disconnect), [now] the time of the clock and [ok] the success of
    nft in [open_port], [send_ok] the success of sending the reply.  The result
    also contains the reply, if one is attempted. *)
Definition handle_message (conf : config) (k : kernel) (fw : firewall)
           (r : fw_rx_result) (now : N) (ok send_ok : bool)
  : kernel * firewall * option fw_message * res unit :=
  let reply m e := (k, fw, Some m, if send_ok then e else Err "send") in
  match r with
  | FwRxErr => (k, fw, None, Err "recv")
  | FwRxNone => (k, fw, None, Err "Disconnected.")
  | FwRxBuf b =>
      match fw_deserialize b with
      | Panic => (k, fw, None, Panic)
      | Err e => (k, fw, None, Err e)
      | Ok msg =>
          match f_op msg with
          | FwAck | FwNack => (k, fw, None, Err "Received invalid message")
          | FwOpen =>
              match fw_addr msg with
              | None => reply fw_new_nack (Err "No addr.")
              | Some a =>
                  if negb (addr_check a) then reply fw_new_nack (Err "Invalid addr.")
                  else
                    match fw_port msg with
                    | None => reply fw_new_nack (Err "No port.")
                    | Some (pt, port) =>
                        match resource_id_by_port conf port None with
                        | None => reply fw_new_nack (Err "The port is not configured")
                        | Some _ =>
                            if port =? cp_port (c_port conf)
                            then reply fw_new_nack (Err "control port")
                            else
                              match open_port conf k fw now a (lease_port_of pt port) ok with
                              | (k', fw', Ok _) =>
                                  (k', fw', Some fw_new_ack,
                                   if send_ok then Ok tt else Err "send")
                              | (k', fw', Err _) =>
                                  (k', fw', Some fw_new_nack,
                                   if send_ok then Ok tt else Err "send")
                              | (k', fw', Panic) => (k', fw', None, Panic)
                              end
                        end
                    end
              end
          end
      end
  end.

(** What can happen to the daemon after its start (main.rs 214-306).  The lock of
    the firewall object makes each of these atomic: a message on an accepted
    connection, a maintenance run, the final shutdown; and other programs
    editing chains that are not letmein's ([FwExternal]). *)
Inductive fw_event :=
| FwMessage (r : fw_rx_result) (now : N) (ok send_ok : bool)
| FwMaintain (now : N) (order1 order2 : list lease -> list lease) (list_ok del_ok rebuild_ok : bool)
| FwShutdown (ok : bool)
| FwExternal (k : kernel).

(** main.rs: a failed maintenance run ends the maintenance task and makes the
    main task shut down; messages that already wait for the lock may still be
    handled before.  [PhDead] is a panic. *)
Inductive fw_phase := PhRun | PhFatal | PhDown | PhDead.

Record daemon := Daemon {
  d_kernel : kernel;
  d_fw : firewall;
  d_phase : fw_phase
}.

Definition next_phase (r : res unit) (ok err : fw_phase) : fw_phase :=
  match r with Ok _ => ok | Err _ => err | Panic => PhDead end.

(** One step; [None] if the event cannot happen in this phase.  The reply to a
    message is returned as well. *)
Definition fw_step (conf : config) (d : daemon) (ev : fw_event)
  : option (daemon * option fw_message) :=
  match ev, d_phase d with
  | FwMessage r now ok send_ok, (PhRun | PhFatal) as ph =>
      let '(k, fw, reply, res) := handle_message conf (d_kernel d) (d_fw d) r now ok send_ok in
      Some (Daemon k fw (next_phase res ph ph), reply)
  | FwMaintain now o1 o2 lok dok rok, PhRun =>
      let '(k, fw, res) := maintain conf (d_kernel d) (d_fw d) now o1 o2 lok dok rok in
      Some (Daemon k fw (next_phase res PhRun PhFatal), None)
  | FwShutdown ok, (PhRun | PhFatal) =>
      let '(k, fw, res) := fw_shutdown_op conf (d_kernel d) (d_fw d) ok in
      Some (Daemon k fw (next_phase res PhDown PhDown), None)
  | FwExternal k, ph => Some (Daemon k (d_fw d) ph, None)
  | _, _ => None
  end.

Fixpoint fw_run (conf : config) (d : daemon) (evs : list fw_event)
  : option (daemon * list (option fw_message)) :=
  match evs with
  | [] => Some (d, [])
  | ev :: r =>
      match fw_step conf d ev with
      | None => None
      | Some (d', reply) =>
          match fw_run conf d' r with
          | None => None
          | Some (d'', replies) => Some (d'', reply :: replies)
          end
      end
  end.

(** main.rs 192: start. *)
Definition fw_start (conf : config) (k : kernel) (exe_ok ok : bool) : kernel * res daemon :=
  match fw_new conf k exe_ok ok with
  | (k', Ok fw) => (k', Ok (Daemon k' fw PhRun))
  | (k', Err e) => (k', Err e)
  | (k', Panic) => (k', Panic)
  end.
