(** What nft lists, how letmeinfwd looks a rule up in it, and a maintenance run in
    its separate calls of nft: /repo/letmeinfwd/src/firewall/nftables.rs 184-276,
    402-419 and 435-447.

    In M_Firewall.v the listing is the ruleset itself and a maintenance run is one
    step.  Here the listing is a list of objects, and other programs may change the
    ruleset between the calls: [k] is the ruleset when the rules are deleted and
    [k2] the ruleset when the chain is rebuilt. *)

From Coq Require Import String NArith List Bool.
From Verif Require Import M_Base M_IpAddr M_FwProto M_ConfTypes M_Text M_Firewall.
Import ListNotations.
Local Open Scope N_scope.
Local Open Scope res_scope.

(** An object of the listing (crate nftables 0.6.1, [NfObject]).  Families are
    kept as they are written.  Statements are not looked at by letmeinfwd. *)
Inductive listed :=
| LsRule (family table chain : text) (handle : option N) (comment : option text)
| LsOther.

(** crate nftables: the names of [NfFamily]. *)
Definition family_text (f : nf_family) : text :=
  lit (match f with INet => "inet" | FIp => "ip" | FIp6 => "ip6" end).

(** nftables.rs 203-236: [find_handle]. *)
Fixpoint find_listed (objs : list listed) (c : chain_name) (a : ip) (p : single_port) : res N :=
  match objs with
  | [] => Err "Nftables 'handle' not found in the kernel ruleset."
  | LsRule family table chain (Some handle) (Some comment) :: r =>
      if list_eqb family (family_text (cn_family c))
         && list_eqb table (cn_table c)
         && list_eqb chain (cn_chain c)
         && list_eqb comment (rule_comment (Some a) p)
      then Ok handle
      else find_listed r c a p
  | _ :: r => find_listed r c a p
  end.

(** nftables.rs 240-276: [gen_delete_lease_cmds]. *)
Definition delete_listed (objs : list listed) (conf : config) (l : lease) : res (list nf_cmd) :=
  do names <- nft_names conf;
  collect (fun p => do h <- find_listed objs names (l_addr l) p; Ok (CmdDelete names h))
          (single_ports (l_port l)).

(** nftables.rs 402-419: [nftables_remove_leases]; [listing] is what
    [ListedRuleset::from_kernel] (190-199) gives, [None] if it fails. *)
Definition remove_listed (conf : config) (listing : option (list listed)) (k : kernel)
           (ls : list lease) (ok : bool) : kernel * res unit :=
  match ls with
  | [] => (k, Ok tt)
  | _ =>
      match listing with
      | Some objs =>
          match collect (delete_listed objs conf) ls with
          | Ok cmds => apply_batch k (concat cmds) ok
          | Err e => (k, Err e)
          | Panic => (k, Panic)
          end
      | None => (k, Err "Failed to list the ruleset")
      end
  end.

(** nftables.rs 435-447: [maintain]. *)
Definition maintain_listed (conf : config) (listing : option (list listed)) (k k2 : kernel) (fw : firewall)
           (now : N) (order1 order2 : list lease -> list lease) (del_ok rebuild_ok : bool)
  : kernel * firewall * res unit :=
  if fw_shutdown fw then (k, fw, Panic)
  else
    let (pruned, rest) := prune (fw_leases fw) now in
    let pruned := order1 pruned in
    let fw := Firewall rest false in
    match pruned with
    | [] => (k, fw, Ok tt)
    | _ =>
        match remove_listed conf listing k pruned del_ok with
        | (k', Ok _) => (k', fw, Ok tt)
        | (k', Panic) => (k', fw, Panic)
        | (_, Err _) =>
            let (k', r) := full_rebuild conf k2 fw order2 rebuild_ok in
            (k', fw, r)
        end
    end.
