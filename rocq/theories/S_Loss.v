(** Histories of the firewall daemon in which other programs may take rules out of
    letmein's chain: single rules are deleted, the chain is flushed or removed, or
    the whole ruleset is reloaded. *)

From Coq Require Import String NArith List Bool Permutation.
From Verif Require Import M_Base M_IpAddr M_FwProto M_ConfTypes M_Server M_Text M_Firewall S_Wire S_Ip S_Firewall.
Import ListNotations.
Local Open Scope N_scope.

(** What others may do to the ruleset: every rule of the chain that is there
    afterwards was there before, with the same handle, comment and statements, and
    rules are not multiplied; the order may change.  New rules get new handles,
    unless the chain is empty (a reload of the ruleset starts counting again).
    All other chains, and the existence of this one, are unconstrained. *)
Definition removes_only (c : chain_name) (k k' : kernel) : Prop :=
  (exists gone, Permutation (rules_of c k) (rules_of c k' ++ gone))
  /\ (k_next k <= k_next k' \/ rules_of c k' = []).

Definition lossy_event (c : chain_name) (d : daemon) (ev : fw_event) : Prop :=
  match ev with
  | FwExternal k => removes_only c (d_kernel d) k
  | _ => event_ok c d ev
  end.

(** As [history], with such steps of others. *)
Inductive lossy_history (conf : config) (c : chain_name) : daemon -> hist -> Prop :=
| lossy_start : forall k exe_ok ok k' d,
    configured_chain conf c ->
    fw_start conf k exe_ok ok = (k', Ok d) -> lossy_history conf c d []
| lossy_step : forall d h ev d' reply,
    lossy_history conf c d h -> lossy_event c d ev -> fw_step conf d ev = Some (d', reply) ->
    lossy_history conf c d' (h ++ [(ev, reply)]).

(** A rule with this comment and these statements is in the chain. *)
Definition in_chain (c : chain_name) (k : kernel) (w : option text * list stmt) : Prop :=
  In w (map content (rules_of c k)).
