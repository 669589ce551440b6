(** Histories of the firewall daemon in which other programs act also between the
    calls of nft that make up one maintenance run. *)

From Coq Require Import String NArith List Bool Permutation.
From Verif Require Import M_Base M_IpAddr M_FwProto M_ConfTypes M_Server M_Text M_Firewall M_Listing
  S_Wire S_Ip S_Firewall S_Loss.
Import ListNotations.
Local Open Scope N_scope.

(** The entry of a listing for a rule. *)
Definition entry (r : rule) : listed :=
  LsRule (family_text (cn_family (r_chain r))) (cn_table (r_chain r)) (cn_chain (r_chain r))
         (Some (r_handle r)) (r_comment r).

(** The entries of one chain, in the order of the listing. *)
Definition of_chain (c : chain_name) (x : listed) : bool :=
  match x with
  | LsRule f t n _ _ =>
      list_eqb f (family_text (cn_family c)) && list_eqb t (cn_table c) && list_eqb n (cn_chain c)
  | LsOther => false
  end.

(** A listing shows the rules of each chain in their order; the chains may come in
    any order, with any other objects before, between and after them. *)
Definition shows (objs : list listed) (k : kernel) : Prop :=
  forall c, filter (of_chain c) objs = map entry (rules_of c k).

Definition listing_of (listing : option (list listed)) (k : kernel) : Prop :=
  match listing with Some objs => shows objs k | None => True end.

Definition listed_ok (listing : option (list listed)) : bool :=
  match listing with Some _ => true | None => false end.

(** As [lossy_history]; in addition others may take rules out of the chain after
    the ruleset was listed and after the attempt to delete rules. *)
Inductive racy_history (conf : config) (c : chain_name) : daemon -> hist -> Prop :=
| racy_start : forall k exe_ok ok k' d,
    configured_chain conf c ->
    fw_start conf k exe_ok ok = (k', Ok d) -> racy_history conf c d []
| racy_step : forall d h ev d' reply,
    racy_history conf c d h -> lossy_event c d ev -> fw_step conf d ev = Some (d', reply) ->
    racy_history conf c d' (h ++ [(ev, reply)])
| racy_maintain : forall d h listing k k2 now o1 o2 dok rok k' fw' r,
    racy_history conf c d h -> d_phase d = PhRun ->
    listing_of listing (d_kernel d) -> removes_only c (d_kernel d) k -> removes_only c k k2 ->
    (forall l, Permutation (o1 l) l) -> (forall l, Permutation (o2 l) l) ->
    maintain_listed conf listing k k2 (d_fw d) now o1 o2 dok rok = (k', fw', r) ->
    racy_history conf c (Daemon k' fw' (next_phase r PhRun PhFatal))
                 (h ++ [(FwMaintain now o1 o2 (listed_ok listing) dok rok, None)]).
