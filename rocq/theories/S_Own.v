(** The lines of a configuration file that concern one knock. *)

From Coq Require Import String NArith List.
From Verif Require Import M_Base M_Proto M_ConfTypes M_Text M_Server S_Wire S_Text S_Conf S_Files.
Import ListNotations.
Local Open Scope N_scope.

(** The two files say the same about the control port, ... *)
Definition same_control (ls ls' : list text) : Prop :=
  forall cp, control_port_is ls cp <-> control_port_is ls' cp.

(** ... about the answers to failed sessions, ... *)
Definition same_policy (ls ls' : list text) : Prop :=
  forall p, setting ls "GENERAL" "control-error-policy" policy_text PolAlways p
    <-> setting ls' "GENERAL" "control-error-policy" policy_text PolAlways p.

(** ... about the user [user], ... *)
Definition same_user (ls ls' : list text) (user : N) : Prop :=
  forall key, entry ls "KEYS" key_text user key <-> entry ls' "KEYS" key_text user key.

(** ... about the resource [id], ... *)
Definition same_resource (ls ls' : list text) (id : N) : Prop :=
  forall rs, entry ls "RESOURCES" resource_text id rs <-> entry ls' "RESOURCES" resource_text id rs.

(** ... about the resources for the port [port]. *)
Definition same_port (ls ls' : list text) (port : N) : Prop :=
  forall id rs, rs_port rs = port ->
  (entry ls "RESOURCES" resource_text id rs <-> entry ls' "RESOURCES" resource_text id rs).

(** What was received first is a knock of [user] for [id], valid or not. *)
Definition begins_with_knock (user id : N) (tr : list sevent) : Prop :=
  exists d b rest salt auth, tr = EvRecv d (RxBuf b) :: rest /\ wire_layout b Knock user id salt auth.

(** ... about nft. *)
Definition same_nft (ls ls' : list text) : Prop :=
  forall o v, has_option ls (lit "NFTABLES") o v <-> has_option ls' (lit "NFTABLES") o v.
