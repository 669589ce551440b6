(** Setting up a user with the line that `letmein gen-key` prints. *)

From Coq Require Import String NArith List.
From Verif Require Import M_Base M_ConfTypes M_Text M_Conf S_Wire S_Text S_Conf S_Files.
Import ListNotations.
Local Open Scope N_scope.

(** [ls'] is [ls] with [line] added somewhere in the section KEYS. *)
Definition pasted_into_keys (line : text) (ls ls' : list text) : Prop :=
  exists pre post, ls = pre ++ post /\ ls' = pre ++ line :: post /\ in_section pre (lit "KEYS").

(** No user [user] in the file. *)
Definition unknown_user (ls : list text) (user : N) : Prop :=
  forall key, ~ entry ls "KEYS" key_text user key.

(** The files have the same resource for [port], open to [user]. *)
Definition common_resource (cls sls : list text) (user port : N) (rs : resource) : Prop :=
  (exists id crs,
    entry cls "RESOURCES" resource_text id crs /\ rs_port crs = port /\ open_to crs user
    /\ entry sls "RESOURCES" resource_text id rs /\ rs_port rs = port /\ open_to rs user)
  /\ forall cp, control_port_is sls cp -> cp_port cp <> port.

(** A key as gen-key makes it: random, and not degenerate (C48). *)
Definition generated (key : list N) : Prop :=
  all_bytes key /\ length key = 32%nat /\ key <> repeat 0 32 /\ key <> repeat 255 32.
