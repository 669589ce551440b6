(** Changing the line of a resource. *)

From Coq Require Import String NArith List.
From Verif Require Import M_Base M_ConfTypes M_Text M_Conf S_Wire S_Text S_Conf S_Files.
Import ListNotations.
Local Open Scope N_scope.

(** No line of the section RESOURCES is for the resource [id]. *)
Definition no_resource_line (ls : list text) (id : N) : Prop :=
  forall o v rest, id_text o id -> ~ sets_option ls (lit "RESOURCES") o v rest.

(** [ls'] is [ls] with the only line for the resource [id] replaced by another one for it,
    that says [rs]. *)
Definition resource_line_changed (id : N) (rs : resource) (ls ls' : list text) : Prop :=
  exists pre line line' post o v o' v',
    ls = pre ++ line :: post /\ ls' = pre ++ line' :: post /\ in_section pre (lit "RESOURCES")
    /\ option_line line o v /\ id_text o id
    /\ option_line line' o' v' /\ id_text o' id /\ resource_text v' rs
    /\ no_resource_line (pre ++ post) id.

(** [ls'] is [ls] without the only line for the resource [id]. *)
Definition resource_line_deleted (id : N) (ls ls' : list text) : Prop :=
  exists pre line post o v, ls = pre ++ line :: post /\ ls' = pre ++ post
    /\ in_section pre (lit "RESOURCES") /\ option_line line o v /\ id_text o id
    /\ no_resource_line ls' id.

(** The configuration with another resource [id]; without it. *)
Definition with_resources (c : config) (l : list (N * resource)) : config :=
  Config (c_variant c) (c_path c) (c_debug c) (c_port c) (c_control_timeout c) (c_policy c)
         (c_seccomp c) (c_keys c) l (c_default_user c) (c_nft_exe c)
         (c_nft_family c) (c_nft_table c) (c_nft_chain c) (c_nft_timeout c).
Definition with_resource (c : config) (id : N) (rs : resource) : config :=
  with_resources c ((id, rs) :: c_resources c).
Definition without_resource (c : config) (id : N) : config :=
  with_resources c (filter (fun x => negb (fst x =? id)) (c_resources c)).

(** No other resource has the port of [rs]. *)
Definition port_is_free (c : config) (id : N) (rs : resource) : Prop :=
  forall i r, i <> id -> conf_resource c i = Some r -> rs_port r <> rs_port rs.
