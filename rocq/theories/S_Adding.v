(** Adding a line for a new resource. *)

From Coq Require Import String NArith List.
From Verif Require Import M_Base M_ConfTypes M_Text M_Conf S_Wire S_Text S_Conf S_Files S_Reassign.
Import ListNotations.
Local Open Scope N_scope.

(** [ls'] is [ls], that has no line for the resource [id], with a line for it that says [rs],
    anywhere in the section RESOURCES. *)
Definition resource_line_added (id : N) (rs : resource) (ls ls' : list text) : Prop :=
  exists pre line post o v, ls = pre ++ post /\ ls' = pre ++ line :: post
    /\ in_section pre (lit "RESOURCES") /\ option_line line o v /\ id_text o id /\ resource_text v rs
    /\ no_resource_line ls id.
