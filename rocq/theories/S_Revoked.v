(** Taking a user's access away by deleting the line with the key. *)

From Coq Require Import String NArith List.
From Verif Require Import M_Base M_ConfTypes M_Text M_Conf S_Wire S_Text S_Conf S_Files.
Import ListNotations.
Local Open Scope N_scope.

(** [ls'] is [ls] without one line for [user] of the section KEYS. *)
Definition key_line_deleted (user : N) (ls ls' : list text) : Prop :=
  exists pre line post o v, ls = pre ++ line :: post /\ ls' = pre ++ post
    /\ in_section pre (lit "KEYS") /\ option_line line o v /\ id_text o user.

(** No line of the section KEYS is for [user]. *)
Definition no_key_line (ls : list text) (user : N) : Prop :=
  forall o v rest, id_text o user -> ~ sets_option ls (lit "KEYS") o v rest.
