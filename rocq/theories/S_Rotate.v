(** Giving a user another key by changing the line with the key. *)

From Coq Require Import String NArith List.
From Verif Require Import M_Base M_ConfTypes M_Text M_Conf S_Wire S_Text S_Conf S_Files S_Revoked.
Import ListNotations.
Local Open Scope N_scope.

(** [ls'] is [ls] with the only line for [user] of the section KEYS replaced by another
    one for [user], with the key [key]. *)
Definition key_line_changed (user : N) (key : list N) (ls ls' : list text) : Prop :=
  exists pre line line' post o v o' v',
    ls = pre ++ line :: post /\ ls' = pre ++ line' :: post /\ in_section pre (lit "KEYS")
    /\ option_line line o v /\ id_text o user
    /\ option_line line' o' v' /\ id_text o' user /\ key_text v' key
    /\ no_key_line (pre ++ post) user.
