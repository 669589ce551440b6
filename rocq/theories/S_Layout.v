(** Changes of the layout of a configuration file. *)

From Coq Require Import String NArith List Relations.
From Verif Require Import M_ConfTypes M_Text S_Text S_Conf.
Import ListNotations.
Local Open Scope N_scope.

(** The same text but for the white space around it. *)
Definition respaced (t t' : text) : Prop := exists body, padded t body /\ padded t' body.

(** A section: its header and the lines up to the next one. *)
Definition section_lines (ls : list text) : Prop :=
  exists h n body, ls = h :: body /\ header_line h n /\ forall m k, In m body -> ~ header_line m k.
(** The end of the file or the header of another section. *)
Definition section_ends (ls : list text) : Prop :=
  ls = [] \/ exists h n r, ls = h :: r /\ header_line h n.

Inductive layout_edit : list text -> list text -> Prop :=
(** A comment or a blank line more. *)
| le_ignored : forall a l b, ignored_line l -> layout_edit (a ++ b) (a ++ l :: b)
(** Other white space around a header. *)
| le_header : forall a l l' b n, header_line l n -> header_line l' n -> layout_edit (a ++ l :: b) (a ++ l' :: b)
(** Other white space around the name or the value of an option. *)
| le_option : forall a l l' b n v v', option_line l n v -> option_line l' n v' -> respaced v v' ->
    layout_edit (a ++ l :: b) (a ++ l' :: b)
(** Two neighbouring options with different names exchanged. *)
| le_options : forall a l l' b n n' v v', option_line l n v -> option_line l' n' v' -> n <> n' ->
    layout_edit (a ++ l :: l' :: b) (a ++ l' :: l :: b)
(** Two neighbouring sections exchanged. *)
| le_sections : forall a s s' b, section_lines s -> section_lines s' -> section_ends b ->
    layout_edit (a ++ s ++ s' ++ b) (a ++ s' ++ s ++ b).

(** Any number of such changes, forwards or backwards. *)
Definition relaid : list text -> list text -> Prop := clos_refl_sym_trans (list text) layout_edit.
