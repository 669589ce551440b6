(** Proofs about adding a line for a resource (C104). *)

From Coq Require Import String ZArith NArith List Bool Lia Permutation.
From Verif Require Import M_Base M_ConfTypes M_Text M_Conf M_Str S_Wire S_Text S_Conf
  P_Base P_Text P_Str P_Ini P_Gen P_Conf P_Load P_ConfLoad P_Files P_Revoked P_Reassign P_Own
  S_Files S_Reassign S_Own S_Adding.
Import ListNotations.
Local Open Scope N_scope.

Lemma edited_added : forall id rs ls ls', resource_line_added id rs ls ls' -> well_formed ls -> edited id (Some rs) ls ls'.
Proof.
  intros id rs ls ls' (pre & line & post & o & v & -> & -> & IS & OL & I & RT & NL) W.
  assert (W' : well_formed (pre ++ line :: post)) by (eapply wf_insert; [exact OL|exact IS|exact W]).
  pose proof (options_without _ _ _ _ _ _ IS OL I W NL) as H'.
  assert (UN : forall k x, has_option (pre ++ line :: post) RES k x -> id_text k id -> k = o /\ x = v).
  { intros k x HO J. apply H' in HO. destruct HO as [(_ & -> & ->)|(rest & S & _)]; [auto|]. exfalso. exact (NL _ _ _ J S). }
  split; [exact W'|]. split; [|split; [|split]].
  - intros k x HO J. destruct (UN _ _ HO J) as (-> & ->). eauto.
  - intros k1 k2 x1 x2 H1 J1 H2 J2. destruct (UN _ _ H1 J1) as (-> & _). destruct (UN _ _ H2 J2) as (-> & _). reflexivity.
  - intros rs' [= <-]. exists o, v. split; [apply H'; auto|auto].
  - intros s k x NE. rewrite H'. split; [auto|intros [(-> & -> & _)|X]; [exfalso; destruct NE as [NE|NE]; auto|auto]].
Qed.

Lemma added_entry : forall id rs ls ls', resource_line_added id rs ls ls' -> well_formed ls ->
  entry ls' "RESOURCES" resource_text id rs.
Proof.
  intros id rs ls ls' AD W. destruct (edited_added _ _ _ _ AD W) as (_ & _ & _ & EX & _).
  destruct (EX _ eq_refl) as (k & x & H). exists k, x. exact H.
Qed.

Lemma added_others : forall id rs ls ls', resource_line_added id rs ls ls' -> well_formed ls ->
  same_control ls ls' /\ same_policy ls ls' /\ (forall user, same_user ls ls' user)
  /\ (forall i, i <> id -> same_resource ls ls' i).
Proof.
  intros id rs ls ls' AD W. destruct (edited_added _ _ _ _ AD W) as (_ & _ & _ & _ & HS).
  destruct (own_settings RES _ _ _ ltac:(discriminate) HS) as (SC & SP). pose proof (own_entries _ _ _ _ HS) as EN.
  split; [exact SC|]. split; [exact SP|]. split.
  - intros user k. apply EN. left. discriminate.
  - intros i NE r. apply EN. auto.
Qed.

Lemma added_stays : forall id rs ls ls' i r, resource_line_added id rs ls ls' -> well_formed ls ->
  entry ls "RESOURCES" resource_text i r -> entry ls' "RESOURCES" resource_text i r.
Proof.
  intros id rs ls ls' i r AD W E. destruct (added_others _ _ _ _ AD W) as (_ & _ & _ & SR).
  destruct (N.eq_dec i id) as [->|NE]; [|apply (SR i NE r); exact E]. exfalso.
  destruct AD as (pre & line & post & o & v & -> & -> & _ & _ & _ & _ & NL).
  destruct E as (k & x & (rest & S & _) & J & _). exact (NL _ _ _ J S).
Qed.
