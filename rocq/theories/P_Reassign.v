(** Proofs about changing the line of a resource (C102). *)

From Coq Require Import String ZArith NArith List Bool Lia Permutation.
From Verif Require Import M_Base M_ConfTypes M_Text M_Conf M_Str S_Wire S_Text S_Conf
  P_Base P_Text P_Str P_Ini P_Gen P_Conf P_Load P_ConfLoad P_Files P_Revoked S_Files S_Reassign.
Import ListNotations.
Local Open Scope N_scope.

Definition RES : text := lit "RESOURCES".

Lemma mine : forall id k, {id_text k id} + {~ id_text k id}.
Proof.
  intros id k. destruct (parse_id k) as [n|e|] eqn:E.
  - destruct (N.eq_dec n id) as [->|NE]; [left; apply parse_id_spec; exact E|right].
    intros X. apply parse_id_spec in X. congruence.
  - right. intros X. apply parse_id_spec in X. congruence.
  - right. intros X. apply parse_id_spec in X. congruence.
Qed.

Lemma options_without : forall id pre line post o v, in_section pre RES -> option_line line o v -> id_text o id ->
  well_formed (pre ++ post) -> no_resource_line (pre ++ post) id ->
  forall s k x, has_option (pre ++ line :: post) s k x
    <-> (s = RES /\ k = o /\ x = v) \/ has_option (pre ++ post) s k x.
Proof.
  intros id pre line post o v IS OL I W NL s k x. eapply has_insert; [exact OL|exact IS|exact W|].
  intros y (rest & S & _). exact (NL _ _ _ I S).
Qed.

(** What the two edits have in common: the options of [ls] and [ls'] agree but for those of the
    resource [id], and [ls'] has at most one of these, [new]. *)
Definition edited (id : N) (new : option resource) (ls ls' : list text) : Prop :=
  well_formed ls'
  /\ (forall k x, has_option ls' RES k x -> id_text k id -> exists rs, new = Some rs /\ resource_text x rs)
  /\ (forall k1 k2 x1 x2, has_option ls' RES k1 x1 -> id_text k1 id -> has_option ls' RES k2 x2 -> id_text k2 id -> k1 = k2)
  /\ (forall rs, new = Some rs -> exists k x, has_option ls' RES k x /\ id_text k id /\ resource_text x rs)
  /\ forall s k x, s <> RES \/ ~ id_text k id -> has_option ls s k x <-> has_option ls' s k x.

Lemma edited_changed : forall id rs ls ls', resource_line_changed id rs ls ls' -> well_formed ls -> edited id (Some rs) ls ls'.
Proof.
  intros id rs ls ls' (pre & line & line' & post & o & v & o' & v' & -> & -> & IS & OL & I & OL' & I' & KT & NL) W.
  pose proof (wf_delete _ _ _ _ _ OL W) as W0.
  assert (W' : well_formed (pre ++ line' :: post)) by (eapply wf_insert; [exact OL'|exact IS|exact W0]).
  pose proof (options_without _ _ _ _ _ _ IS OL I W0 NL) as H.
  pose proof (options_without _ _ _ _ _ _ IS OL' I' W0 NL) as H'.
  assert (UN : forall k x, has_option (pre ++ line' :: post) RES k x -> id_text k id -> k = o' /\ x = v').
  { intros k x HO J. apply H' in HO. destruct HO as [(_ & -> & ->)|(rest & S & _)]; [auto|]. exfalso. exact (NL _ _ _ J S). }
  split; [exact W'|]. split; [|split; [|split]].
  - intros k x HO J. destruct (UN _ _ HO J) as (-> & ->). eauto.
  - intros k1 k2 x1 x2 H1 J1 H2 J2. destruct (UN _ _ H1 J1) as (-> & _). destruct (UN _ _ H2 J2) as (-> & _). reflexivity.
  - intros rs' [= <-]. exists o', v'. split; [apply H'; auto|auto].
  - intros s k x NE. rewrite H, H'. split; (intros [(-> & -> & _)|X]; [exfalso; destruct NE as [NE|NE]; auto|auto]).
Qed.

Lemma edited_deleted : forall id ls ls', resource_line_deleted id ls ls' -> well_formed ls -> edited id None ls ls'.
Proof.
  intros id ls ls' (pre & line & post & o & v & -> & -> & IS & OL & I & NL) W.
  pose proof (wf_delete _ _ _ _ _ OL W) as W0. pose proof (options_without _ _ _ _ _ _ IS OL I W0 NL) as H.
  split; [exact W0|]. split; [|split; [|split]].
  - intros k x (rest & S & _) J. exfalso. exact (NL _ _ _ J S).
  - intros k1 k2 x1 x2 (rest & S & _) J. exfalso. exact (NL _ _ _ J S).
  - discriminate.
  - intros s k x NE. rewrite H. split; [intros [(-> & -> & _)|X]; [exfalso; destruct NE as [NE|NE]; auto|auto]|auto].
Qed.

Definition changed (c : config) (id : N) (new : option resource) : config :=
  match new with Some rs => with_resource c id rs | None => without_resource c id end.

Lemma changed_lookup : forall c id new i, conf_resource (changed c id new) i = if i =? id then new else conf_resource c i.
Proof.
  intros c id [rs|] i; unfold conf_resource; cbn [changed with_resource without_resource with_resources c_resources].
  - change (nlookup i ((id, rs) :: c_resources c)) with (if i =? id then Some rs else nlookup i (c_resources c)). reflexivity.
  - induction (c_resources c) as [|[j r] m IH]; [simpl; destruct (i =? id); reflexivity|].
    cbn [filter fst]. destruct (j =? id) eqn:E; cbn [negb].
    + rewrite IH. apply N.eqb_eq in E. subst j. cbn [nlookup]. destruct (i =? id); reflexivity.
    + cbn [nlookup]. destruct (i =? j) eqn:E2; [|exact IH]. apply N.eqb_eq in E2. subst j. rewrite E. reflexivity.
Qed.

Lemma edited_tables : forall D id new ls ls' c, edited id new ls ls' -> configures D ls c ->
  table ls' "RESOURCES" resource_text (conf_resource (changed c id new)).
Proof.
  intros D id new ls ls' c (W' & MN & UN & EX & HS) CF. destruct (cf_resources _ _ _ CF) as (T1 & T2 & T3). split; [|split].
  - intros k x H. destruct (mine id k) as [J|NJ].
    + destruct (MN _ _ H J) as (rs & _ & R). eauto.
    + apply HS in H; [|auto]. eauto.
  - intros k1 k2 v1 v2 i H1 H2 J1 J2. destruct (N.eq_dec i id) as [->|NE].
    + exact (UN _ _ _ _ H1 J1 H2 J2).
    + assert (forall k, id_text k i -> ~ id_text k id) as NJ by (intros k A B; apply NE; eapply id_text_fun; eauto).
      apply HS in H1, H2; [|right; auto|right; auto]. eapply T2; eauto.
  - intros i x. rewrite changed_lookup. destruct (i =? id) eqn:E.
    + apply N.eqb_eq in E. subst i. split.
      * intros ->. destruct (EX _ eq_refl) as (k & y & H). eauto.
      * intros (k & w & H & J & M). destruct (MN _ _ H J) as (rs & -> & R). f_equal. eapply resource_text_fun; eauto.
    + apply N.eqb_neq in E.
      assert (forall k, id_text k i -> ~ id_text k id) as NJ by (intros k A B; apply E; eapply id_text_fun; eauto).
      rewrite T3. split; intros (k & w & H & J & K); exists k, w; (split; [|auto]); eapply HS; eauto.
Qed.

Definition fits (c : config) (id : N) (new : option resource) : Prop :=
  match new with Some rs => port_is_free c id rs | None => True end.

Lemma configures_edited : forall D id new ls ls' c, edited id new ls ls' -> fits c id new ->
  configures D ls c -> configures D ls' (changed c id new).
Proof.
  intros D id new ls ls' c ED FR CF. pose proof (edited_tables _ _ _ _ _ _ ED CF) as TR.
  destruct ED as (W' & MN & UN & EX & HS0).
  assert (HS : forall s k x, lit s <> RES -> has_option ls (lit s) k x <-> has_option ls' (lit s) k x) by auto.
  assert (SE : forall (A : Type) s k (means : text -> A -> Prop) d x, lit s <> RES ->
             setting ls s k means d x -> setting ls' s k means d x).
  { intros A s k means d x NE [(w & H & M)|(N & E)].
    - left. exists w. split; [apply HS; assumption|exact M].
    - right. split; [|exact E]. intros w H. apply HS in H; [|exact NE]. eapply N; eauto. }
  assert (TB : forall (A : Type) s (means : text -> A -> Prop) lk, lit s <> RES ->
             table ls s means lk -> table ls' s means lk).
  { intros A s means lk NE (T1 & T2 & T3). split; [|split].
    - intros k x H. apply HS in H; [|exact NE]. eauto.
    - intros k1 k2 v1 v2 i H1 H2. apply HS in H1, H2; try exact NE. eauto.
    - intros i x. rewrite T3. split; intros (k & w & H & R); exists k, w; (split; [|exact R]); apply HS; assumption. }
  destruct CF as [A1 A2 A3 A4 A5 A6 A7 A8 A9 A10].
  constructor; [..|exact TR| | |].
  1-5: (destruct new; (apply SE; [discriminate|assumption])).
  - destruct new; (apply TB; [discriminate|exact A6]).
  - intros i j r r' H1 H2 P. rewrite changed_lookup in H1, H2.
    destruct (N.eqb_spec i id) as [E1|E1], (N.eqb_spec j id) as [E2|E2].
    + rewrite E1, E2. reflexivity.
    + rewrite H1 in FR. exfalso. exact (FR _ _ E2 H2 (eq_sym P)).
    + rewrite H2 in FR. exfalso. exact (FR _ _ E1 H1 P).
    + eapply A8; eauto.
  - intros V. assert (V0 : c_variant c = VarClient) by (destruct new; exact V).
    destruct new; (apply SE; [discriminate|exact (A9 V0)]).
  - intros V. assert (V0 : c_variant c = VarServer) by (destruct new; exact V).
    destruct (A10 V0) as (B1 & B2 & B3 & B4 & B5 & B6).
    destruct new; (split; [exact B1|]; repeat (split; [apply SE; [discriminate|assumption]|]); apply SE; [discriminate|assumption]).
Qed.

Section Load.
Variable fraction : text -> option N.

Lemma edited_fits : forall variant file ls c file' ls' c' id new, started_from fraction variant file ls c ->
  edited id new ls ls' -> started_from fraction variant file' ls' c' -> fits c id new.
Proof.
  intros variant file ls c file' ls' c' id [rs|] ST ED ST'; [|exact Logic.I].
  destruct (started_configures _ _ _ _ _ ST) as [CF _]. destruct (started_configures _ _ _ _ _ ST') as [CF' _].
  destruct (edited_tables _ _ _ _ _ _ ED CF) as (_ & _ & T).
  assert (L : forall i, conf_resource c' i = if i =? id then Some rs else conf_resource c i).
  { intros i. pose proof (changed_lookup c id (Some rs) i) as Q. destruct (cf_resources _ _ _ CF') as (_ & _ & T').
    rewrite <- Q. destruct (conf_resource c' i) as [r|] eqn:E.
    - symmetry. apply T, T'. exact E.
    - destruct (conf_resource (changed c id (Some rs)) i) as [r|] eqn:E2; [|reflexivity].
      apply T, T' in E2. congruence. }
  intros i r NE H P. apply NE. apply (cf_ports _ _ _ CF' i id r rs); [|rewrite L, N.eqb_refl; reflexivity|exact P].
  rewrite L. apply N.eqb_neq in NE. rewrite NE. exact H.
Qed.

Lemma loads_edited : forall variant file ls c file' ls' id new, started_from fraction variant file ls c ->
  edited id new ls ls' -> fits c id new -> file_lines file' ls' ->
  forall order path, (forall m, Permutation m (order m)) ->
  exists c', conf_load fraction order (conf_new variant) path file' = (c', Ok tt)
    /\ started_from fraction variant file' ls' c' /\ same_config c' (changed c id new).
Proof.
  intros variant file ls c file' ls' id new ST ED FR FL' order path PO.
  destruct (started_configures _ _ _ _ _ ST) as [CF V].
  pose proof (configures_edited _ _ _ _ _ _ ED FR CF) as CF'. destruct ED as (W' & _).
  assert (V1 : c_variant (changed c id new) = variant) by (destruct new; exact V).
  destruct (load_possible fraction order PO (conf_new variant) path file' _ _ FL' W' CF') as (c' & H); [exact V1|].
  exists c'. split; [exact H|].
  assert (started_from fraction variant file' ls' c') as ST' by (exists order, path; auto).
  split; [exact ST'|]. destruct (started_configures _ _ _ _ _ ST') as [CF2 V2].
  eapply configures_fun; eauto. congruence.
Qed.

Lemma edited_resource : forall file ls c file' ls' c' id new, started_from fraction VarServer file ls c ->
  edited id new ls ls' -> started_from fraction VarServer file' ls' c' ->
  forall r, In (id, r) (c_resources c') <-> new = Some r.
Proof.
  intros file ls c file' ls' c' id new ST (W' & MN & UN & EX & _) ST' r. rewrite (started_resources _ _ _ _ _ ST').
  split.
  - intros (k & x & H & J & R). destruct (MN _ _ H J) as (rs & -> & R'). f_equal. eapply resource_text_fun; eauto.
  - intros E. destruct (EX _ E) as (k & x & H). exists k, x. exact H.
Qed.

End Load.
