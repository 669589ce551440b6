(** Proofs about changing a key (C101). *)

From Coq Require Import String ZArith NArith List Bool Lia Permutation.
From Verif Require Import M_Base M_ConfTypes M_Text M_Conf M_Str S_Wire S_Text S_Conf
  P_Base P_Text P_Str P_Ini P_Gen P_Conf P_Load P_ConfLoad P_Files P_Revoked S_Files S_Revoked S_Rotate.
Import ListNotations.
Local Open Scope N_scope.

Section Rotate.
Variable fraction : text -> option N.
Variables (user : N) (key : list N).

Lemma options_changed : forall ls ls', key_line_changed user key ls ls' -> well_formed ls ->
  well_formed ls'
  /\ (exists o v, has_option ls (lit "KEYS") o v /\ id_text o user)
  /\ (exists o v, has_option ls' (lit "KEYS") o v /\ id_text o user /\ key_text v key
        /\ forall k x, has_option ls' (lit "KEYS") k x -> id_text k user -> k = o /\ x = v)
  /\ forall s k x, s <> lit "KEYS" \/ ~ id_text k user -> has_option ls s k x <-> has_option ls' s k x.
Proof.
  intros ls ls' (pre & line & line' & post & o & v & o' & v' & -> & -> & IS & OL & I & OL' & I' & KT & NL) W.
  pose proof (wf_delete _ _ _ _ _ OL W) as W0.
  assert (W' : well_formed (pre ++ line' :: post)) by (eapply wf_insert; [exact OL'|exact IS|exact W0]).
  pose proof (options_left user _ _ _ _ _ IS OL I W0 NL) as H.
  pose proof (options_left user _ _ _ _ _ IS OL' I' W0 NL) as H'.
  split; [exact W'|]. split; [exists o, v; split; [apply H; auto|exact I]|]. split.
  - exists o', v'. split; [apply H'; auto|]. split; [exact I'|]. split; [exact KT|].
    intros k x HO J. apply H' in HO. destruct HO as [(_ & -> & ->)|(rest & S & _)]; [auto|]. exfalso. exact (NL _ _ _ J S).
  - intros s k x NE. rewrite H, H'. split; (intros [(-> & -> & _)|X]; [exfalso; destruct NE as [NE|NE]; auto|auto]).
Qed.

Lemma configures_changed : forall D ls ls' c, key_line_changed user key ls ls' -> well_formed ls ->
  configures D ls c -> configures D ls' (with_key c user key).
Proof.
  intros D ls ls' c CH W CF. destruct (options_changed _ _ CH W) as (_ & (o0 & v0 & O0 & J0) & (o & v & HO & I & KT & UN) & HS0).
  assert (HS : forall s k x, lit s <> lit "KEYS" -> has_option ls (lit s) k x <-> has_option ls' (lit s) k x) by auto.
  assert (SE : forall (A : Type) s k (means : text -> A -> Prop) d x, lit s <> lit "KEYS" ->
             setting ls s k means d x -> setting ls' s k means d x).
  { intros A s k means d x NE [(w & H & M)|(N & E)].
    - left. exists w. split; [apply HS; assumption|exact M].
    - right. split; [|exact E]. intros w H. apply HS in H; [|exact NE]. eapply N; eauto. }
  assert (TB : forall (A : Type) s (means : text -> A -> Prop) lk, lit s <> lit "KEYS" ->
             table ls s means lk -> table ls' s means lk).
  { intros A s means lk NE (T1 & T2 & T3). split; [|split].
    - intros k x H. apply HS in H; [|exact NE]. eauto.
    - intros k1 k2 v1 v2 id H1 H2. apply HS in H1, H2; try exact NE. eauto.
    - intros id x. rewrite T3. split; intros (k & w & H & R); exists k, w; (split; [|exact R]); apply HS; assumption. }
  assert (MINE : forall k, {id_text k user} + {~ id_text k user}).
  { intros k. destruct (parse_id k) as [n|e|] eqn:E.
    - destruct (N.eq_dec n user) as [->|NE]; [left; apply parse_id_spec; exact E|right].
      intros X. apply parse_id_spec in X. congruence.
    - right. intros X. apply parse_id_spec in X. congruence.
    - right. intros X. apply parse_id_spec in X. congruence. }
  destruct CF as [A1 A2 A3 A4 A5 A6 A7 A8 A9 A10].
  constructor; cbn [with_key c_debug c_port c_control_timeout c_policy c_seccomp c_variant c_default_user c_nft_exe
                    c_nft_family c_nft_table c_nft_chain c_nft_timeout];
    try (apply SE; [discriminate|assumption]).
  - destruct A6 as (T1 & T2 & T3). split; [|split].
    + intros k x H. destruct (MINE k) as [J|NJ].
      * destruct (UN _ _ H J) as (-> & ->). eauto.
      * apply HS0 in H; [|auto]. eauto.
    + intros k1 k2 v1 v2 id H1 H2 J1 J2. destruct (N.eq_dec id user) as [->|NE].
      * destruct (UN _ _ H1 J1) as (-> & _). destruct (UN _ _ H2 J2) as (-> & _). reflexivity.
      * assert (forall k, id_text k id -> ~ id_text k user) as NJ by (intros k A B; apply NE; eapply id_text_fun; eauto).
        apply HS0 in H1, H2; [|right; auto|right; auto]. eapply T2; eauto.
    + intros id x. change (conf_key (with_key c user key) id) with (if id =? user then Some key else conf_key c id).
      destruct (id =? user) eqn:E.
      * apply N.eqb_eq in E. subst id. split.
        -- intros [= <-]. eauto.
        -- intros (k & w & H & J & M). destruct (UN _ _ H J) as (-> & ->). f_equal. eapply key_text_fun; eauto.
      * apply N.eqb_neq in E.
        assert (forall k, id_text k id -> ~ id_text k user) as NJ by (intros k A B; apply E; eapply id_text_fun; eauto).
        rewrite T3. split; intros (k & w & H & J & K); exists k, w; (split; [|auto]); eapply HS0; eauto.
  - apply TB; [discriminate|exact A7].
  - exact A8.
  - intros V. apply SE; [discriminate|auto].
  - intros V. destruct (A10 V) as (B1 & B2 & B3 & B4 & B5 & B6). split; [exact B1|].
    repeat (split; [apply SE; [discriminate|assumption]|]). apply SE; [discriminate|assumption].
Qed.

Lemma loads_changed : forall variant file ls c ls' file', started_from fraction variant file ls c ->
  key_line_changed user key ls ls' -> file_lines file' ls' ->
  forall order path, (forall m, Permutation m (order m)) ->
  exists c', conf_load fraction order (conf_new variant) path file' = (c', Ok tt)
    /\ started_from fraction variant file' ls' c' /\ same_config c' (with_key c user key).
Proof.
  intros variant file ls c ls' file' ST CH FL' order path PO.
  destruct (started_configures _ _ _ _ _ ST) as [CF V]. pose proof ST as (order0 & path0 & PO0 & FL & W & L).
  pose proof (configures_changed _ _ _ _ CH W CF) as CF'. destruct (options_changed _ _ CH W) as (W' & _).
  destruct (load_possible fraction order PO (conf_new variant) path file' _ _ FL' W' CF') as (c' & H); [exact V|].
  exists c'. split; [exact H|].
  assert (started_from fraction variant file' ls' c') as ST' by (exists order, path; auto).
  split; [exact ST'|]. destruct (started_configures _ _ _ _ _ ST') as [CF2 V2].
  eapply configures_fun; eauto. cbn. congruence.
Qed.

Lemma entry_other : forall ls ls' (A : Type) s (means : text -> A -> Prop) id x,
  key_line_changed user key ls ls' -> well_formed ls -> lit s <> lit "KEYS" \/ id <> user ->
  entry ls s means id x <-> entry ls' s means id x.
Proof.
  intros ls ls' A s means id x CH W NE. destruct (options_changed _ _ CH W) as (_ & _ & _ & HS).
  assert (NJ : forall k, id_text k id -> lit s <> lit "KEYS" \/ ~ id_text k user).
  { intros k J. destruct NE as [NE|NE]; [auto|right]. intros X. apply NE. eapply id_text_fun; eauto. }
  split; intros (k & w & H & J & M); exists k, w; (split; [|auto]); apply (HS _ _ _ (NJ k J)); exact H.
Qed.

Lemma entry_key : forall ls ls', key_line_changed user key ls ls' -> well_formed ls -> entry ls' "KEYS" key_text user key.
Proof.
  intros ls ls' CH W. destruct (options_changed _ _ CH W) as (_ & _ & (o & v & HO & I & KT & _) & _).
  exists o, v. auto.
Qed.

Lemma control_other : forall ls ls' cp, key_line_changed user key ls ls' -> well_formed ls ->
  control_port_is ls cp <-> control_port_is ls' cp.
Proof.
  intros ls ls' cp CH W. destruct (options_changed _ _ CH W) as (_ & _ & _ & HS0).
  assert (HS : forall s k x, lit s <> lit "KEYS" -> has_option ls (lit s) k x <-> has_option ls' (lit s) k x) by auto.
  split; (intros [(w & H & M)|(N & E)]; [left; exists w; split; [|exact M]; apply HS; [discriminate|exact H]
         |right; split; [|exact E]; intros w H; apply (N w); apply HS; [discriminate|exact H]]).
Qed.

Lemma agree_other : forall cls ls ls' user' port rs, key_line_changed user key ls ls' -> well_formed ls -> user' <> user ->
  (files_agree cls ls user' port rs <-> files_agree cls ls' user' port rs).
Proof.
  intros cls ls ls' user' port rs CH W NE. assert (NR : lit "RESOURCES" <> lit "KEYS") by discriminate.
  split; intros [(k & K1 & K2) (id & crs & E1 & E2 & E3 & E4 & E5 & E6) NC]; constructor.
  - exists k. split; [exact K1|]. apply (entry_other _ _ _ _ _ _ _ CH W (or_intror NE)). exact K2.
  - exists id, crs. repeat (split; [assumption|]). split; [|auto]. apply (entry_other _ _ _ _ _ _ _ CH W (or_introl NR)). exact E4.
  - intros cp CP. apply NC. apply (control_other _ _ _ CH W). exact CP.
  - exists k. split; [exact K1|]. apply (entry_other _ _ _ _ _ _ _ CH W (or_intror NE)). exact K2.
  - exists id, crs. repeat (split; [assumption|]). split; [|auto]. apply (entry_other _ _ _ _ _ _ _ CH W (or_introl NR)). exact E4.
  - intros cp CP. apply NC. apply (control_other _ _ _ CH W). exact CP.
Qed.

Lemma agree_both : forall cls cls' sls sls' port rs, key_line_changed user key cls cls' -> well_formed cls ->
  key_line_changed user key sls sls' -> well_formed sls ->
  files_agree cls sls user port rs -> files_agree cls' sls' user port rs.
Proof.
  intros cls cls' sls sls' port rs CC WC CS WS [_ (id & crs & E1 & E2 & E3 & E4 & E5 & E6) NC].
  assert (NR : lit "RESOURCES" <> lit "KEYS") by discriminate. constructor.
  - exists key. split; [apply (entry_key _ _ CC WC)|apply (entry_key _ _ CS WS)].
  - exists id, crs. split; [apply (entry_other _ _ _ _ _ _ _ CC WC (or_introl NR)); exact E1|]. repeat (split; [assumption|]).
    split; [apply (entry_other _ _ _ _ _ _ _ CS WS (or_introl NR)); exact E4|auto].
  - intros cp CP. apply NC. apply (control_other _ _ _ CS WS). exact CP.
Qed.

End Rotate.
