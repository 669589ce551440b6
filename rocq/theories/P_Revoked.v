(** Proofs about deleting the line with a user's key (C99). *)

From Coq Require Import String ZArith NArith List Bool Lia Permutation.
From Verif Require Import M_Base M_ConfTypes M_Text M_Conf M_Str S_Wire S_Text S_Conf
  P_Base P_Text P_Str P_Ini P_Gen P_Conf P_Load P_ConfLoad P_Files S_Files S_Revoked.
Import ListNotations.
Local Open Scope N_scope.

Lemma wf_delete : forall pre l post o v, option_line l o v -> well_formed (pre ++ l :: post) -> well_formed (pre ++ post).
Proof.
  intros pre l post o v OL (A & B & C).
  assert (SPLIT : forall (a b c d : list text) x, a ++ b = c ++ x :: d ->
            (exists e, c = a ++ e /\ b = e ++ x :: d) \/ (exists e, a = c ++ x :: e /\ d = e ++ b)).
  { clear. intros a. induction a as [|y a IH]; intros b c d x E.
    - left. exists c. auto.
    - destruct c as [|z c]; simpl in E; injection E as -> E.
      + right. exists a. auto.
      + destruct (IH _ _ _ _ E) as [(e & -> & ->)|(e & -> & ->)]; [left|right]; exists e; auto. }
  split; [|split].
  - intros m I. apply A. apply in_app_or in I. apply in_or_app. destruct I; simpl; auto.
  - intros a b c x m n E HX HM. destruct (SPLIT _ _ _ _ _ E) as [(e & -> & E2)|(e & E1 & E2)].
    + subst post. apply (B (pre ++ l :: e) b c x m n); auto. rewrite <- app_assoc. reflexivity.
    + symmetry in E2. destruct (SPLIT _ _ _ _ _ E2) as [(f & -> & E3)|(f & E3 & ->)].
      * subst post. subst pre. apply (B a (e ++ l :: f) c x m n); auto.
        repeat (rewrite <- app_assoc; simpl). reflexivity.
      * subst pre. subst e. apply (B a b (f ++ l :: post) x m n); auto.
        repeat (rewrite <- app_assoc; simpl). reflexivity.
  - intros a x c n w E O. destruct (SPLIT _ _ _ _ _ E) as [(e & -> & E2)|(e & E1 & E2)].
    + subst post. destruct (C (pre ++ l :: e) x c n w) as (h & m & I & H); auto.
      { rewrite <- app_assoc. reflexivity. }
      exists h, m. split; [|exact H]. apply in_app_or in I. apply in_or_app. destruct I as [I|[<-|I]]; auto.
      exfalso. apply class_head in H. apply class_opt in OL. congruence.
    + subst pre. apply (C a x (e ++ l :: post) n w); auto. rewrite <- app_assoc. reflexivity.
Qed.

(** The configuration without the user's key. *)
Definition without_key (c : config) (u : N) : config :=
  Config (c_variant c) (c_path c) (c_debug c) (c_port c) (c_control_timeout c) (c_policy c)
         (c_seccomp c) (filter (fun x => negb (fst x =? u)) (c_keys c)) (c_resources c) (c_default_user c) (c_nft_exe c)
         (c_nft_family c) (c_nft_table c) (c_nft_chain c) (c_nft_timeout c).

Lemma without_key_lookup : forall c u id,
  conf_key (without_key c u) id = if id =? u then None else conf_key c id.
Proof.
  intros c u id. unfold conf_key. cbn [without_key c_keys]. induction (c_keys c) as [|[i k] m IH].
  - simpl. destruct (id =? u); reflexivity.
  - cbn [filter fst nlookup]. destruct (i =? u) eqn:E; cbn [negb].
    + rewrite IH. destruct (id =? u) eqn:F; [reflexivity|]. destruct (id =? i) eqn:G; [|reflexivity].
      exfalso. apply N.eqb_eq in E, G. apply N.eqb_neq in F. congruence.
    + cbn [nlookup]. destruct (id =? i) eqn:G; [|exact IH]. apply N.eqb_eq in G. subst i. rewrite E. reflexivity.
Qed.

Section Revoked.
Variable fraction : text -> option N.
Variable user : N.

Lemma options_left : forall pre line post o v, in_section pre (lit "KEYS") -> option_line line o v -> id_text o user ->
  well_formed (pre ++ post) -> no_key_line (pre ++ post) user ->
  forall s k x, has_option (pre ++ line :: post) s k x
    <-> (s = lit "KEYS" /\ k = o /\ x = v) \/ has_option (pre ++ post) s k x.
Proof.
  intros pre line post o v IS OL I W NL s k x. eapply has_insert; [exact OL|exact IS|exact W|].
  intros y (rest & S & _). exact (NL _ _ _ I S).
Qed.

Lemma configures_left : forall D ls ls' c, key_line_deleted user ls ls' -> no_key_line ls' user -> well_formed ls ->
  configures D ls c -> configures D ls' (without_key c user).
Proof.
  intros D ls ls' c (pre & line & post & o & v & -> & -> & IS & OL & I) NL W CF.
  pose proof (wf_delete _ _ _ _ _ OL W) as W'.
  pose proof (options_left _ _ _ _ _ IS OL I W' NL) as HI.
  assert (HS : forall s k x, lit s <> lit "KEYS" -> has_option (pre ++ line :: post) (lit s) k x <-> has_option (pre ++ post) (lit s) k x).
  { intros s k x NE. rewrite HI. split; [|auto]. intros [(X & _)|X]; [congruence|exact X]. }
  assert (SE : forall (A : Type) s k (means : text -> A -> Prop) d x, lit s <> lit "KEYS" ->
             setting (pre ++ line :: post) s k means d x -> setting (pre ++ post) s k means d x).
  { intros A s k means d x NE [(w & H & M)|(N & E)].
    - left. exists w. split; [apply HS; assumption|exact M].
    - right. split; [|exact E]. intros w H. apply HS in H; [|exact NE]. eapply N; eauto. }
  assert (TB : forall (A : Type) s (means : text -> A -> Prop) lk, lit s <> lit "KEYS" ->
             table (pre ++ line :: post) s means lk -> table (pre ++ post) s means lk).
  { intros A s means lk NE (T1 & T2 & T3). split; [|split].
    - intros k x H. apply HS in H; [|exact NE]. eauto.
    - intros k1 k2 v1 v2 id H1 H2. apply HS in H1, H2; try exact NE. eauto.
    - intros id x. rewrite T3. split; intros (k & w & H & R); exists k, w; (split; [|exact R]); apply HS; assumption. }
  destruct CF as [A1 A2 A3 A4 A5 A6 A7 A8 A9 A10].
  constructor; cbn [without_key c_debug c_port c_control_timeout c_policy c_seccomp c_variant c_default_user c_nft_exe
                    c_nft_family c_nft_table c_nft_chain c_nft_timeout];
    try (apply SE; [discriminate|assumption]).
  - destruct A6 as (T1 & T2 & T3). split; [|split].
    + intros k x H. apply (T1 k x). apply HI. auto.
    + intros k1 k2 v1 v2 id H1 H2. apply (T2 k1 k2 v1 v2); apply HI; auto.
    + intros id x. rewrite without_key_lookup. destruct (id =? user) eqn:E.
      * apply N.eqb_eq in E. subst id. split; [discriminate|]. intros (k & w & (rest & S & _) & J & _).
        exfalso. exact (NL _ _ _ J S).
      * apply N.eqb_neq in E. rewrite T3. split; intros (k & w & H & J & K); exists k, w; (split; [|auto]).
        -- apply HI in H. destruct H as [(_ & -> & _)|H]; [|exact H]. exfalso. apply E. eapply id_text_fun; eauto.
        -- apply HI. auto.
  - apply TB; [discriminate|exact A7].
  - exact A8.
  - intros V. apply SE; [discriminate|auto].
  - intros V. destruct (A10 V) as (B1 & B2 & B3 & B4 & B5 & B6). split; [exact B1|].
    repeat (split; [apply SE; [discriminate|assumption]|]). apply SE; [discriminate|assumption].
Qed.

Lemma loads_without : forall variant file ls c ls' file', started_from fraction variant file ls c ->
  key_line_deleted user ls ls' -> no_key_line ls' user -> file_lines file' ls' ->
  forall order path, (forall m, Permutation m (order m)) ->
  exists c' key, conf_load fraction order (conf_new variant) path file' = (c', Ok tt)
    /\ started_from fraction variant file' ls' c' /\ conf_key c' user = None
    /\ conf_key c user = Some key /\ same_config c (with_key c' user key).
Proof.
  intros variant file ls c ls' file' ST DL NL FL' order path PO.
  destruct (started_configures _ _ _ _ _ ST) as [CF V]. pose proof ST as (order0 & path0 & PO0 & FL & W & L).
  pose proof (configures_left _ _ _ _ DL NL W CF) as CF'.
  assert (W' : well_formed ls').
  { destruct DL as (pre & line & post & o & v & -> & -> & IS & OL & I). eapply wf_delete; eauto. }
  destruct (load_possible fraction order PO (conf_new variant) path file' _ _ FL' W' CF') as (c' & H); [exact V|].
  assert (started_from fraction variant file' ls' c') as ST' by (exists order, path; auto).
  destruct (started_configures _ _ _ _ _ ST') as [CF2 V2].
  assert (same_config c' (without_key c user)) as SC by (eapply configures_fun; eauto; cbn; congruence).
  assert (exists key, conf_key c user = Some key) as (key & K).
  { destruct DL as (pre & line & post & o & v & -> & -> & IS & OL & I).
    assert (H1 : has_option (pre ++ line :: post) (lit "KEYS") o v).
    { apply (options_left _ _ _ _ _ IS OL I W' NL). auto. }
    destruct (cf_keys _ _ _ CF) as (T1 & _ & T3). destruct (T1 _ _ H1) as (id & k & J & KT).
    pose proof (id_text_fun _ _ _ J I). subst id. exists k. apply T3. eauto. }
  destruct SC as (E1 & E2 & E3 & E4 & E5 & E6 & EK & ER & ED & EN).
  exists c', key. split; [exact H|]. split; [exact ST'|].
  split; [rewrite EK, without_key_lookup, N.eqb_refl; reflexivity|]. split; [exact K|].
  unfold same_config. cbn [with_key without_key c_variant c_debug c_port c_control_timeout c_policy c_seccomp c_default_user
    c_nft_exe c_nft_family c_nft_table c_nft_chain c_nft_timeout] in *.
  repeat (split; [congruence|]). split.
  { intros id. change (conf_key (with_key c' user key) id) with (if id =? user then Some key else conf_key c' id).
    rewrite EK, without_key_lookup. destruct (id =? user) eqn:E; [|reflexivity].
    apply N.eqb_eq in E. subst id. exact K. }
  split; [intros id; symmetry; exact (ER id)|]. split; [congruence|].
  intros V1. rewrite <- E1 in V1. destruct (EN V1) as (-> & -> & -> & -> & ->). auto.
Qed.

Lemma entry_left : forall variant file ls c ls' (A : Type) s (means : text -> A -> Prop) id x,
  started_from fraction variant file ls c -> key_line_deleted user ls ls' -> no_key_line ls' user ->
  lit s <> lit "KEYS" \/ id <> user ->
  entry ls s means id x -> entry ls' s means id x.
Proof.
  intros variant file ls c ls' A s means id x ST (pre & line & post & o & v & -> & -> & IS & OL & I) NL NE (k & w & H & J & M).
  destruct ST as (order0 & path0 & PO0 & FL & W & L). pose proof (wf_delete _ _ _ _ _ OL W) as W'.
  exists k, w. split; [|auto]. apply (options_left _ _ _ _ _ IS OL I W' NL) in H.
  destruct H as [(E & -> & _)|H]; [|exact H]. exfalso. destruct NE as [NE|NE].
  - exact (NE E).
  - apply NE. eapply id_text_fun; eauto.
Qed.

Lemma control_left : forall variant file ls c ls' cp, started_from fraction variant file ls c ->
  key_line_deleted user ls ls' -> no_key_line ls' user -> control_port_is ls' cp -> control_port_is ls cp.
Proof.
  intros variant file ls c ls' cp ST (pre & line & post & o & v & -> & -> & IS & OL & I) NL CP.
  destruct ST as (order0 & path0 & PO0 & FL & W & L). pose proof (wf_delete _ _ _ _ _ OL W) as W'.
  pose proof (options_left _ _ _ _ _ IS OL I W' NL) as HO.
  destruct CP as [(w & H & M)|(N & E)].
  - left. exists w. split; [|exact M]. apply HO. auto.
  - right. split; [|exact E]. intros w H. apply HO in H. destruct H as [(X & _)|H]; [discriminate X|exact (N w H)].
Qed.

Lemma agree_left : forall cls sfile sls sc sls' user' port rs,
  started_from fraction VarServer sfile sls sc -> key_line_deleted user sls sls' -> no_key_line sls' user ->
  user' <> user -> files_agree cls sls user' port rs -> files_agree cls sls' user' port rs.
Proof.
  intros cls sfile sls sc sls' user' port rs SL DL NL NE [(k & K1 & K2) (id & crs & E1 & E2 & E3 & E4 & E5 & E6) NC].
  assert (NR : lit "RESOURCES" <> lit "KEYS") by discriminate.
  constructor.
  - exists k. split; [exact K1|apply (entry_left _ _ _ _ _ _ _ _ _ _ SL DL NL (or_intror NE) K2)].
  - exists id, crs. split; [exact E1|]. split; [exact E2|]. split; [exact E3|].
    split; [apply (entry_left _ _ _ _ _ _ _ _ _ _ SL DL NL (or_introl NR) E4)|]. auto.
  - intros cp CP. apply NC. apply (control_left _ _ _ _ _ _ SL DL NL CP).
Qed.

End Revoked.
