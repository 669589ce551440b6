(** Loading a file. *)

From Coq Require Import String ZArith NArith List Bool Lia ZifyBool ZifyNat ZifyN Permutation.
From Verif Require Import M_Base M_IpAddr M_ConfTypes M_Text M_Str M_Utf8 M_Conf S_Wire S_Text S_Conf
  P_Base P_Text P_Str P_Ini P_Conf P_Load P_Utf8 P_Gen.
Import ListNotations.
Local Open Scope N_scope.

Definition ini_means (i : ini) (ls : list text) : Prop :=
  (forall s o v, ini_get i s o = Some v <-> has_option ls s o v)
  /\ (forall s o, sget i s = Some o -> NoDup (map fst o)).

Lemma file_lines_fun : forall f a b, file_lines f a -> file_lines f b -> a = b.
Proof.
  intros f a b (b1 & t1 & -> & U1 & L1) (b2 & t2 & E & U2 & L2). injection E as <-.
  apply from_utf8_spec in U1, U2. assert (t1 = t2) by congruence. subst t2. eapply lines_of_fun; eauto.
Qed.

Lemma ini_file : forall f,
  (exists ls i, file_lines f ls /\ well_formed ls /\ ini_from_file f = Ok i /\ ini_means i ls)
  \/ ((forall ls, file_lines f ls -> ~ well_formed ls) /\ exists e, ini_from_file f = Err e).
Proof.
  intros f. destruct f as [bytes|].
  2:{ right. split; [intros ls (b & t & E & _); discriminate|]. eexists. reflexivity. }
  unfold ini_from_file. destruct (from_utf8 bytes) as [t|] eqn:U.
  2:{ right. split; [|eexists; reflexivity]. intros ls (b & t & [= <-] & X & _). apply from_utf8_spec in X. congruence. }
  assert (FL : file_lines (Some bytes) (lines t)).
  { exists bytes, t. split; [reflexivity|]. split; [apply from_utf8_spec; exact U|apply lines_spec]. }
  destruct (parse_str_spec t (lines t) (lines_spec t)) as [(e & -> & NW)|(i & -> & W & _ & ND & IG)].
  - right. split; [|eauto]. intros ls X. rewrite (file_lines_fun _ _ _ X FL). exact NW.
  - left. exists (lines t), i. split; [exact FL|]. split; [exact W|]. split; [reflexivity|]. split; assumption.
Qed.

Section Load.
Variable float : text -> option N.
Variable order : omap -> omap.
Hypothesis order_perm : forall m, Permutation m (order m).
Notation dur := (duration_text float).

(** The outcome of loading. *)
Lemma load_cases : forall c path f c' r, conf_load float order c path f = (c', r) ->
  (* the file means something and the configuration is that *)
  (exists ls c0, file_lines f ls /\ well_formed ls /\ configures dur ls c0 /\ c_variant c0 = c_variant c
     /\ c' = with_path c0 path /\ r = Ok tt)
  (* it means nothing *)
  \/ (exists ls e, file_lines f ls /\ well_formed ls /\ (forall c0, c_variant c0 = c_variant c -> ~ configures dur ls c0)
     /\ c' = c /\ r = Err e)
  (* it cannot be read at all *)
  \/ ((forall ls, file_lines f ls -> ~ well_formed ls)
     /\ ((c_variant c = VarServer /\ c' = c /\ exists e, r = Err e)
         \/ (c_variant c = VarClient /\ c' = with_path c path /\ r = Ok tt))).
Proof.
  intros c path f c' r H. unfold conf_load in H.
  destruct (ini_file f) as [(ls & i & FL & W & E & (IG & IND))|(NW & e & E)]; rewrite E in H.
  - destruct (load_ini float order c i) as [c0|e|] eqn:LI.
    + injection H as <- <-. left. apply (load_sound float order order_perm ls i IG IND) in LI.
      destruct LI as (L1 & L2 & L3). exists ls, c0. auto 10.
    + injection H as <- <-. right. left. exists ls, e. split; [exact FL|]. split; [exact W|]. split; [|auto].
      intros c0 V CF. destruct (load_complete float order order_perm ls i IG IND c c0 CF V). congruence.
    + exfalso. eapply load_ini_no_panic. exact LI.
  - right. right. split; [exact NW|]. destruct (c_variant c); injection H as <- <-; eauto 10.
Qed.

Lemma configures_path : forall D ls c p, configures D ls c <-> configures D ls (with_path c p).
Proof.
  intros D ls c p. destruct c. split; intros [A1 A2 A3 A4 A5 A6 A7 A8 A9 A10]; constructor; auto.
Qed.

Lemma load_ok : forall c path f c' ls, file_lines f ls -> well_formed ls ->
  conf_load float order c path f = (c', Ok tt) ->
  configures dur ls c' /\ c_variant c' = c_variant c /\ c_path c' = Some path.
Proof.
  intros c path f c' ls FL W H. apply load_cases in H.
  destruct H as [(ls' & c0 & FL' & _ & CF & V & -> & _)|[(ls' & e & _ & _ & _ & _ & X)|(NW & _)]].
  - rewrite (file_lines_fun _ _ _ FL FL'). split; [apply configures_path; exact CF|]. destruct c0. auto.
  - discriminate.
  - exfalso. eapply NW; eauto.
Qed.
Lemma load_possible : forall c path f ls c0, file_lines f ls -> well_formed ls ->
  configures dur ls c0 -> c_variant c0 = c_variant c ->
  exists c', conf_load float order c path f = (c', Ok tt).
Proof.
  intros c path f ls c0 FL W CF V. destruct (conf_load float order c path f) as [c' r] eqn:H.
  exists c'. f_equal. apply load_cases in H.
  destruct H as [(ls' & c1 & _ & _ & _ & _ & _ & X)|[(ls' & e & FL' & _ & N & _ & X)|(NW & _)]].
  - exact X.
  - rewrite (file_lines_fun _ _ _ FL FL') in CF. exfalso. eapply N; eauto.
  - exfalso. eapply NW; eauto.
Qed.
Lemma load_rejects : forall c path f ls, file_lines f ls -> well_formed ls ->
  (forall c0, c_variant c0 = c_variant c -> ~ configures dur ls c0) ->
  exists e, conf_load float order c path f = (c, Err e).
Proof.
  intros c path f ls FL W N. destruct (conf_load float order c path f) as [c' r] eqn:H. apply load_cases in H.
  destruct H as [(ls' & c1 & FL' & _ & CF & V & _)|[(ls' & e & FL' & _ & _ & -> & ->)|(NW & _)]].
  - rewrite (file_lines_fun _ _ _ FL' FL) in CF. exfalso. eapply N; eauto.
  - eauto.
  - exfalso. eapply NW; eauto.
Qed.
End Load.

(** *** Resource by port *)

Lemma by_port_spec : forall l port user id, NoDup (map fst l) -> NoDup (ports_of l) ->
  res_id_by_port l port user = Some id <->
  exists r, In (id, r) l /\ rs_port r = port /\ (forall u, user = Some u -> contains_user r u = true).
Proof.
  induction l as [|[k r] l IH]; intros port user id ND NP; simpl.
  - split; [discriminate|]. intros (r & [] & _).
  - inversion ND as [|? ? NI ND']; subst. inversion NP as [|? ? NI2 NP']; subst. cbn [snd] in *.
    destruct (rs_port r =? port) eqn:E.
    + apply N.eqb_eq in E.
      assert (U : forall id' r', In (id', r') l -> rs_port r' <> port).
      { intros id' r' I X. apply NI2. rewrite E, <- X. apply in_map_iff. exists (id', r'). auto. }
      assert (G : (match user with Some u => contains_user r u = true | None => True end) ->
                  Some k = Some id <-> exists r0, ((k, r) = (id, r0) \/ In (id, r0) l) /\ rs_port r0 = port
                     /\ (forall u, user = Some u -> contains_user r0 u = true)).
      { intros HU. split.
        - intros [= <-]. exists r. split; [auto|]. split; [exact E|]. intros u ->. exact HU.
        - intros (r0 & [[= <- <-]|I] & P & _); [reflexivity|]. exfalso. eapply U; eauto. }
      destruct user as [u|]; [|apply G; exact I].
      destruct (contains_user r u) eqn:CU; [apply G; reflexivity|].
      rewrite IH by assumption. split.
      * intros (r0 & I & P & _). exfalso. eapply U; eauto.
      * intros (r0 & [[= <- <-]|I] & P & X); [|exfalso; eapply U; eauto]. specialize (X u eq_refl). congruence.
    + apply N.eqb_neq in E. rewrite IH by assumption. split.
      * intros (r0 & I & X). exists r0. auto.
      * intros (r0 & [[= <- <-]|I] & P & X); [congruence|]. exists r0. auto.
Qed.

(** The loaded tables have no duplicates. *)
Lemma load_nodup : forall float order c path f c', (forall m, Permutation m (order m)) ->
  conf_load float order c path f = (c', Ok tt) ->
  (exists ls, file_lines f ls /\ well_formed ls) ->
  NoDup (map fst (c_keys c')) /\ NoDup (map fst (c_resources c')) /\ NoDup (ports_of (c_resources c')).
Proof.
  intros float order c path f c' OP H (ls & FL & W). unfold conf_load in H.
  destruct (ini_file f) as [(ls' & i & _ & _ & E & _)|(NW & _)]; [|exfalso; eapply NW; eauto].
  rewrite E in H. destruct (load_ini float order c i) as [c0|e|] eqn:LI; try discriminate. injection H as <-.
  assert (K : get_keys order i = Ok (c_keys c0) /\ get_resources order i = Ok (c_resources c0)).
  { unfold load_ini in LI.
    do 5 (apply bind_ok in LI; destruct LI as (? & ? & LI)).
    apply bind_ok in LI. destruct LI as (keys & H6 & LI).
    apply bind_ok in LI. destruct LI as (ress & H7 & LI).
    destruct (c_variant c).
    - apply bind_ok in LI. destruct LI as (? & ? & LI). apply bind_ok in LI. destruct LI as (? & ? & LI).
      injection LI as <-. auto.
    - apply bind_ok in LI. destruct LI as (? & ? & LI). injection LI as <-. auto. }
  destruct K as (K & R). cbn [with_path c_keys c_resources]. split.
  - unfold get_keys in K. destruct (sget i (lit "KEYS")); [|injection K as <-; constructor].
    apply keys_loop_spec in K; [|constructor]. destruct K as (es & _ & _ & N). exact N.
  - unfold get_resources in R. destruct (sget i (lit "RESOURCES")); [|injection R as <-; split; constructor].
    apply resources_loop_spec in R; [|constructor|constructor]. destruct R as (es & _ & _ & N1 & N2). auto.
Qed.

Lemma ports_same : forall l1 l2, NoDup (map fst l1) -> NoDup (ports_of l1) -> NoDup (map fst l2) -> NoDup (ports_of l2) ->
  (forall id, nlookup id l1 = nlookup id l2) ->
  forall port user, res_id_by_port l1 port user = res_id_by_port l2 port user.
Proof.
  intros l1 l2 A1 B1 A2 B2 E port user.
  assert (X : forall id, res_id_by_port l1 port user = Some id <-> res_id_by_port l2 port user = Some id).
  { intros id. rewrite !by_port_spec by assumption. split; intros (r & I & P); exists r; (split; [|exact P]);
      apply nlookup_in; auto; [rewrite <- E|rewrite E]; apply nlookup_in; auto. }
  destruct (res_id_by_port l1 port user) as [id|]; [symmetry; apply X; reflexivity|].
  destruct (res_id_by_port l2 port user) as [id|]; [|reflexivity]. apply X. reflexivity.
Qed.

(** *** One more key *)
Lemma configures_with_key : forall D pre post l u key v c,
  well_formed (pre ++ post) -> in_section pre (lit "KEYS") -> option_line l (fmt_id u) v -> u < 4294967296 -> key_text v key ->
  configures D (pre ++ post) c -> conf_key c u = None ->
  configures D (pre ++ l :: post) (with_key c u key).
Proof.
  intros D pre post l u key v c W IS OL HU KT CF NK.
  assert (NO : forall x, ~ has_option (pre ++ post) (lit "KEYS") (fmt_id u) x).
  { intros x H. destruct CF as [_ _ _ _ _ (T1 & _ & T3) _ _ _ _].
    destruct (T1 _ _ H) as (id & k & I & K). pose proof (id_text_fun _ _ _ I (fmt_id_text u HU)). subst id.
    assert (conf_key c u = Some k) by (apply T3; eauto). congruence. }
  assert (HI : forall s o x, has_option (pre ++ l :: post) s o x <->
             (s = lit "KEYS" /\ o = fmt_id u /\ x = v) \/ has_option (pre ++ post) s o x).
  { intros s o x. eapply has_insert; eauto. }
  assert (HS : forall s o x, lit s <> lit "KEYS" -> has_option (pre ++ l :: post) (lit s) o x <-> has_option (pre ++ post) (lit s) o x).
  { intros s o x NE. rewrite HI. split; [|auto]. intros [(X & _)|X]; [congruence|exact X]. }
  assert (SE : forall (A : Type) s o (means : text -> A -> Prop) d x, lit s <> lit "KEYS" ->
             setting (pre ++ post) s o means d x -> setting (pre ++ l :: post) s o means d x).
  { intros A s o means d x NE [(w & H & M)|(N & E)].
    - left. exists w. split; [apply HS; assumption|exact M].
    - right. split; [|exact E]. intros w H. apply HS in H; [|exact NE]. eapply N; eauto. }
  destruct CF as [A1 A2 A3 A4 A5 A6 A7 A8 A9 A10].
  constructor; cbn [with_key c_debug c_port c_control_timeout c_policy c_seccomp c_variant c_default_user c_nft_exe
                    c_nft_family c_nft_table c_nft_chain c_nft_timeout];
    try (apply SE; [discriminate|assumption]).
  - destruct A6 as (T1 & T2 & T3). split; [|split].
    + intros o x H. apply HI in H. destruct H as [(_ & -> & ->)|H]; [|eauto].
      exists u, key. split; [apply fmt_id_text; exact HU|exact KT].
    + assert (CF : forall o x, has_option (pre ++ post) (lit "KEYS") o x -> ~ id_text o u).
      { intros o x H I. destruct (T1 _ _ H) as (id & k & I' & K). pose proof (id_text_fun _ _ _ I' I). subst id.
        assert (conf_key c u = Some k) by (apply T3; eauto). congruence. }
      intros o1 o2 v1 v2 id H1 H2 I1 I2. apply HI in H1, H2.
      destruct H1 as [(_ & -> & ->)|H1], H2 as [(_ & -> & ->)|H2]; auto.
      * exfalso. eapply CF; [exact H2|]. rewrite (id_text_fun _ _ _ (fmt_id_text u HU) I1). exact I2.
      * exfalso. eapply CF; [exact H1|]. rewrite (id_text_fun _ _ _ (fmt_id_text u HU) I2). exact I1.
      * eapply T2; eauto.
    + intros id x. unfold conf_key in *. cbn [with_key c_keys nlookup]. destruct (id =? u) eqn:E.
      * apply N.eqb_eq in E. subst id. split.
        -- intros [= <-]. exists (fmt_id u), v. split; [apply HI; auto|]. split; [apply fmt_id_text; exact HU|exact KT].
        -- intros (o & w & H & I & K). apply HI in H. destruct H as [(_ & -> & ->)|H].
           ++ f_equal. eapply key_text_fun; eauto.
           ++ exfalso. assert (nlookup u (c_keys c) = Some x) by (apply T3; eauto). congruence.
      * apply N.eqb_neq in E. rewrite T3. split.
        -- intros (o & w & H & I & K). exists o, w. split; [apply HI; auto|auto].
        -- intros (o & w & H & I & K). apply HI in H. destruct H as [(_ & -> & ->)|H]; [|eauto].
           exfalso. apply E. eapply id_text_fun; [exact I|apply fmt_id_text; exact HU].
  - destruct A7 as (T1 & T2 & T3). assert (NE : lit "RESOURCES" <> lit "KEYS") by discriminate. split; [|split].
    + intros o x H. apply HS in H; eauto.
    + intros o1 o2 v1 v2 id H1 H2. apply HS in H1, H2; eauto.
    + intros id x. unfold conf_resource in *. cbn [with_key c_resources]. rewrite T3.
      split; intros (o & w & H & X); exists o, w; (split; [apply HS; assumption|exact X]).
  - exact A8.
  - intros V. apply SE; [discriminate|auto].
  - intros V. destruct (A10 V) as (B1 & B2 & B3 & B4 & B5 & B6). split; [exact B1|].
    repeat (split; [apply SE; [discriminate|assumption]|]). apply SE; [discriminate|assumption].
Qed.
