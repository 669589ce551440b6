(** Proofs of the session properties from the characterization in P_Server.v. *)

From Coq Require Import String ZArith NArith List Bool Lia ZifyBool ZifyNat ZifyN.
From Verif Require Import M_Base M_Proto M_IpAddr M_FwProto M_ConfTypes M_Server S_Wire
  S_Session P_Base P_Proto P_FwProto P_Server.
Import ListNotations.
Local Open Scope N_scope.

Lemma nlookup_In : forall (A : Type) k (m : nmap A) v, nlookup k m = Some v -> In (k, v) m.
Proof.
  intros A k m v. induction m as [|[k' v'] m IH]; simpl; [discriminate|].
  destruct (N.eqb_spec k k'); intro H; [inversion H; subst; auto|auto].
Qed.

Lemma contains_user_spec : forall r u, contains_user r u = true ->
  rs_users r = [] \/ In u (rs_users r).
Proof.
  intros r u. unfold contains_user, mem_N. destruct (rs_users r) as [|x l]; auto.
  intro H. right. apply existsb_exists in H. destruct H as (y & I & E).
  apply N.eqb_eq in E. subst. exact I.
Qed.

Lemma keys_sized_lookup : forall c, keys_sized c ->
  forall u k, conf_key c u = Some k -> length k = 32%nat.
Proof. intros c H u k E. apply nlookup_In in E. apply H in E. apply E. Qed.

Section Props.

Variable mac : list byte -> list byte -> list byte.
Variable conf : config.
Variable peer : ip.
Variable T : N.
Hypothesis KS : keys_sized conf.

Notation sess := (sess mac conf peer T).
Notation sess_chal := (sess_chal mac conf peer T).
Notation sess_open := (sess_open mac conf peer T).
Notation sess_come := (sess_come mac conf peer T).
Notation rej := (rej conf T).

Lemma runs : forall tr p, srun T (server_run mac conf peer) tr p -> sess tr p.
Proof. apply server_runs. apply keys_sized_lookup. exact KS. Qed.

Lemma basic_valid : forall b m key, rx_typed (RxBuf b) -> basic mac conf b m key ->
  In (m_user m, key) (c_keys conf) /\ valid_knock mac key (m_user m) (m_resource m) b.
Proof.
  intros b m key [L B] (D & O & K & C). apply bytes_ok_spec in B.
  pose proof (nlookup_In _ _ _ _ K) as I. split; [exact I|].
  destruct (KS _ _ I) as [KL _].
  destruct (decode_canonical b m B D) as [A _].
  destruct (knock_check_meaning mac m key A O KL) as (t & PT & CT & _).
  pose proof (decode_layout b m B D) as WL. rewrite O in WL.
  exists (m_salt m), (m_auth m), t. split; [exact WL|]. split; [exact PT|]. apply CT. exact C.
Qed.

Lemma responded_valid : forall b m key s1 s2 ch b2 m2,
  In (m_user m, key) (c_keys conf) -> api_message m ->
  rx_typed (RxBuf b2) -> is_challenge m s1 s2 ch -> responded mac b m key ch b2 m2 ->
  valid_response mac key (m_user m) (m_resource m) s2 b2.
Proof.
  intros b m key s1 s2 ch b2 m2 I AM [L B] (_ & _ & [R1 R1'] & [R2 R2'] & ->)
    (D & O & U & X & C).
  apply bytes_ok_spec in B. destruct (KS _ _ I) as [KL _].
  destruct (decode_canonical b2 m2 B D) as [A _].
  assert (api_message (Msg MAGIC Challenge (m_user m) (m_resource m) s1 s2)) as AC.
  { unfold api_message in *. cbn. apply bytes_ok_spec in R1'. apply bytes_ok_spec in R2'.
    intuition. }
  destruct (response_check_meaning mac m2 key _ A O AC eq_refl KL) as (t & PT & CT & _).
  cbn [m_auth] in PT. pose proof (decode_layout b2 m2 B D) as WL. rewrite O in WL.
  rewrite U, X in *. exists (m_salt m2), (m_auth m2), t.
  split; [exact WL|]. split; [exact PT|]. apply CT. exact C.
Qed.

Lemma granted_grants : forall b m key rs, basic mac conf b m key -> granted conf m rs ->
  grants conf (m_user m) (m_resource m) rs.
Proof.
  intros b m key rs (_ & _ & K & _) (R & U & P). constructor.
  - apply nlookup_In. exact R.
  - exists key. apply nlookup_In. exact K.
  - apply contains_user_spec. exact U.
  - exact P.
Qed.

Lemma challenge_facts : forall m s1 s2 ch, is_challenge m s1 s2 ch ->
  length s2 = 32%nat /\ (forall c, s2 <> repeat c 32)
  /\ is_message ch Challenge (m_user m) (m_resource m) /\ m_auth ch = s2.
Proof.
  intros m s1 s2 ch (_ & E2 & _ & [L2 _] & ->). split; [exact L2|]. split.
  - apply secure_random_ok in E2. destruct E2 as (_ & _ & H & _). rewrite L2 in H. exact H.
  - repeat split.
Qed.

Lemma rej_no_fw : forall st tr p, rej st tr p -> fw_requests tr = [].
Proof. intros st tr p H. destruct H; reflexivity. Qed.

Lemma come_no_fw : forall m tr p, sess_come m tr p -> fw_requests tr = [].
Proof. intros m tr p H. destruct H; reflexivity. Qed.

(** The part of a trace up to a firewall request, and after it. *)
Lemma fw_split_none : forall tr pre m ok post,
  fw_requests tr = [] -> tr <> pre ++ EvFwSend m ok :: post.
Proof.
  intros tr pre m ok post H E. subst tr. induction pre as [|e pre IH]; simpl in H.
  - discriminate.
  - destruct e; try (apply IH; exact H). discriminate.
Qed.

Lemma open_split : forall m rs tr p pre fm ok post,
  sess_open m rs tr p -> tr = pre ++ EvFwSend fm ok :: post ->
  pre = [EvFwConnect true] /\ fw_requests post = []
  /\ exists pt, port_type_of (rs_tcp rs) (rs_udp rs) = Some pt
                /\ fm = fw_new_open peer pt (rs_port rs).
Proof.
  intros m rs tr p pre fm ok post H E.
  destruct H.
  1-2,4: destruct pre as [|? [|? ?]]; simpl in E; discriminate E.
  - destruct pre as [|e pre]; [discriminate E|]. simpl in E. inversion E; subst.
    exfalso. eapply fw_split_none; [eapply rej_no_fw; eassumption|solve [reflexivity|eassumption]].
  - destruct pre as [|e [|e' pre]]; simpl in E; inversion E; subst.
    + eauto 10 using rej_no_fw.
    + exfalso. eapply fw_split_none; [eapply rej_no_fw; eassumption|solve [reflexivity|eassumption]].
  - destruct pre as [|e [|e' pre]]; simpl in E; inversion E; subst; eauto 10.
    destruct pre; discriminate.
  - destruct pre as [|e [|e' [|e'' pre]]]; simpl in E; inversion E; subst.
    + simpl. eauto 10 using rej_no_fw.
    + exfalso. eapply fw_split_none; [eapply rej_no_fw; eassumption|solve [reflexivity|eassumption]].
  - destruct pre as [|e [|e' [|e'' pre]]]; simpl in E; inversion E; subst.
    + simpl. eauto 10 using come_no_fw.
    + exfalso. eapply fw_split_none; [eapply come_no_fw; eassumption|solve [reflexivity|eassumption]].
Qed.

(** Everything about a firewall request, at once. *)
Lemma request_facts : forall tr p pre fm ok post,
  sess tr p -> tr = pre ++ EvFwSend fm ok :: post ->
  exists user res_id rs pt pre0,
    authenticated mac conf user res_id pre0
    /\ pre = pre0 ++ [EvFwConnect true]
    /\ grants conf user res_id rs
    /\ port_type_of (rs_tcp rs) (rs_udp rs) = Some pt
    /\ fm = fw_new_open peer pt (rs_port rs)
    /\ fw_requests post = [].
Proof.
  intros tr p pre fm ok post H E.
  destruct H as [k|d r e Hd Ty NM|d b m tr p Hd Ty D O RJ|d b m tr p Hd Ty D O BK RJ
                |d b m key tr p Hd Ty BA NG RJ|d b m key rs tr p Hd Ty BA GR SC].
  - destruct pre; discriminate E.
  - destruct pre as [|? [|? ?]]; simpl in E; discriminate E.
  - destruct pre as [|e pre]; [discriminate E|]. simpl in E. inversion E; subst.
    exfalso. eapply fw_split_none; [eapply rej_no_fw; eassumption|solve [reflexivity|eassumption]].
  - destruct pre as [|e pre]; [discriminate E|]. simpl in E. inversion E; subst.
    exfalso. eapply fw_split_none; [eapply rej_no_fw; eassumption|solve [reflexivity|eassumption]].
  - destruct pre as [|e pre]; [discriminate E|]. simpl in E. inversion E; subst.
    exfalso. eapply fw_split_none; [eapply rej_no_fw; eassumption|solve [reflexivity|eassumption]].
  - destruct pre as [|e pre]; [discriminate E|]. simpl in E. inversion E; subst e.
    subst tr. remember (pre ++ EvFwSend fm ok :: post) as tr eqn:HT.
    destruct SC; try solve [exfalso; do 7 (destruct pre as [|? pre]; simpl in HT; try discriminate)].
    + exfalso. do 4 (destruct pre as [|? pre]; [discriminate|]; simpl in HT;
        injection HT as <- HT).
      eapply fw_split_none; [eapply rej_no_fw; eassumption|solve [reflexivity|eassumption]].
    + do 4 (destruct pre as [|? pre]; [discriminate|]; simpl in HT; injection HT as <- HT).
      match goal with H : sess_open _ _ _ _ |- _ => destruct (open_split _ _ _ _ _ _ _ _ H HT)
        as (-> & F & pt & P & ->) end.
      match goal with H : is_challenge _ _ _ _ |- _ =>
        pose proof H as IC; destruct (challenge_facts _ _ _ _ H) as (N1 & N2 & N3 & N4) end.
      destruct (basic_valid b m key Ty BA) as [KI KV].
      assert (api_message m) as AM.
      { destruct Ty as [_ B]. apply bytes_ok_spec in B. destruct BA as (D & _).
        eapply decode_canonical; eauto. }
      exists (m_user m), (m_resource m), rs, pt.
      eexists. split; [|split; [|split; [|split; [|split]]]].
      * econstructor; try eassumption. eapply responded_valid; eauto.
      * reflexivity.
      * eapply granted_grants; eauto.
      * exact P.
      * reflexivity.
      * exact F.
Qed.

(** *** Error policy *)

Lemma rej_sends : forall st tr p pre d m r post, rej st tr p ->
  tr = pre ++ EvSend d m r :: post ->
  go_away_allowed conf st = true /\ post = []
  /\ is_message m GoAway (unwrap_or (ps_user st) ID_NONE) (unwrap_or (ps_resource st) ID_NONE).
Proof.
  intros st tr p pre d m r post H E. destruct H;
    try solve [exfalso; destruct pre as [|? [|? ?]]; simpl in E; discriminate E].
  destruct pre as [|? [|? pre]]; simpl in E; inversion E; subst.
  - split; auto. split; auto. apply msg_new_ok in H1. destruct H1 as (s & _ & -> & _).
    repeat split.
  - destruct pre; discriminate.
Qed.

Lemma rej_ends : forall st tr e, rej st tr (SRet (Err e)) -> go_away_allowed conf st = true ->
  ends_with_go_away tr.
Proof.
  intros st tr e H A. inversion H; subst; [congruence|].
  exists [EvRand 8 os], d, m, r. split; [reflexivity|].
  match goal with H : msg_new _ _ _ _ = Ok _ |- _ =>
    apply msg_new_ok in H; destruct H as (s & _ & -> & _) end. reflexivity.
Qed.

Lemma ends_cons : forall ev tr, ends_with_go_away tr -> ends_with_go_away (ev :: tr).
Proof.
  intros ev tr (tr' & d & m & r & -> & O). exists (ev :: tr'), d, m, r. auto.
Qed.

Lemma come_sends : forall m tr p pre d x r post, sess_come m tr p ->
  tr = pre ++ EvSend d x r :: post ->
  is_message x ComeIn (m_user m) (m_resource m) /\ post = [] /\ fw_requests pre = [].
Proof.
  intros m tr p pre d x r post H E. destruct H;
    try solve [exfalso; destruct pre as [|? [|? ?]]; simpl in E; discriminate E].
  - destruct pre as [|? [|? pre]]; simpl in E; inversion E; subst;
      [repeat split|destruct pre; discriminate].
  - destruct pre as [|? [|? pre]]; simpl in E; inversion E; subst;
      [repeat split|destruct pre; discriminate].
Qed.

Lemma policy_not_always : forall m, c_policy conf <> PolAlways ->
  go_away_allowed conf st_none = false /\ go_away_allowed conf (st_named m) = false.
Proof.
  intros m H. unfold go_away_allowed. destruct (c_policy conf); try congruence; auto.
Qed.

Lemma stealth : forall tr p pre d x r post,
  c_policy conf <> PolAlways ->
  sess tr p -> tr = pre ++ EvSend d x r :: post ->
  exists user res_id key d' kb pre',
    pre = EvRecv d' (RxBuf kb) :: pre' /\ In (user, key) (c_keys conf)
    /\ valid_knock mac key user res_id kb.
Proof.
  intros tr p pre d x r post PA H E.
  destruct H as [k|d' r' e Hd Ty NM|d' b m tr p Hd Ty D O RJ|d' b m tr p Hd Ty D O BK RJ
                |d' b m key tr p Hd Ty BA NG RJ|d' b m key rs tr p Hd Ty BA GR SC].
  - destruct pre; discriminate E.
  - destruct pre as [|? [|? ?]]; simpl in E; discriminate E.
  - destruct pre as [|e pre]; [discriminate E|]. simpl in E. inversion E; subst.
    destruct (rej_sends _ _ _ _ _ _ _ _ RJ eq_refl) as [A _].
    destruct (policy_not_always m PA). congruence.
  - destruct pre as [|e pre]; [discriminate E|]. simpl in E. inversion E; subst.
    destruct (rej_sends _ _ _ _ _ _ _ _ RJ eq_refl) as [A _].
    destruct (policy_not_always m PA). congruence.
  - destruct pre as [|e pre]; [discriminate E|]. simpl in E. inversion E; subst.
    destruct (basic_valid b m key Ty BA). eauto 10.
  - destruct pre as [|e pre]; [discriminate E|]. simpl in E. inversion E; subst.
    destruct (basic_valid b m key Ty BA). eauto 10.
Qed.

Lemma api_of_basic : forall b m key, rx_typed (RxBuf b) -> basic mac conf b m key ->
  api_message m.
Proof.
  intros b m key [_ B] (D & _). apply bytes_ok_spec in B. eapply decode_canonical; eauto.
Qed.

Lemma auth_of_responded : forall d1 b m key rs s1 s2 ch d2 d3 b2 m2,
  rx_typed (RxBuf b) -> basic mac conf b m key -> granted conf m rs ->
  is_challenge m s1 s2 ch -> rx_typed (RxBuf b2) -> responded mac b m key ch b2 m2 ->
  authenticated mac conf (m_user m) (m_resource m)
    [EvRecv d1 (RxBuf b); EvRand 8 (Some s1); EvRand 32 (Some s2); EvSend d2 ch TxOk;
     EvRecv d3 (RxBuf b2)].
Proof.
  intros d1 b m key rs s1 s2 ch d2 d3 b2 m2 Ty BA GR IC Ty2 RE.
  destruct (challenge_facts _ _ _ _ IC) as (N1 & N2 & N3 & N4).
  destruct (basic_valid b m key Ty BA) as [KI KV].
  econstructor; try eassumption. eapply responded_valid; eauto. exact (api_of_basic _ _ _ Ty BA).
Qed.

Lemma full_policy : forall m, c_policy conf = PolFullAuth ->
  go_away_allowed conf st_none = false /\ go_away_allowed conf (st_named m) = false
  /\ go_away_allowed conf (st_basic m) = false.
Proof. intros m H. unfold go_away_allowed. rewrite H. auto. Qed.

Lemma full_auth_stealth : forall tr p pre d x r post,
  c_policy conf = PolFullAuth ->
  sess tr p -> tr = pre ++ EvSend d x r :: post -> m_op x = GoAway ->
  exists user res_id pre0 pre1,
    authenticated mac conf user res_id pre0 /\ pre = pre0 ++ pre1.
Proof.
  intros tr p pre d x r post PF H E OX.
  destruct H as [k|d' r' e Hd Ty NM|d' b m tr p Hd Ty D O RJ|d' b m tr p Hd Ty D O BK RJ
                |d' b m key tr p Hd Ty BA NG RJ|d' b m key rs tr p Hd Ty BA GR SC];
    try (destruct (full_policy m PF) as (F1 & F2 & F3)).
  - destruct pre; discriminate E.
  - destruct pre as [|? [|? ?]]; simpl in E; discriminate E.
  - destruct pre as [|e pre]; [discriminate E|]. simpl in E. inversion E; subst.
    destruct (rej_sends _ _ _ _ _ _ _ _ RJ eq_refl) as [A _]. congruence.
  - destruct pre as [|e pre]; [discriminate E|]. simpl in E. inversion E; subst.
    destruct (rej_sends _ _ _ _ _ _ _ _ RJ eq_refl) as [A _]. congruence.
  - destruct pre as [|e pre]; [discriminate E|]. simpl in E. inversion E; subst.
    destruct (rej_sends _ _ _ _ _ _ _ _ RJ eq_refl) as [A _]. congruence.
  - destruct pre as [|e pre]; [discriminate E|]. simpl in E. injection E as <- E.
    destruct SC; try solve [exfalso; do 7 (destruct pre as [|? pre]; simpl in E; try discriminate)].
    + do 2 (destruct pre as [|? pre]; [discriminate|]; simpl in E; injection E as <- E).
      destruct pre as [|? pre].
      * injection E as ? ? ? ?. subst. destruct (challenge_facts _ _ _ _ H) as (_ & _ & (C & _) & _).
        congruence.
      * exfalso. do 7 (destruct pre as [|? pre]; simpl in E; try discriminate).
    + do 2 (destruct pre as [|? pre]; [discriminate|]; simpl in E; injection E as <- E).
      destruct pre as [|? pre].
      * injection E as ? ? ? ?. subst. destruct (challenge_facts _ _ _ _ H) as (_ & _ & (C & _) & _).
        congruence.
      * exfalso. do 7 (destruct pre as [|? pre]; simpl in E; try discriminate).
    + do 2 (destruct pre as [|? pre]; [discriminate|]; simpl in E; injection E as <- E).
      destruct pre as [|? pre].
      * injection E as ? ? ? ?. subst. destruct (challenge_facts _ _ _ _ H) as (_ & _ & (C & _) & _).
        congruence.
      * exfalso. do 7 (destruct pre as [|? pre]; simpl in E; try discriminate).
    + do 2 (destruct pre as [|? pre]; [discriminate|]; simpl in E; injection E as <- E).
      destruct pre as [|? pre].
      * injection E as ? ? ? ?. subst. destruct (challenge_facts _ _ _ _ H) as (_ & _ & (C & _) & _).
        congruence.
      * simpl in E. injection E as <- E. destruct pre as [|? pre]; [discriminate|].
        simpl in E. injection E as <- E.
        match goal with H : rej _ _ _ |- _ =>
          destruct (rej_sends _ _ _ _ _ _ _ _ H E) as [A _] end. congruence.
    + do 2 (destruct pre as [|? pre]; [discriminate|]; simpl in E; injection E as <- E).
      destruct pre as [|? pre].
      * injection E as ? ? ? ?. subst. destruct (challenge_facts _ _ _ _ H) as (_ & _ & (C & _) & _).
        congruence.
      * simpl in E. injection E as <- E. destruct pre as [|? pre]; [discriminate|].
        simpl in E. injection E as <- E.
        exists (m_user m), (m_resource m). eexists. exists pre.
        split; [apply (auth_of_responded d' b m key rs s1 s2 ch d0 d2 b2 m2); assumption|reflexivity].
Qed.

(** *** Rejections are answered *)

Lemma comm_nothing : forall d r, rx_typed r -> not_a_message r -> comm_failure (EvRecv d r).
Proof.
  intros d [| | |b] Ty NM; simpl; auto. intro V. destruct Ty as [L B].
  apply bytes_ok_spec in B. destruct NM as (e & E).
  destruct (decode_accepts_iff b B) as [_ W]. destruct (W V) as (m & Em). congruence.
Qed.

Lemma opcode_inj : forall a b, opcode a = opcode b -> a = b.
Proof. destruct a, b; simpl; intro H; congruence. Qed.

Lemma wire_layout_unique : forall b o u r s a o' u' r' s' a',
  wire_layout b o u r s a -> wire_layout b o' u' r' s' a' ->
  o = o' /\ u = u' /\ r = r' /\ s = s' /\ a = a'.
Proof.
  intros b o u r s a o' u' r' s' a' H H'. destruct H, H'.
  split; [apply opcode_inj|]; repeat split; congruence.
Qed.

Lemma u32_at_inj : forall a b c d a' b' c' d',
  a < 256 -> b < 256 -> c < 256 -> d < 256 -> a' < 256 -> b' < 256 -> c' < 256 -> d' < 256 ->
  a * 16777216 + b * 65536 + c * 256 + d = a' * 16777216 + b' * 65536 + c' * 256 + d' ->
  a = a' /\ b = b' /\ c = c' /\ d = d'.
Proof. intros. lia. Qed.

Lemma protected_text_unique : forall t t' o u r s c,
  protected_text t o u r s c -> protected_text t' o u r s c -> t = t'.
Proof.
  intros t t' o u r s c H H'. destruct H as [L B O U R S C], H' as [L' B' O' U' R' S' C'].
  rewrite <- O' in O. rewrite <- U' in U. rewrite <- R' in R.
  rewrite <- S' in S. rewrite <- C' in C. clear O' U' R' S' C'.
  explode L. explode L'. split_bytes.
  unfold u32_at in *. cbn [nth Nat.add] in O, U, R.
  unfold bytes_at in S, C. cbn [map seq nth Nat.add] in S, C.
  change (2 ^ 24) with 16777216 in *. change (2 ^ 16) with 65536 in *.
  change (2 ^ 8) with 256 in *.
  injection S as -> -> -> -> -> -> -> ->.
  injection C; clear C; intros; subst.
  apply u32_at_inj in O; [|assumption..]. destruct O as (-> & -> & -> & ->).
  apply u32_at_inj in U; [|assumption..]. destruct U as (-> & -> & -> & ->).
  apply u32_at_inj in R; [|assumption..]. destruct R as (-> & -> & -> & ->).
  reflexivity.
Qed.

Lemma In_nlookup : forall (A : Type) k v (m : nmap A), NoDup (map fst m) -> In (k, v) m ->
  nlookup k m = Some v.
Proof.
  intros A k v m. induction m as [|[k' v'] m IH]; simpl; [contradiction|].
  intros ND [E|I].
  - inversion E; subst. rewrite N.eqb_refl. reflexivity.
  - inversion ND; subst. destruct (N.eqb_spec k k') as [->|]; auto.
    exfalso. apply H1. apply (in_map fst) in I. exact I.
Qed.

Lemma valid_frame_layout : forall b o u r s a, wire_layout b o u r s a -> valid_frame b.
Proof.
  intros b o u r s a []. split; [assumption|]. split; [assumption|].
  rewrite wl_op. destruct o; simpl; lia.
Qed.

Lemma layout_decodes : forall b o u r s a, wire_layout b o u r s a ->
  exists m, try_msg_deserialize b = Ok m /\ api_message m /\ m_op m = o /\ m_user m = u
            /\ m_resource m = r /\ m_salt m = s /\ m_auth m = a.
Proof.
  intros b o u r s a W. pose proof (wl_bytes _ _ _ _ _ _ W) as B.
  destruct (decode_accepts_iff b B) as [_ V].
  destruct (V (valid_frame_layout _ _ _ _ _ _ W)) as (m & E). exists m.
  destruct (decode_canonical b m B E) as [A _].
  pose proof (decode_layout b m B E) as W'.
  destruct (wire_layout_unique _ _ _ _ _ _ _ _ _ _ _ W W') as (-> & -> & -> & -> & ->).
  auto 10.
Qed.

Hypothesis KU : NoDup (map fst (c_keys conf)).

Lemma valid_basic : forall user res_id key b,
  In (user, key) (c_keys conf) -> valid_knock mac key user res_id b ->
  exists m, basic mac conf b m key /\ m_user m = user /\ m_resource m = res_id.
Proof.
  intros user res_id key b I (salt & auth & text & W & PT & A).
  destruct (layout_decodes _ _ _ _ _ _ W) as (m & D & AM & O & U & R & S & AU).
  exists m. split; [|auto]. split; [exact D|]. split; [exact O|].
  rewrite U. split; [apply In_nlookup; assumption|].
  destruct (KS _ _ I) as [KL _].
  destruct (knock_check_meaning mac m key AM O KL) as (t & PT' & CT & _).
  apply CT. rewrite U, R, S in PT'. rewrite (protected_text_unique _ _ _ _ _ _ _ PT' PT).
  congruence.
Qed.

Lemma valid_responded : forall user res_id key s1 nonce b m b2,
  In (user, key) (c_keys conf) -> valid_response mac key user res_id nonce b2 ->
  m_user m = user -> m_resource m = res_id ->
  is_challenge m s1 nonce (Msg MAGIC Challenge (m_user m) (m_resource m) s1 nonce) ->
  api_message m ->
  exists m2, responded mac b m key (Msg MAGIC Challenge (m_user m) (m_resource m) s1 nonce) b2 m2.
Proof.
  intros user res_id key s1 nonce b m b2 I (salt & auth & text & W & PT & A) U R IC AM.
  destruct (layout_decodes _ _ _ _ _ _ W) as (m2 & D & AM2 & O2 & U2 & R2 & S2 & AU2).
  exists m2. split; [exact D|]. split; [exact O2|]. split; [congruence|]. split; [congruence|].
  destruct IC as (_ & _ & [R1 R1'] & [R3 R3'] & _).
  assert (api_message (Msg MAGIC Challenge (m_user m) (m_resource m) s1 nonce)) as AC.
  { unfold api_message in *. cbn. apply bytes_ok_spec in R1'. apply bytes_ok_spec in R3'.
    intuition. }
  destruct (KS _ _ I) as [KL _].
  destruct (response_check_meaning mac m2 key _ AM2 O2 AC eq_refl KL) as (t & PT' & CT & _).
  apply CT. cbn [m_auth] in PT'. rewrite U2, R2, S2 in PT'.
  rewrite (protected_text_unique _ _ _ _ _ _ _ PT' PT). congruence.
Qed.

(** A session that has ended with an error has failed to communicate, or is in
    one of the rejecting phases. *)
Lemma ended_cases : forall tr p e, sess tr p -> p = SRet (Err e) ->
  Exists comm_failure tr
  \/ exists st pre tr', rej st tr' (SRet (Err e)) /\ tr = pre ++ tr'
      /\ ((ps_auth st = NotAuth
           /\ ~ exists user res_id key d b rest, tr = EvRecv d (RxBuf b) :: rest
              /\ In (user, key) (c_keys conf) /\ valid_knock mac key user res_id b)
          \/ (ps_auth st = BasicAuth
              /\ ~ exists user res_id pre0 rest,
                  authenticated mac conf user res_id pre0 /\ tr = pre0 ++ rest)
          \/ ps_auth st = ChallengeResponseAuth).
Proof.
  intros tr p e H E.
  destruct H as [k|d' r' e' Hd Ty NM|d' b m tr p Hd Ty D O RJ|d' b m tr p Hd Ty D O BK RJ
                |d' b m key tr p Hd Ty BA NG RJ|d' b m key rs tr p Hd Ty BA GR SC].
  - discriminate.
  - left. constructor. apply comm_nothing; auto.
  - subst p. right. exists st_none, [EvRecv d' (RxBuf b)], tr. split; [exact RJ|].
    split; [reflexivity|]. left. split; [reflexivity|].
    intros (user & res_id & key & d & b' & rest & E & I & V). injection E as <- <- E.
    destruct (valid_basic _ _ _ _ I V) as (m' & (D' & O' & _) & _). congruence.
  - subst p. right. exists (st_named m), [EvRecv d' (RxBuf b)], tr. split; [exact RJ|].
    split; [reflexivity|]. left. split; [reflexivity|].
    intros (user & res_id & key & d & b' & rest & E & I & V). injection E as <- <- E.
    destruct (valid_basic _ _ _ _ I V) as (m' & (D' & O' & K' & C') & _).
    rewrite D in D'. injection D' as <-.
    destruct BK as [K|(key' & K & C)]; congruence.
  - subst p. right. exists (st_basic m), [EvRecv d' (RxBuf b)], tr. split; [exact RJ|].
    split; [reflexivity|]. right; left. split; [reflexivity|].
    intros (user & res_id & pre0 & rest & AU & E). destruct AU. simpl in E.
    injection E as ? ? E. destruct RJ; simpl in E; discriminate E.
  - destruct SC; try discriminate; try solve [left; repeat constructor; apply comm_nothing; auto].
    + left. do 3 apply Exists_cons_tl. apply Exists_cons_hd. destruct r; simpl; auto; congruence.
    + subst p. right. exists (st_basic m).
      exists [EvRecv d' (RxBuf b); EvRand 8 (Some s1); EvRand 32 (Some s2);
              EvSend d ch TxOk; EvRecv d2 (RxBuf b2)], tr.
      split; [assumption|]. split; [reflexivity|]. right; left. split; [reflexivity|].
      intros (user & res_id & pre0 & rest & AU & E). destruct AU. simpl in E.
      injection E as ? ? ? ? ? ? ? ? ?; subst.
      remember (m_auth chal) as nonce eqn:HN.
      assert (chal = Msg MAGIC Challenge (m_user m) (m_resource m) salt nonce) as EC by apply H.
      rewrite EC in *. clear HN.
      destruct (valid_basic _ _ _ _ H6 H7) as (m' & B' & U' & R').
      assert (m' = m) as -> by (destruct BA as (X & _), B' as (Y & _); congruence).
      assert (key0 = key) as -> by (destruct BA as (_ & _ & X & _), B' as (_ & _ & Y & _); congruence).
      destruct (valid_responded user res_id key salt nonce kb m rb) as (m2' & D2' & O2' & U2' & X2' & C2');
        auto; [exact (api_of_basic _ _ _ Ty BA)|].
      assert (m2' = m2) as -> by congruence.
      destruct H4 as [X|[X|[X|(_ & X)]]]; congruence.
    + match goal with H : sess_open _ _ _ _ |- _ => rename H into SO end.
      subst p.
      assert (P5 : forall tr' st, rej st tr' (SRet (Err e)) -> ps_auth st = ChallengeResponseAuth ->
         forall mid, tr = mid ++ tr' ->
         exists st pre tr'0, rej st tr'0 (SRet (Err e))
         /\ EvRecv d' (RxBuf b) :: EvRand 8 (Some s1) :: EvRand 32 (Some s2) :: EvSend d ch TxOk
              :: EvRecv d2 (RxBuf b2) :: tr = pre ++ tr'0
         /\ ps_auth st = ChallengeResponseAuth).
      { intros tr' st RJ A mid ->. exists st.
        exists (EvRecv d' (RxBuf b) :: EvRand 8 (Some s1) :: EvRand 32 (Some s2)
                  :: EvSend d ch TxOk :: EvRecv d2 (RxBuf b2) :: mid), tr'. auto. }
      remember (SRet (Err e)) as p eqn:HP.
      assert (forall tr' st, rej st tr' p -> ps_auth st = ChallengeResponseAuth ->
         forall mid, tr = mid ++ tr' ->
         exists st pre tr'0, rej st tr'0 p
         /\ EvRecv d' (RxBuf b) :: EvRand 8 (Some s1) :: EvRand 32 (Some s2) :: EvSend d ch TxOk
              :: EvRecv d2 (RxBuf b2) :: tr = pre ++ tr'0
         /\ ps_auth st = ChallengeResponseAuth) as P6 by exact P5.
      destruct SO; try discriminate.
      * right. destruct (P6 _ _ H5 eq_refl [_] eq_refl) as (st & pre & t & R1 & R2 & R3).
        exists st, pre, t. auto 10.
      * right. destruct (P6 _ _ H5 eq_refl [_; _] eq_refl) as (st & pre & t & R1 & R2 & R3).
        exists st, pre, t. auto 10.
      * right. destruct (P6 _ _ H7 eq_refl [_; _; _] eq_refl) as (st & pre & t & R1 & R2 & R3).
        exists st, pre, t. auto 10.
      * destruct H8; try discriminate HP.
        left. do 9 apply Exists_cons_tl. constructor. destruct r; simpl; auto; congruence.
Qed.

Lemma answered_always : forall tr e, c_policy conf = PolAlways ->
  srun T (server_run mac conf peer) tr (SRet (Err e)) ->
  Exists comm_failure tr \/ ends_with_go_away tr.
Proof.
  intros tr e PA R. apply runs in R.
  destruct (ended_cases _ _ _ R eq_refl) as [F|(st & pre & tr' & RJ & -> & _)]; auto.
  right. assert (go_away_allowed conf st = true) as G by (unfold go_away_allowed; rewrite PA; auto).
  pose proof (rej_ends _ _ _ RJ G) as EN. clear - EN. induction pre; simpl; auto. apply ends_cons; auto.
Qed.

Lemma answered_basic : forall tr e user res_id key d kb rest, c_policy conf = PolBasicAuth ->
  srun T (server_run mac conf peer) tr (SRet (Err e)) ->
  tr = EvRecv d (RxBuf kb) :: rest ->
  In (user, key) (c_keys conf) -> valid_knock mac key user res_id kb ->
  Exists comm_failure tr \/ ends_with_go_away tr.
Proof.
  intros tr e user res_id key d kb rest PB R E I V. apply runs in R.
  destruct (ended_cases _ _ _ R eq_refl) as [F|(st & pre & tr' & RJ & E' & C)]; auto.
  right. assert (go_away_allowed conf st = true) as G.
  { unfold go_away_allowed. rewrite PB. destruct C as [(A & N)|[(A & N)|A]]; rewrite ?A; auto.
    exfalso. apply N. eauto 10. }
  rewrite E'. pose proof (rej_ends _ _ _ RJ G) as EN.
  clear - EN. induction pre; simpl; auto. apply ends_cons; auto.
Qed.

Lemma answered_full : forall tr e user res_id pre0 rest, c_policy conf = PolFullAuth ->
  srun T (server_run mac conf peer) tr (SRet (Err e)) ->
  authenticated mac conf user res_id pre0 -> tr = pre0 ++ rest ->
  Exists comm_failure tr \/ ends_with_go_away tr.
Proof.
  intros tr e user res_id pre0 rest PB R AU E. apply runs in R.
  destruct (ended_cases _ _ _ R eq_refl) as [F|(st & pre & tr' & RJ & E' & C)]; auto.
  right. assert (go_away_allowed conf st = true) as G.
  { unfold go_away_allowed. rewrite PB. destruct C as [(A & N)|[(A & N)|A]]; rewrite ?A; auto.
    - exfalso. destruct AU. apply N. simpl in E. subst. eauto 10.
    - exfalso. apply N. eauto 10. }
  rewrite E'. pose proof (rej_ends _ _ _ RJ G) as EN.
  clear - EN. induction pre; simpl; auto. apply ends_cons; auto.
Qed.

(** *** Message discipline *)

Lemma rej_sent : forall st tr p, rej st tr p ->
  sent tr = [] \/ exists g, sent tr = [g]
    /\ is_message g GoAway (unwrap_or (ps_user st) ID_NONE) (unwrap_or (ps_resource st) ID_NONE).
Proof.
  intros st tr p H. destruct H; simpl; auto. right. exists m. split; auto.
  apply msg_new_ok in H1. destruct H1 as (s & _ & -> & _). repeat split.
Qed.

Lemma come_sent : forall m tr p, sess_come m tr p ->
  sent tr = [] \/ exists i, sent tr = [i] /\ is_message i ComeIn (m_user m) (m_resource m).
Proof.
  intros m tr p H. destruct H; simpl; auto; right; eexists; split; eauto; subst; repeat split.
Qed.

(** GoAway or ComeIn, or nothing, with the ids of the knock. *)
Definition final_sent (m : message) (l : list message) : Prop :=
  l = [] \/ exists g, l = [g]
     /\ (is_message g GoAway (m_user m) (m_resource m)
         \/ is_message g ComeIn (m_user m) (m_resource m)).

Lemma open_sent : forall m rs tr p, sess_open m rs tr p -> final_sent m (sent tr).
Proof.
  intros m rs tr p H. unfold final_sent.
  destruct H; simpl; auto; try (destruct (rej_sent _ _ _ H0) as [->|(g & -> & I)]; eauto).
  - destruct (rej_sent _ _ _ H2) as [->|(g & -> & I)]; eauto.
  - destruct (come_sent _ _ _ H3) as [->|(g & -> & I)]; eauto.
Qed.

Lemma chal_sent : forall b m key rs tr p, sess_chal b m key rs tr p ->
  final_sent m (sent tr)
  \/ exists c l, sent tr = c :: l /\ is_message c Challenge (m_user m) (m_resource m)
     /\ final_sent m l.
Proof.
  intros b m key rs tr p H. unfold final_sent.
  destruct H; simpl; auto;
    destruct (challenge_facts _ _ _ _ H) as (_ & _ & I & _); right; exists ch; eexists;
    (split; [reflexivity|]); (split; [exact I|]); auto.
  - destruct (rej_sent _ _ _ H5) as [->|(g & -> & I')]; eauto.
  - apply (open_sent _ _ _ _ H4).
Qed.

Lemma knock_fields : forall b m, rx_typed (RxBuf b) -> try_msg_deserialize b = Ok m ->
  valid_frame b /\ u32_at b 4 = opcode (m_op m) /\ u32_at b 8 = m_user m
  /\ u32_at b 12 = m_resource m.
Proof.
  intros b m [L B] D. apply bytes_ok_spec in B.
  pose proof (decode_layout b m B D) as W. split; [eapply valid_frame_layout; eauto|].
  destruct W. auto.
Qed.

Lemma discipline : forall tr p, sess tr p ->
  sent tr = []
  \/ exists d kb rest, tr = EvRecv d (RxBuf kb) :: rest /\ valid_frame kb
     /\ ((u32_at kb 4 <> 0 /\ exists g, sent tr = [g] /\ is_message g GoAway ID_NONE ID_NONE)
         \/ (u32_at kb 4 = 0
             /\ let u := u32_at kb 8 in let r := u32_at kb 12 in
               (exists g, sent tr = [g] /\ is_message g GoAway u r)
               \/ (exists c, sent tr = [c] /\ is_message c Challenge u r)
               \/ (exists c g, sent tr = [c; g] /\ is_message c Challenge u r
                              /\ is_message g GoAway u r)
               \/ (exists c i, sent tr = [c; i] /\ is_message c Challenge u r
                              /\ is_message i ComeIn u r))).
Proof.
  intros tr p H.
  destruct H as [k|d' r' e' Hd Ty NM|d' b m tr p Hd Ty D O RJ|d' b m tr p Hd Ty D O BK RJ
                |d' b m key tr p Hd Ty BA NG RJ|d' b m key rs tr p Hd Ty BA GR SC];
    try (left; reflexivity); cbn [sent];
    try (destruct (knock_fields b m Ty D) as (VF & F1 & F2 & F3));
    try (destruct BA as (D & O & BA'); destruct (knock_fields b m Ty D) as (VF & F1 & F2 & F3)).
  - destruct (rej_sent _ _ _ RJ) as [->|(g & -> & I)]; auto. right.
    exists d', b, tr. split; [reflexivity|]. split; [exact VF|]. left.
    split; [rewrite F1; destruct (m_op m); simpl; congruence|]. eauto.
  - destruct (rej_sent _ _ _ RJ) as [->|(g & -> & I)]; auto. right.
    exists d', b, tr. split; [reflexivity|]. split; [exact VF|]. right.
    rewrite O in F1. split; [exact F1|]. cbv zeta. rewrite F2, F3. left. eauto.
  - destruct (rej_sent _ _ _ RJ) as [->|(g & -> & I)]; auto. right.
    exists d', b, tr. split; [reflexivity|]. split; [exact VF|]. right.
    rewrite O in F1. split; [exact F1|]. cbv zeta. rewrite F2, F3. left. eauto.
  - rewrite O in F1.
    destruct SC; simpl; auto;
      try (destruct (challenge_facts _ _ _ _ H) as (_ & _ & I & _));
      right; exists d', b; eexists; (split; [reflexivity|]); (split; [exact VF|]); right;
      (split; [exact F1|]); cbv zeta; rewrite F2, F3.
    1-3: right; left; eauto.
    + destruct (rej_sent _ _ _ H5) as [->|(g & -> & I')]; eauto 10.
    + destruct (open_sent _ _ _ _ H4) as [->|(g & -> & [I'|I'])]; eauto 10.
Qed.

Lemma fw_ack_at : forall b f, fw_rx_typed (FwRxBuf b) -> fw_deserialize b = Ok f ->
  f_op f = FwAck -> u16_at b 0 = 1.
Proof.
  intros b f [L B] D O. apply bytes_ok_spec in B.
  destruct (fw_decode_total b B) as [(m & E & _ & A & S)|(e & E & _)]; [|congruence].
  rewrite D in E. injection E as <-.
  pose proof A as (_ & LA & _).
  rewrite fw_serialize_flat in S by exact LA. injection S as <-.
  unfold fw_flat. rewrite O. reflexivity.
Qed.

Lemma open_come : forall m rs tr p pre d x r post, sess_open m rs tr p ->
  tr = pre ++ EvSend d x r :: post -> m_op x = ComeIn ->
  post = [] /\ (exists fm ok ev pre', pre = EvFwConnect true :: EvFwSend fm ok :: ev :: pre'
                                     /\ is_ack ev).
Proof.
  intros m rs tr p pre d x r post H E O.
  destruct H; try solve [exfalso; do 7 (destruct pre as [|? pre]; simpl in E; try discriminate)].
  - destruct pre as [|e pre]; [discriminate|]; simpl in E; injection E as <- E.
    destruct (rej_sends _ _ _ _ _ _ _ _ H0 E) as (_ & _ & (O' & _)). congruence.
  - do 2 (destruct pre as [|? pre]; [discriminate|]; simpl in E; injection E as <- E).
    destruct (rej_sends _ _ _ _ _ _ _ _ H0 E) as (_ & _ & (O' & _)). congruence.
  - do 3 (destruct pre as [|? pre]; [discriminate|]; simpl in E; injection E as <- E).
    destruct (rej_sends _ _ _ _ _ _ _ _ H2 E) as (_ & _ & (O' & _)). congruence.
  - do 3 (destruct pre as [|? pre]; [discriminate|]; simpl in E; injection E as <- E).
    destruct (come_sends _ _ _ _ _ _ _ _ H3 E) as (_ & -> & _). split; auto.
    exists (fw_new_open peer pt (rs_port rs)), true, (EvFwRecv (FwRxBuf b)), pre.
    split; [reflexivity|]. simpl. eapply fw_ack_at; eauto.
Qed.

Lemma come_after_ack : forall tr p pre d x r post, sess tr p ->
  tr = pre ++ EvSend d x r :: post -> m_op x = ComeIn ->
  post = [] /\ exists user res_id pre0 fm ok ev pre',
     authenticated mac conf user res_id pre0
     /\ pre = pre0 ++ EvFwConnect true :: EvFwSend fm ok :: ev :: pre' /\ is_ack ev.
Proof.
  intros tr p pre d x r post H E OX.
  destruct H as [k|d' r' e Hd Ty NM|d' b m tr p Hd Ty D O RJ|d' b m tr p Hd Ty D O BK RJ
                |d' b m key tr p Hd Ty BA NG RJ|d' b m key rs tr p Hd Ty BA GR SC].
  - destruct pre; discriminate E.
  - destruct pre as [|? [|? ?]]; simpl in E; discriminate E.
  - destruct pre as [|e pre]; [discriminate E|]. simpl in E. inversion E; subst.
    destruct (rej_sends _ _ _ _ _ _ _ _ RJ eq_refl) as (_ & _ & (O' & _)). congruence.
  - destruct pre as [|e pre]; [discriminate E|]. simpl in E. inversion E; subst.
    destruct (rej_sends _ _ _ _ _ _ _ _ RJ eq_refl) as (_ & _ & (O' & _)). congruence.
  - destruct pre as [|e pre]; [discriminate E|]. simpl in E. inversion E; subst.
    destruct (rej_sends _ _ _ _ _ _ _ _ RJ eq_refl) as (_ & _ & (O' & _)). congruence.
  - destruct pre as [|e pre]; [discriminate E|]. simpl in E. injection E as <- E.
    destruct SC; try solve [exfalso; do 7 (destruct pre as [|? pre]; simpl in E; try discriminate)];
      (do 2 (destruct pre as [|? pre]; [discriminate|]; simpl in E; injection E as <- E));
      (destruct pre as [|? pre];
       [injection E as ? ? ? ?; subst; destruct (challenge_facts _ _ _ _ H) as (_ & _ & (C & _) & _);
        congruence|]).
    1-3: exfalso; do 7 (destruct pre as [|? pre]; simpl in E; try discriminate).
    + simpl in E. injection E as <- E. destruct pre as [|? pre]; [discriminate|].
      simpl in E. injection E as <- E.
      destruct (rej_sends _ _ _ _ _ _ _ _ H5 E) as (_ & _ & (O' & _)). congruence.
    + simpl in E. injection E as <- E. destruct pre as [|? pre]; [discriminate|].
      simpl in E. injection E as <- E.
      destruct (open_come _ _ _ _ _ _ _ _ _ H4 E OX) as (-> & fm & ok & ev & pre' & -> & A).
      split; auto. exists (m_user m), (m_resource m). eexists. exists fm, ok, ev, pre'.
      split; [exact (auth_of_responded d' b m key rs s1 s2 ch d0 d2 b2 m2 Ty BA GR H H2 H3)|]. split; [reflexivity|exact A].
Qed.

Lemma go_away_last : forall tr p pre d x r post, sess tr p ->
  tr = pre ++ EvSend d x r :: post -> m_op x = GoAway -> post = [].
Proof.
  intros tr p pre d x r post H E OX.
  destruct H as [k|d' r' e Hd Ty NM|d' b m tr p Hd Ty D O RJ|d' b m tr p Hd Ty D O BK RJ
                |d' b m key tr p Hd Ty BA NG RJ|d' b m key rs tr p Hd Ty BA GR SC].
  - destruct pre; discriminate E.
  - destruct pre as [|? [|? ?]]; simpl in E; discriminate E.
  - destruct pre as [|e pre]; [discriminate E|]. simpl in E. inversion E; subst.
    destruct (rej_sends _ _ _ _ _ _ _ _ RJ eq_refl) as (_ & Q & _). exact Q.
  - destruct pre as [|e pre]; [discriminate E|]. simpl in E. inversion E; subst.
    destruct (rej_sends _ _ _ _ _ _ _ _ RJ eq_refl) as (_ & Q & _). exact Q.
  - destruct pre as [|e pre]; [discriminate E|]. simpl in E. inversion E; subst.
    destruct (rej_sends _ _ _ _ _ _ _ _ RJ eq_refl) as (_ & Q & _). exact Q.
  - destruct pre as [|e pre]; [discriminate E|]. simpl in E. injection E as <- E.
    destruct SC; try solve [exfalso; do 7 (destruct pre as [|? pre]; simpl in E; try discriminate)];
      (do 2 (destruct pre as [|? pre]; [discriminate|]; simpl in E; injection E as <- E));
      (destruct pre as [|? pre];
       [injection E as ? ? ? ?; subst; destruct (challenge_facts _ _ _ _ H) as (_ & _ & (C & _) & _);
        congruence|]).
    1-3: exfalso; do 7 (destruct pre as [|? pre]; simpl in E; try discriminate).
    + simpl in E. injection E as <- E. destruct pre as [|? pre]; [discriminate|].
      simpl in E. injection E as <- E.
      destruct (rej_sends _ _ _ _ _ _ _ _ H5 E) as (_ & Q & _). exact Q.
    + simpl in E. injection E as <- E. destruct pre as [|? pre]; [discriminate|].
      simpl in E. injection E as <- E.
      destruct H4; try solve [exfalso; do 7 (destruct pre as [|? pre]; simpl in E; try discriminate)].
      * destruct pre as [|? pre]; [discriminate|]; simpl in E; injection E as <- E.
        destruct (rej_sends _ _ _ _ _ _ _ _ H5 E) as (_ & Q & _). exact Q.
      * do 2 (destruct pre as [|? pre]; [discriminate|]; simpl in E; injection E as <- E).
        destruct (rej_sends _ _ _ _ _ _ _ _ H5 E) as (_ & Q & _). exact Q.
      * do 3 (destruct pre as [|? pre]; [discriminate|]; simpl in E; injection E as <- E).
        destruct (rej_sends _ _ _ _ _ _ _ _ H7 E) as (_ & Q & _). exact Q.
      * do 3 (destruct pre as [|? pre]; [discriminate|]; simpl in E; injection E as <- E).
        destruct (come_sends _ _ _ _ _ _ _ _ H8 E) as ((Q & _) & _). congruence.
Qed.

Lemma success_means : forall tr p, sess tr p -> p = SRet (Ok tt) ->
  exists user res_id pre0 fm ev os d i,
    authenticated mac conf user res_id pre0 /\ is_ack ev
    /\ is_message i ComeIn user res_id
    /\ tr = pre0 ++ [EvFwConnect true; EvFwSend fm true; ev; EvRand 8 os; EvSend d i TxOk].
Proof.
  intros tr p H E.
  destruct H as [k|d' r' e Hd Ty NM|d' b m tr p Hd Ty D O RJ|d' b m tr p Hd Ty D O BK RJ
                |d' b m key tr p Hd Ty BA NG RJ|d' b m key rs tr p Hd Ty BA GR SC];
    try discriminate; try (destruct RJ; discriminate).
  destruct SC; try discriminate; try (destruct H5; discriminate).
  destruct H4; try discriminate; try (destruct H5; discriminate); try (destruct H7; discriminate).
  destruct H8; try discriminate. subst.
  exists (m_user m), (m_resource m). eexists.
  exists (fw_new_open peer pt (rs_port rs)), (EvFwRecv (FwRxBuf b0)), (Some s). eexists _, _.
  split; [exact (auth_of_responded d' b m key rs s1 s2 ch d d2 b2 m2 Ty BA GR H H2 H3)|].
  split; [simpl; eapply fw_ack_at; eauto|]. split; [|reflexivity]. repeat split.
Qed.

(** *** No panic *)

Lemma good_random_ok : forall sz os, (8 <= sz)%nat -> rand_typed sz os ->
  good_random (EvRand sz os) -> secure_random sz os <> Panic.
Proof.
  intros sz [b|] S Ty G; simpl in G; [|contradiction].
  rewrite secure_random_complete; auto; [discriminate|]. apply Ty.
Qed.

Lemma rej_no_panic : forall st tr p, rej st tr p -> Forall good_random tr -> p <> SRet Panic.
Proof.
  intros st tr p H F. destruct H; try discriminate.
  inversion F; subst. exfalso. eapply good_random_ok in H1; eauto; lia.
Qed.

Lemma no_panic : forall tr p, resources_have_transport conf ->
  sess tr p -> Forall good_random tr -> p <> SRet Panic.
Proof.
  intros tr p RT H F.
  destruct H as [k|d' r' e Hd Ty NM|d' b m tr p Hd Ty D O RJ|d' b m tr p Hd Ty D O BK RJ
                |d' b m key tr p Hd Ty BA NG RJ|d' b m key rs tr p Hd Ty BA GR SC];
    try discriminate; try solve [inversion F; subst; eapply rej_no_panic; eauto].
  pose proof (Forall_inv_tail F) as F1. clear F.
  destruct SC; try discriminate.
  - apply Forall_inv in F1. exfalso; eapply good_random_ok in F1; eauto; lia.
  - apply Forall_inv_tail in F1. apply Forall_inv in F1.
    exfalso; eapply good_random_ok in F1; eauto; lia.
  - do 4 (apply Forall_inv_tail in F1). eapply rej_no_panic; eauto.
  - do 4 (apply Forall_inv_tail in F1). destruct H4; try discriminate.
    + destruct GR as (R & _). apply nlookup_In in R. apply RT in R.
      destruct (rs_tcp rs), (rs_udp rs); try discriminate. destruct R; discriminate.
    + do 1 (apply Forall_inv_tail in F1). eapply rej_no_panic; eauto.
    + do 2 (apply Forall_inv_tail in F1). eapply rej_no_panic; eauto.
    + do 3 (apply Forall_inv_tail in F1). eapply rej_no_panic; eauto.
    + do 3 (apply Forall_inv_tail in F1). destruct H8; try discriminate.
      apply Forall_inv in F1. exfalso; eapply good_random_ok in F1; eauto; lia.
Qed.

(** *** Time *)

Lemma rej_time : forall st tr p, rej st tr p ->
  peer_time tr <= T /\ (length tr <= 2)%nat
  /\ ((forall m, In m (sent tr) -> m_op m = Challenge) -> peer_time tr = 0).
Proof.
  intros st tr p H. destruct H; simpl; try (repeat split; lia).
  split; [lia|]. split; [lia|]. intro A. exfalso.
  apply msg_new_ok in H1. destruct H1 as (s & _ & -> & _).
  specialize (A _ (or_introl eq_refl)). discriminate A.
Qed.

Lemma come_time : forall m tr p, sess_come m tr p ->
  peer_time tr <= T /\ (length tr <= 2)%nat
  /\ ((forall m, In m (sent tr) -> m_op m = Challenge) -> peer_time tr = 0).
Proof.
  intros m tr p H. destruct H; simpl; try (repeat split; lia).
  - split; [lia|]. split; [lia|]. intro A. exfalso.
    specialize (A _ (or_introl eq_refl)). subst. discriminate A.
  - split; [lia|]. split; [lia|]. intro A. exfalso.
    specialize (A _ (or_introl eq_refl)). subst. discriminate A.
Qed.

Lemma session_time : forall tr p, sess tr p ->
  peer_time tr <= 4 * T /\ (length tr <= 10)%nat
  /\ ((forall m, In m (sent tr) -> m_op m = Challenge) -> peer_time tr <= 3 * T).
Proof.
  intros tr p H.
  destruct H as [k|d' r' e Hd Ty NM|d' b m tr p Hd Ty D O RJ|d' b m tr p Hd Ty D O BK RJ
                |d' b m key tr p Hd Ty BA NG RJ|d' b m key rs tr p Hd Ty BA GR SC];
    try (apply rej_time in RJ; destruct RJ as (R1 & R2 & R3));
    cbn [peer_time length sent]; try (repeat split; lia).
  destruct SC; cbn [peer_time length sent]; try (repeat split; lia).
  - apply rej_time in H5; destruct H5 as (R1 & R2 & R3). split; [lia|]. split; [lia|].
    intro A. assert (peer_time tr = 0); [|lia]. apply R3. intros x I. apply A. right. exact I.
  - assert (peer_time tr <= T /\ (length tr <= 5)%nat
      /\ ((forall m, In m (sent tr) -> m_op m = Challenge) -> peer_time tr = 0)) as (R1 & R2 & R3).
    { destruct H4; cbn [peer_time length sent]; try (repeat split; lia).
      - apply rej_time in H5; destruct H5 as (R1 & R2 & R3). repeat split; auto; lia.
      - apply rej_time in H5; destruct H5 as (R1 & R2 & R3). repeat split; auto; lia.
      - apply rej_time in H7; destruct H7 as (R1 & R2 & R3). repeat split; auto; lia.
      - apply come_time in H8; destruct H8 as (R1 & R2 & R3). repeat split; auto; lia. }
    split; [lia|]. split; [lia|].
    intro A. assert (peer_time tr = 0); [|lia]. apply R3. intros x I. apply A. right. exact I.
Qed.

Lemma step_time : forall tr p ev, srun T (server_run mac conf peer) tr p -> In ev tr ->
  match ev with EvRecv d _ => d <= T | EvSend d _ _ => d <= T | _ => True end.
Proof.
  intros tr p ev R. induction R; [contradiction|].
  rewrite in_app_iff. intros [I|[<-|[]]]; [exact (IHR I)|]. destruct H; auto.
Qed.

End Props.

Lemma port_type_covers : forall tcp udp t, port_type_of tcp udp = Some t ->
  covers_tcp t = tcp /\ covers_udp t = udp.
Proof. intros [] [] t H; inversion H; subst; auto. Qed.

Lemma fw_requests_In : forall tr fm, In fm (fw_requests tr) ->
  exists pre ok post, tr = pre ++ EvFwSend fm ok :: post.
Proof.
  induction tr as [|ev tr IH]; simpl; [contradiction|]. intros fm H.
  assert (In fm (fw_requests tr) -> exists pre ok post, ev :: tr = pre ++ EvFwSend fm ok :: post)
    as C.
  { intro I. destruct (IH _ I) as (pre & ok & post & ->). exists (ev :: pre), ok, post. auto. }
  destruct ev; auto. destruct H as [->|H]; auto. exists [], ok, tr. auto.
Qed.

Lemma opens_granted : forall mac conf peer T tr p,
  keys_sized conf -> ip_address peer ->
  srun T (server_run mac conf peer) tr p ->
  forall fm, In fm (fw_requests tr) ->
  exists user res_id r t d kb rest salt auth,
    tr = EvRecv d (RxBuf kb) :: rest
    /\ wire_layout kb Knock user res_id salt auth
    /\ grants conf user res_id r
    /\ f_op fm = FwOpen
    /\ fw_addr fm = Some peer
    /\ fw_port fm = Some (t, rs_port r)
    /\ covers_tcp t = rs_tcp r /\ covers_udp t = rs_udp r.
Proof.
  intros mac conf peer T tr p KS IP R fm I.
  destruct (fw_requests_In _ _ I) as (pre & ok & post & E).
  destruct (request_facts mac conf peer T KS tr p pre fm ok post (runs mac conf peer T KS _ _ R) E)
    as (u & r & rs & pt & pre0 & A & B & G & P & F & _).
  destruct A as [key d1 kb salt nonce d2 chal d3 rb KI KV _ _ _ _ _].
  destruct KV as (s & a & t & W & _).
  exists u, r, rs, pt, d1, kb. eexists. exists s, a.
  split; [rewrite E, B; simpl; reflexivity|].
  split; [exact W|]. split; [exact G|]. subst fm.
  split; [unfold fw_new_open; destruct (addr_to_octets peer); reflexivity|].
  split.
  { unfold fw_new_open, fw_addr. pose proof (octets_roundtrip peer IP) as O.
    destruct (addr_to_octets peer) as [at_ oc]. cbn. f_equal. apply O. }
  split; [unfold fw_new_open; destruct (addr_to_octets peer); reflexivity|].
  apply port_type_covers. exact P.
Qed.

Lemma one_request : forall mac conf peer T tr p,
  keys_sized conf ->
  srun T (server_run mac conf peer) tr p -> (length (fw_requests tr) <= 1)%nat.
Proof.
  intros mac conf peer T tr p KS R.
  destruct (fw_requests tr) as [|fm l] eqn:F; [simpl; lia|].
  destruct (fw_requests_In tr fm) as (pre & ok & post & E); [rewrite F; left; auto|].
  destruct (request_facts mac conf peer T KS tr p pre fm ok post (runs mac conf peer T KS _ _ R) E)
    as (u & r & rs & pt & pre0 & A & B & _ & _ & _ & N).
  destruct A. subst tr pre. simpl in F. rewrite N in F. inversion F. simpl. lia.
Qed.
