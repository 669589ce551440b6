(** Proofs about the wire protocol model. *)

From Coq Require Import String ZArith NArith List Bool Lia ZifyBool ZifyNat ZifyN.
From Verif Require Import M_Base M_Proto S_Wire P_Base.
Import ListNotations.
Local Open Scope N_scope.

Lemma msg_ok_spec : forall m, msg_ok m = true <-> api_message m.
Proof.
  intro m. unfold msg_ok, api_message, MAGIC, SALT_SIZE, AUTH_SIZE.
  rewrite !andb_true_iff, !N.eqb_eq, !N.ltb_lt, !Nat.eqb_eq, !bytes_ok_spec.
  change (2 ^ 32) with 4294967296. tauto.
Qed.

Lemma op_of_to : forall o, op_of_u32 (op_to_u32 o) = Ok o.
Proof. destruct o; reflexivity. Qed.

Lemma op_to_of : forall v o, op_of_u32 v = Ok o -> v = op_to_u32 o.
Proof.
  intros v o. unfold op_of_u32.
  repeat match goal with
         | |- context [v =? ?k] =>
             destruct (N.eqb_spec v k); [intro E; inversion E; subst; reflexivity|]
         end.
  discriminate.
Qed.

Lemma op_of_some : forall v, v <= 4 -> exists o, op_of_u32 v = Ok o /\ v = op_to_u32 o.
Proof.
  intros v H.
  assert (v = 0 \/ v = 1 \/ v = 2 \/ v = 3 \/ v = 4) as D by lia.
  destruct D as [->|[->|[->|[->| ->]]]]; eexists; split; reflexivity.
Qed.

Lemma op_of_none : forall v, 4 < v -> op_of_u32 v = Err "Invalid Message/Operation value".
Proof.
  intros v H. unfold op_of_u32, op_to_u32.
  repeat match goal with |- context [v =? ?k] => destruct (N.eqb_spec v k); [lia|] end.
  reflexivity.
Qed.

Lemma op_to_u32_bound : forall o, op_to_u32 o < 4294967296.
Proof. destruct o; reflexivity. Qed.

Lemma op_to_u32_inj : forall a b, op_to_u32 a = op_to_u32 b -> a = b.
Proof. destruct a, b; simpl; intro H; try reflexivity; discriminate. Qed.

Lemma op_eqb_spec : forall a b, op_eqb a b = true <-> a = b.
Proof.
  intros a b. unfold op_eqb. rewrite N.eqb_eq. split; [apply op_to_u32_inj|congruence].
Qed.

(** The flat form of a serialized message. *)
Definition flat (m : message) : list byte :=
  be32 (m_magic m) ++ be32 (op_to_u32 (m_op m)) ++ be32 (m_user m)
    ++ be32 (m_resource m) ++ m_salt m ++ m_auth m.

Lemma serialize_flat : forall m,
  length (m_salt m) = 8%nat -> length (m_auth m) = 32%nat ->
  msg_serialize m = Ok (flat m).
Proof.
  intros [mg o u r s a] Hs Ha. simpl in Hs, Ha.
  explode Hs. explode Ha. reflexivity.
Qed.

Lemma flat_length : forall m,
  length (m_salt m) = 8%nat -> length (m_auth m) = 32%nat -> length (flat m) = 56%nat.
Proof.
  intros m Hs Ha. unfold flat. rewrite !app_length, !be32_length, Hs, Ha. reflexivity.
Qed.

Lemma flat_bytes : forall m,
  all_bytes (m_salt m) -> all_bytes (m_auth m) -> all_bytes (flat m).
Proof.
  intros m Hs Ha. unfold flat.
  byte_conses; auto using all_bytes_be32.
Qed.

Lemma deserialize_flat : forall m, api_message m -> try_msg_deserialize (flat m) = Ok m.
Proof.
  intros [mg o u r s a] (Hm & Hu & Hr & Hs & Bs & Ha & Ba).
  simpl in Hm, Hu, Hr, Hs, Ha. change (2 ^ 32) with 4294967296 in *. subst mg.
  explode Hs. explode Ha.
  unfold try_msg_deserialize.
  replace (length (flat _)) with 56%nat by reflexivity.
  replace (Nat.eqb 56 MSG_SIZE) with true by reflexivity. cbn [negb].
  unfold deserialize_u32, MSG_OFFS_MAGIC, MSG_OFFS_OPERATION, MSG_OFFS_USER,
    MSG_OFFS_RESOURCE, MSG_OFFS_SALT, MSG_OFFS_AUTH, SALT_SIZE, AUTH_SIZE.
  unfold flat. cbn [m_magic m_op m_user m_resource m_salt m_auth].
  unfold slice.
  replace (length (be32 _ ++ _)) with 56%nat by reflexivity.
  cbn [Nat.leb Nat.add bind].
  change (firstn 4 (skipn 0 (be32 MAGIC ++ ?X))) with (be32 MAGIC).
  cbn [bind].
  cbn [app skipn firstn be32 bind].
  rewrite (of_be_be32' (op_to_u32 o)) by apply op_to_u32_bound.
  rewrite (of_be_be32' u Hu), (of_be_be32' r Hr).
  replace (of_be _ =? MAGIC) with true by reflexivity. cbn [negb].
  rewrite op_of_to. reflexivity.
Qed.

Lemma roundtrip : forall m, api_message m ->
  exists b, msg_serialize m = Ok b /\ length b = 56%nat /\ try_msg_deserialize b = Ok m.
Proof.
  intros m Hm. pose proof Hm as (_ & _ & _ & Hs & _ & Ha & _).
  exists (flat m). split; [apply serialize_flat; assumption|].
  split; [apply flat_length; assumption|]. apply deserialize_flat; assumption.
Qed.

Lemma layout : forall m, api_message m ->
  exists b, msg_serialize m = Ok b
            /\ wire_layout b (m_op m) (m_user m) (m_resource m) (m_salt m) (m_auth m).
Proof.
  intros m Hm. pose proof Hm as (Hmg & Hu & Hr & Hs & Bs & Ha & Ba).
  exists (flat m). split; [apply serialize_flat; assumption|].
  pose proof (flat_length m Hs Ha) as HL.
  pose proof (flat_bytes m Bs Ba) as HB.
  change (2 ^ 32) with 4294967296 in *.
  destruct m as [mg o u r s a]. simpl in Hmg, Hu, Hr, Hs, Bs, Ha, Ba |- *. subst mg.
  split; try assumption; clear HL HB Bs Ba.
  - reflexivity.
  - unfold u32_at. destruct o; reflexivity.
  - unfold u32_at, flat. simpl. lia.
  - unfold u32_at, flat. simpl. lia.
  - explode Hs. reflexivity.
  - explode Hs. explode Ha. reflexivity.
Qed.

(** Everything about decoding in one lemma. *)
Lemma decode_total : forall b, all_bytes b ->
  (exists m, try_msg_deserialize b = Ok m /\ valid_frame b /\ api_message m
             /\ msg_serialize m = Ok b)
  \/ (exists e, try_msg_deserialize b = Err e /\ ~ valid_frame b).
Proof.
  intros b HB. unfold try_msg_deserialize.
  destruct (Nat.eqb_spec (length b) MSG_SIZE) as [HL|HL]; cbn [negb].
  2:{ right. eexists; split; [reflexivity|]. intros [H _]. apply HL. exact H. }
  change MSG_SIZE with 56%nat in HL.
  explode HL. split_bytes.
  unfold deserialize_u32, MSG_OFFS_MAGIC, MSG_OFFS_OPERATION, MSG_OFFS_USER,
    MSG_OFFS_RESOURCE, MSG_OFFS_SALT, MSG_OFFS_AUTH, SALT_SIZE, AUTH_SIZE, slice.
  cbn [length Nat.leb Nat.add bind firstn skipn].
  match goal with
  | |- context [of_be ?l =? MAGIC] => destruct (N.eqb_spec (of_be l) MAGIC) as [HM|HM]
  end; cbn [negb bind].
  2:{ right. eexists; split; [reflexivity|]. intros [_ [H _]]. apply HM.
      unfold u32_at in H. cbn [nth Nat.add] in H. unfold of_be. cbn [fold_left].
      unfold MAGIC. lia. }
  match goal with
  | |- context [bind (op_of_u32 (of_be ?l)) _] => set (ov := of_be l) in *
  end.
  destruct (N.leb_spec ov 4) as [HO|HO].
  - left. destruct (op_of_some ov HO) as (o & Eo & Ev). rewrite Eo. cbn [bind].
    eexists; split; [reflexivity|]. split; [|split].
    + split; [reflexivity|]. unfold u32_at. cbn [nth Nat.add].
      subst ov. unfold of_be, MAGIC in *. cbn [fold_left] in *. lia.
    + unfold api_message. cbn [m_magic m_op m_user m_resource m_salt m_auth].
      split; [exact HM|].
      split; [apply of_be_bound4; assumption|].
      split; [apply of_be_bound4; assumption|].
      split; [reflexivity|].
      split; [byte_conses; assumption|].
      split; [reflexivity|].
      byte_conses; assumption.
    + rewrite serialize_flat by reflexivity. unfold flat.
      cbn [m_magic m_op m_user m_resource m_salt m_auth].
      rewrite <- Ev. subst ov. rewrite !be32_of_be by assumption. reflexivity.
  - right. rewrite (op_of_none ov HO). cbn [bind]. eexists; split; [reflexivity|].
    intros [_ [_ H]]. subst ov. unfold u32_at in H. cbn [nth Nat.add] in H.
    unfold of_be in HO. cbn [fold_left] in HO. lia.
Qed.

Lemma decode_accepts_iff : forall b, all_bytes b ->
  ((exists m, try_msg_deserialize b = Ok m) <-> valid_frame b).
Proof.
  intros b HB. destruct (decode_total b HB) as [(m & E & V & _)|(e & E & V)].
  - split; eauto.
  - split; [intros [m Em]; congruence|tauto].
Qed.

Lemma decode_canonical : forall b m, all_bytes b ->
  try_msg_deserialize b = Ok m -> api_message m /\ msg_serialize m = Ok b.
Proof.
  intros b m HB E. destruct (decode_total b HB) as [(m' & E' & _ & A & S)|(e & E' & _)].
  - rewrite E in E'. inversion E'; subst. auto.
  - congruence.
Qed.

Lemma decode_no_panic : forall b, all_bytes b -> try_msg_deserialize b <> Panic.
Proof.
  intros b HB. destruct (decode_total b HB) as [(m' & E' & _)|(e & E' & _)];
    rewrite E'; discriminate.
Qed.

Lemma encode_injective : forall m1 m2, api_message m1 -> api_message m2 ->
  msg_serialize m1 = msg_serialize m2 -> m1 = m2.
Proof.
  intros m1 m2 H1 H2 E.
  destruct (roundtrip m1 H1) as (b1 & E1 & _ & D1).
  destruct (roundtrip m2 H2) as (b2 & E2 & _ & D2).
  rewrite E1, E2 in E. inversion E; subst. congruence.
Qed.

(** *** secure_random *)

Lemma secure_random_ok : forall sz os buf,
  secure_random sz os = Ok buf ->
  os = Some buf /\ (8 <= sz)%nat /\ (forall c, buf <> repeat c (length buf))
  /\ buf <> repeat 0 sz /\ buf <> repeat 255 sz.
Proof.
  intros sz os buf. unfold secure_random, assert_.
  destruct (Nat.leb_spec 8 sz) as [Hs|Hs]; [|discriminate].
  destruct os as [l|]; [|discriminate].
  destruct (list_eqb l (repeat 0 sz)) eqn:E0; [discriminate|]. simpl.
  destruct (list_eqb l (repeat 255 sz)) eqn:E1; [discriminate|]. simpl.
  destruct l as [|f l']; [discriminate|].
  destruct (forallb (fun x => x =? f) (f :: l')) eqn:E2; [discriminate|].
  cbn [negb]. intro E. inversion E; subst buf.
  split; [reflexivity|]. split; [exact Hs|]. split.
  - intros c Hc.
    assert (forallb (fun x => x =? f) (f :: l') = true) as E3; [|congruence].
    apply forallb_forall. intros x Hx.
    assert (f = c) as -> by (simpl in Hc; congruence).
    rewrite Hc in Hx. apply repeat_spec in Hx. subst. apply N.eqb_refl.
  - split; apply list_eqb_false; assumption.
Qed.

(** The generator wrapper returns for all non-degenerate bytes. *)
Lemma secure_random_complete : forall sz buf, (8 <= sz)%nat -> length buf = sz ->
  (forall c, buf <> repeat c sz) -> secure_random sz (Some buf) = Ok buf.
Proof.
  intros sz buf Hs HL Hd. unfold secure_random, assert_.
  destruct (Nat.leb_spec 8 sz) as [_|H]; [|lia].
  replace (list_eqb buf (repeat 0 sz)) with false
    by (symmetry; apply list_eqb_false; apply Hd).
  replace (list_eqb buf (repeat 255 sz)) with false
    by (symmetry; apply list_eqb_false; apply Hd).
  cbn [negb]. destruct buf as [|f l]; [simpl in HL; lia|].
  destruct (forallb (fun x => x =? f) (f :: l)) eqn:E; [|reflexivity].
  exfalso. apply (Hd f). rewrite <- HL.
  rewrite forallb_forall in E. clear - E.
  induction (f :: l) as [|x l' IH]; [reflexivity|].
  simpl. f_equal.
  - apply N.eqb_eq. apply E. left. reflexivity.
  - apply IH. intros y Hy. apply E. right. exact Hy.
Qed.

Lemma msg_new_ok : forall op u r os m,
  msg_new op u r os = Ok m ->
  exists salt, os = Some salt /\ m = Msg MAGIC op u r salt ZERO_AUTH
               /\ (forall c, salt <> repeat c (length salt)).
Proof.
  intros op u r os m. unfold msg_new.
  destruct (secure_random SALT_SIZE os) as [s| |] eqn:E; simpl; try discriminate.
  intro H; inversion H; subst. apply secure_random_ok in E.
  destruct E as (-> & _ & D & _). eauto.
Qed.

Lemma zero_auth_ok : length ZERO_AUTH = 32%nat /\ all_bytes ZERO_AUTH.
Proof. split; [reflexivity|]. apply bytes_ok_spec. reflexivity. Qed.

(** *** Authentication *)

Lemma mac_input_length : forall m c, length (m_salt m) = 8%nat -> length c = 32%nat ->
  length (mac_input m c) = 52%nat.
Proof.
  intros m c Hs Hc. unfold mac_input. rewrite !app_length, !be32_length, Hs, Hc. reflexivity.
Qed.

Lemma app_inj_len : forall (A : Type) (a b c d : list A),
  length a = length c -> a ++ b = c ++ d -> a = c /\ b = d.
Proof.
  induction a as [|x a IH]; destruct c as [|y c]; simpl; intros d HL E; try discriminate.
  - auto.
  - inversion E; subst. destruct (IH b c d) as [-> ->]; auto.
Qed.

Lemma mac_input_injective : forall m1 m2 c1 c2,
  api_message m1 -> api_message m2 -> length c1 = 32%nat -> length c2 = 32%nat ->
  mac_input m1 c1 = mac_input m2 c2 ->
  m_op m1 = m_op m2 /\ m_user m1 = m_user m2 /\ m_resource m1 = m_resource m2
  /\ m_salt m1 = m_salt m2 /\ c1 = c2.
Proof.
  intros m1 m2 c1 c2 H1 H2 L1 L2 E.
  destruct H1 as (_ & U1 & R1 & S1 & _). destruct H2 as (_ & U2 & R2 & S2 & _).
  change (2 ^ 32) with 4294967296 in *.
  unfold mac_input in E.
  apply app_inj_len in E; [|reflexivity]. destruct E as [EO E].
  apply app_inj_len in E; [|reflexivity]. destruct E as [EU E].
  apply app_inj_len in E; [|reflexivity]. destruct E as [ER E].
  apply app_inj_len in E; [|congruence]. destruct E as [ES EC].
  apply be32_inj in EO; auto using op_to_u32_bound.
  apply be32_inj in EU; auto. apply be32_inj in ER; auto.
  apply op_to_u32_inj in EO. auto.
Qed.

Section Mac.
Variable mac : list byte -> list byte -> list byte.

Lemma authenticate_ok : forall m k c, length k = 32%nat -> length c = 32%nat ->
  authenticate mac m k c = Ok (mac k (mac_input m c)).
Proof.
  intros m k c Hk Hc. unfold authenticate, KEY_SIZE, AUTH_SIZE. rewrite Hk, Hc. reflexivity.
Qed.

Lemma check_knock_iff : forall m k, m_op m = Knock -> length k = 32%nat ->
  check_auth_ok_no_challenge mac m k
  = Ok (list_eqb (m_auth m) (mac k (mac_input m ZERO_AUTH))).
Proof.
  intros m k Ho Hk. unfold check_auth_ok_no_challenge, authenticate_no_challenge.
  rewrite Ho. cbn [op_eqb]. rewrite authenticate_ok by auto. reflexivity.
Qed.

Lemma check_response_iff : forall m k ch, m_op m = Response -> m_op ch = Challenge ->
  length k = 32%nat -> length (m_auth ch) = 32%nat ->
  check_auth_ok mac m k ch
  = Ok (list_eqb (m_auth m) (mac k (mac_input m (m_auth ch)))).
Proof.
  intros m k ch Ho Hc Hk Hl. unfold check_auth_ok.
  rewrite Ho, Hc. cbn [op_eqb]. rewrite authenticate_ok by auto. reflexivity.
Qed.

Lemma mac_input_set_auth : forall m a c, mac_input (set_auth m a) c = mac_input m c.
Proof. reflexivity. Qed.

Lemma generate_knock : forall m k, m_op m = Knock -> length k = 32%nat ->
  generate_auth_no_challenge mac m k
  = Ok (set_auth m (mac k (mac_input m ZERO_AUTH))).
Proof.
  intros m k Ho Hk. unfold generate_auth_no_challenge, authenticate_no_challenge.
  rewrite Ho. cbn [op_eqb]. rewrite authenticate_ok by auto. reflexivity.
Qed.

Lemma generate_response : forall m k ch, m_op m = Response -> m_op ch = Challenge ->
  length k = 32%nat -> length (m_auth ch) = 32%nat ->
  generate_auth mac m k ch
  = Ok (set_auth m (mac k (mac_input m (m_auth ch)))).
Proof.
  intros m k ch Ho Hc Hk Hl. unfold generate_auth.
  rewrite Ho, Hc. cbn [op_eqb]. rewrite authenticate_ok by auto. reflexivity.
Qed.

End Mac.

(** *** Tokens *)

Lemma protected_text_mac_input : forall m c,
  api_message m -> length c = 32%nat -> all_bytes c ->
  protected_text (mac_input m c) (m_op m) (m_user m) (m_resource m) (m_salt m) c.
Proof.
  intros m c (Hmg & Hu & Hr & Hs & Bs & Ha & Ba) Hc Bc.
  change (2 ^ 32) with 4294967296 in *.
  pose proof (mac_input_length m c Hs Hc) as HL.
  assert (all_bytes (mac_input m c)) as HB.
  { unfold mac_input. byte_conses; auto using all_bytes_be32. }
  destruct m as [mg o u r s a]. simpl in Hmg, Hu, Hr, Hs, Bs, Ha, Ba |- *.
  split; try assumption; clear HL HB Bs Ba Bc.
  - unfold u32_at. destruct o; reflexivity.
  - unfold u32_at, mac_input. simpl. lia.
  - unfold u32_at, mac_input. simpl. lia.
  - clear Hc Ha. explode Hs. reflexivity.
  - clear Ha. explode Hs. explode Hc. reflexivity.
Qed.

Lemma knock_check_meaning : forall mac m k,
  api_message m -> m_op m = Knock -> length k = 32%nat ->
  exists text,
    protected_text text Knock (m_user m) (m_resource m) (m_salt m) no_challenge
    /\ ((check_auth_ok_no_challenge mac m k = Ok true <-> m_auth m = mac k text)
        /\ (check_auth_ok_no_challenge mac m k = Ok false <-> m_auth m <> mac k text)).
Proof.
  intros mac m k Hm Ho Hk. exists (mac_input m ZERO_AUTH). split.
  - rewrite <- Ho. apply protected_text_mac_input; auto; apply zero_auth_ok.
  - rewrite check_knock_iff by assumption.
    destruct (list_eqb (m_auth m) (mac k (mac_input m ZERO_AUTH))) eqn:E.
    + apply list_eqb_spec in E. split; split; intro H; try congruence; try discriminate.
    + apply list_eqb_false in E. split; split; intro H; try congruence; try discriminate.
Qed.

Lemma response_check_meaning : forall mac m k ch,
  api_message m -> m_op m = Response -> api_message ch -> m_op ch = Challenge ->
  length k = 32%nat ->
  exists text,
    protected_text text Response (m_user m) (m_resource m) (m_salt m) (m_auth ch)
    /\ ((check_auth_ok mac m k ch = Ok true <-> m_auth m = mac k text)
        /\ (check_auth_ok mac m k ch = Ok false <-> m_auth m <> mac k text)).
Proof.
  intros mac m k ch Hm Ho Hc Hco Hk. exists (mac_input m (m_auth ch)).
  pose proof Hc as (_ & _ & _ & _ & _ & La & Ba). split.
  - rewrite <- Ho. apply protected_text_mac_input; auto.
  - rewrite check_response_iff by assumption.
    destruct (list_eqb (m_auth m) (mac k (mac_input m (m_auth ch)))) eqn:E.
    + apply list_eqb_spec in E. split; split; intro H; try congruence; try discriminate.
    + apply list_eqb_false in E. split; split; intro H; try congruence; try discriminate.
Qed.

Lemma protected_text_det : forall b o1 u1 r1 s1 c1 o2 u2 r2 s2 c2,
  protected_text b o1 u1 r1 s1 c1 -> protected_text b o2 u2 r2 s2 c2 ->
  o1 = o2 /\ u1 = u2 /\ r1 = r2 /\ s1 = s2 /\ c1 = c2.
Proof.
  intros b o1 u1 r1 s1 c1 o2 u2 r2 s2 c2 [] []. repeat split; try congruence.
  assert (opcode o1 = opcode o2) as E by congruence. destruct o1, o2; simpl in E;
    try reflexivity; discriminate.
Qed.

Lemma honest_knock : forall mac k user resource salt m,
  (forall x y, length (mac x y) = 32%nat /\ all_bytes (mac x y)) ->
  length k = 32%nat -> user < 2 ^ 32 -> resource < 2 ^ 32 ->
  length salt = 8%nat -> all_bytes salt ->
  msg_new Knock user resource (Some salt) = Ok m ->
  exists m' b m'',
    generate_auth_no_challenge mac m k = Ok m'
    /\ msg_serialize m' = Ok b /\ try_msg_deserialize b = Ok m''
    /\ m_op m'' = Knock /\ m_user m'' = user /\ m_resource m'' = resource
    /\ check_auth_ok_no_challenge mac m'' k = Ok true.
Proof.
  intros mac k user resource salt m Hmac Hk Hu Hr Hs Bs Hn.
  apply msg_new_ok in Hn. destruct Hn as (s & E & -> & _). inversion E; subst s; clear E.
  rewrite generate_knock by auto.
  set (a := mac k _).
  assert (api_message (set_auth (Msg MAGIC Knock user resource salt ZERO_AUTH) a)) as Hm.
  { unfold api_message; simpl. split; [reflexivity|].
    repeat (split; [assumption|]). apply Hmac. }
  destruct (roundtrip _ Hm) as (b & Es & _ & Ed).
  eexists. exists b. eexists. split; [reflexivity|].
  split; [exact Es|]. split; [exact Ed|].
  split; [reflexivity|]. split; [reflexivity|]. split; [reflexivity|].
  rewrite check_knock_iff by auto. unfold a. simpl.
  rewrite mac_input_set_auth, list_eqb_refl. reflexivity.
Qed.

Lemma honest_response : forall mac k user resource salt m ch,
  (forall x y, length (mac x y) = 32%nat /\ all_bytes (mac x y)) ->
  length k = 32%nat -> user < 2 ^ 32 -> resource < 2 ^ 32 ->
  length salt = 8%nat -> all_bytes salt ->
  api_message ch -> m_op ch = Challenge ->
  msg_new Response user resource (Some salt) = Ok m ->
  exists m' b m'',
    generate_auth mac m k ch = Ok m'
    /\ msg_serialize m' = Ok b /\ try_msg_deserialize b = Ok m''
    /\ m_op m'' = Response /\ m_user m'' = user /\ m_resource m'' = resource
    /\ check_auth_ok mac m'' k ch = Ok true.
Proof.
  intros mac k user resource salt m ch Hmac Hk Hu Hr Hs Bs Hch Hco Hn.
  apply msg_new_ok in Hn. destruct Hn as (s & E & -> & _). inversion E; subst s; clear E.
  pose proof Hch as (_ & _ & _ & _ & _ & Lc & _).
  rewrite generate_response by auto.
  set (a := mac k _).
  assert (api_message (set_auth (Msg MAGIC Response user resource salt ZERO_AUTH) a)) as Hm.
  { unfold api_message; simpl. split; [reflexivity|].
    repeat (split; [assumption|]). apply Hmac. }
  destruct (roundtrip _ Hm) as (b & Es & _ & Ed).
  eexists. exists b. eexists. split; [reflexivity|].
  split; [exact Es|]. split; [exact Ed|].
  split; [reflexivity|]. split; [reflexivity|]. split; [reflexivity|].
  rewrite check_response_iff by auto. unfold a. simpl.
  rewrite mac_input_set_auth, list_eqb_refl. reflexivity.
Qed.

(** A response token is valid for one (user, resource, salt, challenge) only. *)
Lemma response_token_unique : forall mac k m1 c1 m2 c2,
  api_message m1 -> api_message m2 -> api_message c1 -> api_message c2 ->
  m_op m1 = Response -> m_op m2 = Response -> m_op c1 = Challenge -> m_op c2 = Challenge ->
  length k = 32%nat ->
  check_auth_ok mac m1 k c1 = Ok true -> check_auth_ok mac m2 k c2 = Ok true ->
  m_auth m1 = m_auth m2 ->
  (m_user m1 = m_user m2 /\ m_resource m1 = m_resource m2 /\ m_salt m1 = m_salt m2
   /\ m_auth c1 = m_auth c2)
  \/ (exists t1 t2, t1 <> t2 /\ mac k t1 = mac k t2
       /\ protected_text t1 Response (m_user m1) (m_resource m1) (m_salt m1) (m_auth c1)
       /\ protected_text t2 Response (m_user m2) (m_resource m2) (m_salt m2) (m_auth c2)).
Proof.
  intros mac k m1 c1 m2 c2 A1 A2 B1 B2 O1 O2 P1 P2 Hk C1 C2 E.
  destruct (response_check_meaning mac m1 k c1) as (t1 & T1 & [F1 _] & _); auto.
  destruct (response_check_meaning mac m2 k c2) as (t2 & T2 & [F2 _] & _); auto.
  specialize (F1 C1). specialize (F2 C2).
  destruct (list_eqb t1 t2) eqn:Et.
  - apply list_eqb_spec in Et. subst t2. left.
    pose proof (protected_text_det _ _ _ _ _ _ _ _ _ _ _ T1 T2). tauto.
  - apply list_eqb_false in Et. right. exists t1, t2. repeat split; try congruence; auto;
      try apply T1; try apply T2.
Qed.

(** A knock token is never a response token. *)
Lemma knock_token_no_response : forall mac k m1 m2 c2,
  api_message m1 -> api_message m2 -> api_message c2 ->
  m_op m1 = Knock -> m_op m2 = Response -> m_op c2 = Challenge ->
  length k = 32%nat ->
  check_auth_ok_no_challenge mac m1 k = Ok true -> check_auth_ok mac m2 k c2 = Ok true ->
  m_auth m1 = m_auth m2 ->
  exists t1 t2, t1 <> t2 /\ mac k t1 = mac k t2
       /\ protected_text t1 Knock (m_user m1) (m_resource m1) (m_salt m1) no_challenge
       /\ protected_text t2 Response (m_user m2) (m_resource m2) (m_salt m2) (m_auth c2).
Proof.
  intros mac k m1 m2 c2 A1 A2 B2 O1 O2 P2 Hk C1 C2 E.
  destruct (knock_check_meaning mac m1 k) as (t1 & T1 & [F1 _] & _); auto.
  destruct (response_check_meaning mac m2 k c2) as (t2 & T2 & [F2 _] & _); auto.
  specialize (F1 C1). specialize (F2 C2).
  exists t1, t2. split; [|split; [congruence|auto]].
  intro Et. subst t2.
  pose proof (protected_text_det _ _ _ _ _ _ _ _ _ _ _ T1 T2) as [D _]. discriminate.
Qed.

Lemma knock_token_unique : forall mac k m1 m2,
  api_message m1 -> api_message m2 ->
  m_op m1 = Knock -> m_op m2 = Knock -> length k = 32%nat ->
  check_auth_ok_no_challenge mac m1 k = Ok true ->
  check_auth_ok_no_challenge mac m2 k = Ok true ->
  m_auth m1 = m_auth m2 ->
  m1 = m2
  \/ (exists t1 t2, t1 <> t2 /\ mac k t1 = mac k t2
       /\ protected_text t1 Knock (m_user m1) (m_resource m1) (m_salt m1) no_challenge
       /\ protected_text t2 Knock (m_user m2) (m_resource m2) (m_salt m2) no_challenge).
Proof.
  intros mac k m1 m2 A1 A2 O1 O2 Hk C1 C2 E.
  destruct (knock_check_meaning mac m1 k) as (t1 & T1 & [F1 _] & _); auto.
  destruct (knock_check_meaning mac m2 k) as (t2 & T2 & [F2 _] & _); auto.
  specialize (F1 C1). specialize (F2 C2).
  destruct (list_eqb t1 t2) eqn:Et.
  - apply list_eqb_spec in Et. subst t2. left.
    pose proof (protected_text_det _ _ _ _ _ _ _ _ _ _ _ T1 T2) as (_ & U & R & S & _).
    destruct A1 as (M1 & _), A2 as (M2 & _).
    destruct m1, m2; simpl in *. congruence.
  - apply list_eqb_false in Et. right. exists t1, t2. repeat split; try congruence; auto;
      try apply T1; try apply T2.
Qed.

Lemma msg_new_api : forall o user resource salt m,
  user < 2 ^ 32 -> resource < 2 ^ 32 -> length salt = 8%nat -> all_bytes salt ->
  msg_new o user resource (Some salt) = Ok m -> api_message m.
Proof.
  intros o u r s m Hu Hr Hs Bs H. apply msg_new_ok in H.
  destruct H as (s' & E & -> & _). inversion E; subst s'.
  unfold api_message; simpl. split; [reflexivity|].
  repeat (split; [assumption|]). apply zero_auth_ok.
Qed.

Lemma decode_layout : forall b m, all_bytes b ->
  try_msg_deserialize b = Ok m ->
  wire_layout b (m_op m) (m_user m) (m_resource m) (m_salt m) (m_auth m).
Proof.
  intros b m HB E. destruct (decode_canonical b m HB E) as [A S].
  destruct (layout m A) as (b' & S' & L). congruence.
Qed.

Lemma wire_frames_exist :
  (exists b, all_bytes b /\ valid_frame b)
  /\ (exists b, all_bytes b /\ length b = 56%nat /\ ~ valid_frame b).
Proof.
  split.
  - exists (be32 MAGIC ++ repeat 0 52). split; [apply bytes_ok_spec; reflexivity|].
    repeat split. intro H. discriminate H.
  - exists (repeat 0 56). split; [apply bytes_ok_spec; reflexivity|].
    split; [reflexivity|]. intros (_ & H & _). discriminate H.
Qed.
