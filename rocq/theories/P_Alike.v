(** Programs with configurations that cannot be told apart do the same (C100). *)

From Coq Require Import String ZArith NArith List Bool Lia Permutation.
From Verif Require Import M_Base M_Proto M_IpAddr M_FwProto M_ConfTypes M_Text M_Conf M_Server M_Client M_Firewall
  S_Wire S_Session S_Client S_Text S_Conf S_Firewall
  P_Base P_Session P_Load P_ConfLoad P_Files P_Secret S_Files.
Import ListNotations.
Local Open Scope N_scope.

Section Server.
Variable mac : list N -> list N -> list N.
Variables conf1 conf2 : config.
Hypothesis SC : same_config conf1 conf2.

Lemma alike_reject : forall st e, reject conf1 st e = reject conf2 st e.
Proof.
  intros st e. unfold reject, send_go_away, go_away_allowed. destruct SC as (_ & _ & _ & _ & -> & _). reflexivity.
Qed.

Lemma alike_recv : forall st o k1 k2, (forall m, ssim eq (k1 m) (k2 m)) ->
  ssim eq (recv_msg conf1 st o k1) (recv_msg conf2 st o k2).
Proof.
  intros st o k1 k2 H. unfold recv_msg. constructor. intros r _.
  destruct r as [| | |b]; try (constructor; reflexivity).
  destruct (decode_rx b) as [m|e|]; try (constructor; reflexivity).
  rewrite !alike_reject.
  repeat match goal with |- ssim _ (if ?c then _ else _) _ => destruct c end;
    first [apply H | apply ssim_refl; reflexivity].
Qed.

Lemma alike_open : forall peer st r u x,
  ssim eq (open_firewall conf1 peer st r u x) (open_firewall conf2 peer st r u x).
Proof.
  intros peer st r u x. unfold open_firewall.
  destruct (port_type_of (rs_tcp r) (rs_udp r)); [|constructor; reflexivity].
  constructor. intros [|]; cbn [negb]; [|rewrite alike_reject; apply ssim_refl; reflexivity].
  destruct (negb (auth_eqb (ps_auth st) ChallengeResponseAuth)); [constructor; reflexivity|].
  unfold fw_open_port. constructor. intros [|]; cbn [negb].
  - constructor. intros [| |b] _; rewrite alike_reject; apply ssim_refl; reflexivity.
  - rewrite alike_reject. apply ssim_refl. reflexivity.
Qed.

Lemma alike_server : forall peer, ssim eq (server_run mac conf1 peer) (server_run mac conf2 peer).
Proof.
  intros peer. unfold server_run. apply alike_recv. intros m. rewrite ?alike_reject.
  destruct SC as (_ & _ & EP & _ & _ & _ & EK & ER & _). rewrite EK, ER, EP.
  destruct (conf_key conf2 (m_user m)) as [k|]; [|apply ssim_refl; reflexivity].
  destruct (check_auth_ok_no_challenge mac m k) as [[|]|e|]; try (apply ssim_refl; reflexivity).
  rewrite ?alike_reject.
  destruct (conf_resource conf2 (m_resource m)) as [r|]; [|apply ssim_refl; reflexivity].
  rewrite ?alike_reject.
  destruct (negb (contains_user r (m_user m))); [apply ssim_refl; reflexivity|].
  destruct (rs_port r =? cp_port (c_port conf2)); [apply ssim_refl; reflexivity|].
  unfold challenge_response, new_msg. constructor. intros os _.
  destruct (msg_new Challenge (m_user m) (m_resource m) os) as [c0|e|]; try (constructor; reflexivity).
  constructor. intros os2 _.
  destruct (generate_challenge c0 os2) as [c|e|]; try (constructor; reflexivity).
  unfold send_msg. constructor. intros [| |]; try (constructor; reflexivity).
  apply alike_recv. intros y. rewrite ?alike_reject.
  destruct (check_auth_ok mac y k c) as [[|]|e|]; try (apply ssim_refl; reflexivity).
  apply alike_open.
Qed.

End Server.

Section Started.
Variable fraction : text -> option N.

Lemma by_port_alike : forall variant file ls c file' ls' c', started_from fraction variant file ls c ->
  started_from fraction variant file' ls' c' -> same_config c c' ->
  forall port user, resource_id_by_port c port user = resource_id_by_port c' port user.
Proof.
  intros variant file ls c file' ls' c' ST ST' (_ & _ & _ & _ & _ & _ & _ & ER & _).
  destruct (started_nodup _ _ _ _ _ ST) as (_ & A & B). destruct (started_nodup _ _ _ _ _ ST') as (_ & A' & B').
  apply ports_same; auto.
Qed.

Lemma alike_client : forall file ls c file' ls' c', started_from fraction VarClient file ls c ->
  started_from fraction VarClient file' ls' c' -> same_config c c' ->
  forall mac parse_ip host server port user srv crypt,
  run_knock mac parse_ip c host server port user srv crypt = run_knock mac parse_ip c' host server port user srv crypt.
Proof.
  intros file ls c file' ls' c' ST ST' SC mac parse_ip host server port user srv crypt.
  pose proof (by_port_alike _ _ _ _ _ _ _ ST ST' SC) as BP.
  destruct SC as (_ & _ & EP & _ & _ & _ & EK & _ & ED & _).
  assert (CP : M_Client.to_control_port server c = M_Client.to_control_port server c') by (unfold M_Client.to_control_port; rewrite EP; reflexivity).
  unfold run_knock. rewrite ED, EK, BP, CP. reflexivity.
Qed.

Lemma alike_fw_step : forall file ls c file' ls' c', started_from fraction VarServer file ls c ->
  started_from fraction VarServer file' ls' c' -> same_config c c' ->
  (forall d ev, fw_step c d ev = fw_step c' d ev)
  /\ (forall k exe_ok ok, fw_start c k exe_ok ok = fw_start c' k exe_ok ok).
Proof.
  intros file ls c file' ls' c' ST ST' SC.
  pose proof (by_port_alike _ _ _ _ _ _ _ ST ST' SC) as BP.
  destruct (started_configures _ _ _ _ _ ST) as [_ V].
  destruct SC as (_ & _ & EP & _ & _ & _ & _ & _ & _ & EN). destruct (EN V) as (EX & EF & ET & EC & EM).
  clear ST ST' EN V.
  assert (forall k fw r now ok send_ok, handle_message c k fw r now ok send_ok = handle_message c' k fw r now ok send_ok) as HM.
  { intros k fw r now ok send_ok. unfold handle_message.
    assert (OP : forall a p, open_port c k fw now a p ok = open_port c' k fw now a p ok).
    { intros a p. clear BP. destruct c, c'. cbn in EP, EX, EF, ET, EC, EM. subst. reflexivity. }
    destruct r as [| |b]; try reflexivity. destruct (fw_deserialize b) as [msg|e|]; try reflexivity.
    destruct (f_op msg); try reflexivity. destruct (fw_addr msg) as [a|]; try reflexivity.
    destruct (negb (addr_check a)); try reflexivity. destruct (fw_port msg) as [[pt port]|]; try reflexivity.
    rewrite BP, EP, OP. reflexivity. }
  destruct c as [v p d0 cp ct po se ks rs du ne nf nt nc nm], c' as [v' p' d0' cp' ct' po' se' ks' rs' du' ne' nf' nt' nc' nm'].
  cbn [c_port c_nft_exe c_nft_family c_nft_table c_nft_chain c_nft_timeout] in EP, EX, EF, ET, EC, EM. subst cp' ne' nf' nt' nc' nm'.
  split; [|reflexivity].
  intros d ev. unfold fw_step. destruct ev; [rewrite HM; reflexivity|reflexivity..].
Qed.

Lemma alike_history : forall file ls c file' ls' c', started_from fraction VarServer file ls c ->
  started_from fraction VarServer file' ls' c' -> same_config c c' ->
  forall n d h, history c n d h -> history c' n d h.
Proof.
  intros file ls c file' ls' c' ST ST' SC n d h H.
  destruct (alike_fw_step _ _ _ _ _ _ ST ST' SC) as (STEP & START).
  destruct (started_configures _ _ _ _ _ ST) as [_ V].
  destruct SC as (_ & _ & _ & _ & _ & _ & _ & _ & _ & EN). destruct (EN V) as (EX & EF & ET & EC & EM).
  induction H as [k exe_ok ok k' d CC FS|d h ev d' reply H IH OK FS].
  - rewrite START in FS. apply (hist_start c' n k exe_ok ok k'); [|exact FS].
    unfold configured_chain in *. rewrite <- EF, <- ET, <- EC. exact CC.
  - rewrite STEP in FS. exact (hist_step c' n d h ev d' reply IH OK FS).
Qed.

Lemma same_config_sym : forall a b, same_config a b -> same_config b a.
Proof.
  intros a b (A1 & A2 & A3 & A4 & A5 & A6 & A7 & A8 & A9 & A10).
  do 6 (split; [congruence|]). split; [intros; symmetry; apply A7|]. split; [intros; symmetry; apply A8|]. split; [auto|].
  intros V. rewrite <- A1 in V. destruct (A10 V) as (B1 & B2 & B3 & B4 & B5). auto.
Qed.

End Started.
