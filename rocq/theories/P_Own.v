(** Proofs that a knock depends on its own lines only (C103). *)

From Coq Require Import String ZArith NArith List Bool Lia Permutation.
From Verif Require Import M_Base M_Proto M_IpAddr M_FwProto M_ConfTypes M_Text M_Conf M_Server M_Client
  S_Wire S_Session S_Client S_Text S_Conf
  P_Base P_Proto P_Session P_Server P_Conf P_Load P_ConfLoad P_Files P_Secret P_Str S_Files S_Own.
Import ListNotations.
Local Open Scope N_scope.

Section Server.
Variable mac : list N -> list N -> list N.
Variables conf1 conf2 : config.
Hypothesis EPol : c_policy conf1 = c_policy conf2.
Hypothesis EPort : c_port conf1 = c_port conf2.

Lemma own_reject : forall st e, reject conf1 st e = reject conf2 st e.
Proof. intros st e. unfold reject, send_go_away, go_away_allowed. rewrite EPol. reflexivity. Qed.

Lemma own_recv : forall st o k1 k2, (forall m, ssim eq (k1 m) (k2 m)) ->
  ssim eq (recv_msg conf1 st o k1) (recv_msg conf2 st o k2).
Proof.
  intros st o k1 k2 H. unfold recv_msg. constructor. intros r _.
  destruct r as [| | |b]; try (constructor; reflexivity).
  destruct (decode_rx b) as [m|e|]; try (constructor; reflexivity).
  rewrite !own_reject.
  repeat match goal with |- ssim _ (if ?c then _ else _) _ => destruct c end;
    first [apply H | apply ssim_refl; reflexivity].
Qed.

Lemma own_open : forall peer st r u x,
  ssim eq (open_firewall conf1 peer st r u x) (open_firewall conf2 peer st r u x).
Proof.
  intros peer st r u x. unfold open_firewall.
  destruct (port_type_of (rs_tcp r) (rs_udp r)); [|constructor; reflexivity].
  constructor. intros [|]; cbn [negb]; [|rewrite own_reject; apply ssim_refl; reflexivity].
  destruct (negb (auth_eqb (ps_auth st) ChallengeResponseAuth)); [constructor; reflexivity|].
  unfold fw_open_port. constructor. intros [|]; cbn [negb].
  - constructor. intros [| |b] _; rewrite own_reject; apply ssim_refl; reflexivity.
  - rewrite own_reject. apply ssim_refl. reflexivity.
Qed.

Lemma own_server : forall peer user id T tr p,
  conf_key conf1 user = conf_key conf2 user -> conf_resource conf1 id = conf_resource conf2 id ->
  begins_with_knock user id tr -> srun T (server_run mac conf1 peer) tr p ->
  exists p', srun T (server_run mac conf2 peer) tr p' /\ ssim eq p p'.
Proof.
  intros peer user id T tr p EK ER (d & b & rest & salt & auth & -> & WL) R.
  apply srun_inv in R. destruct R as [[X _]|(ev & p1 & tr1 & E & S & R)]; [discriminate X|]. injection E as <- <-.
  edestruct (P_Session.layout_decodes mac) as (m & D & _ & MO & MU & MR & _); [exact WL|].
  unfold server_run, recv_msg in S. inversion S as [k d' r Hd HT E2 E3 E4| | | | |]; subst.
  match goal with H : srun T ?q rest p |- _ => assert (exists q', sstep T (server_run mac conf2 peer) (EvRecv d (RxBuf b)) q' /\ ssim eq q q') as (q' & S' & SM) end.
  { eexists. split; [unfold server_run, recv_msg; constructor; assumption|]. cbv beta iota.
    unfold decode_rx. rewrite D, MO. cbn [op_eqb negb ps_user ps_resource].
    rewrite EK, ER, EPort, ?own_reject.
    destruct (conf_key conf2 (m_user m)) as [k|]; [|apply ssim_refl; reflexivity].
    destruct (check_auth_ok_no_challenge mac m k) as [[|]|e|]; try (apply ssim_refl; reflexivity).
    rewrite ?own_reject.
    destruct (conf_resource conf2 (m_resource m)) as [r|]; [|apply ssim_refl; reflexivity].
    rewrite ?own_reject.
    destruct (negb (contains_user r (m_user m))); [apply ssim_refl; reflexivity|].
    destruct (rs_port r =? cp_port (c_port conf2)); [apply ssim_refl; reflexivity|].
    unfold challenge_response, new_msg. constructor. intros os _.
    destruct (msg_new Challenge (m_user m) (m_resource m) os) as [c0|e|]; try (constructor; reflexivity).
    constructor. intros os2 _.
    destruct (generate_challenge c0 os2) as [c|e|]; try (constructor; reflexivity).
    unfold send_msg. constructor. intros [| |]; try (constructor; reflexivity).
    apply own_recv. intros y. rewrite ?own_reject.
    destruct (check_auth_ok mac y k c) as [[|]|e|]; try (apply ssim_refl; reflexivity).
    apply own_open. }
  destruct (ssim_run _ _ _ _ _ R _ SM) as (p' & R' & SM'). exists p'. split; [|exact SM'].
  eapply srun_front; eassumption.
Qed.

End Server.

Lemma opt_ext : forall (A : Type) (a b : option A), (forall x, a = Some x <-> b = Some x) -> a = b.
Proof.
  intros A [x|] b H; [symmetry; apply H; reflexivity|]. destruct b as [y|]; [|reflexivity]. apply H. reflexivity.
Qed.

Section Started.
Variable fraction : text -> option N.
Variable variant : conf_variant.
Variables (file file' : option (list N)) (ls ls' : list text) (c c' : config).
Hypothesis ST : started_from fraction variant file ls c.
Hypothesis ST' : started_from fraction variant file' ls' c'.

Lemma own_key : forall user, same_user ls ls' user -> conf_key c user = conf_key c' user.
Proof.
  intros user H. apply opt_ext. intros k.
  destruct (started_configures _ _ _ _ _ ST) as [CF _]. destruct (started_configures _ _ _ _ _ ST') as [CF' _].
  rewrite (proj2 (proj2 (cf_keys _ _ _ CF)) user k), (proj2 (proj2 (cf_keys _ _ _ CF')) user k). apply H.
Qed.

Lemma own_resource : forall id, same_resource ls ls' id -> conf_resource c id = conf_resource c' id.
Proof.
  intros id H. apply opt_ext. intros r.
  destruct (started_configures _ _ _ _ _ ST) as [CF _]. destruct (started_configures _ _ _ _ _ ST') as [CF' _].
  rewrite (proj2 (proj2 (cf_resources _ _ _ CF)) id r), (proj2 (proj2 (cf_resources _ _ _ CF')) id r). apply H.
Qed.

Lemma own_port : same_control ls ls' -> c_port c = c_port c'.
Proof.
  intros H. destruct (started_configures _ _ _ _ _ ST) as [CF _]. destruct (started_configures _ _ _ _ _ ST') as [CF' _].
  destruct ST' as (_ & _ & _ & _ & W & _).
  eapply setting_fun; [..|apply (proj1 (H _)); exact (cf_port _ _ _ CF)|exact (cf_port _ _ _ CF')].
  - intros t x y A B. apply parse_port_spec in A, B. congruence.
  - intros v w. apply has_option_fun. exact W.
Qed.

Lemma own_policy : same_policy ls ls' -> c_policy c = c_policy c'.
Proof.
  intros H. destruct (started_configures _ _ _ _ _ ST) as [CF _]. destruct (started_configures _ _ _ _ _ ST') as [CF' _].
  destruct ST' as (_ & _ & _ & _ & W & _).
  eapply setting_fun; [..|apply (proj1 (H _)); exact (cf_policy _ _ _ CF)|exact (cf_policy _ _ _ CF')].
  - intros t x y A B. apply parse_policy_spec in A, B. congruence.
  - intros v w. apply has_option_fun. exact W.
Qed.

Lemma own_by_port : forall port user, same_port ls ls' port ->
  resource_id_by_port c port user = resource_id_by_port c' port user.
Proof.
  intros port user H. apply opt_ext. intros id. unfold resource_id_by_port.
  destruct (started_nodup _ _ _ _ _ ST) as (_ & A & B). destruct (started_nodup _ _ _ _ _ ST') as (_ & A' & B').
  rewrite !by_port_spec by assumption.
  split; intros (r & J & P); exists r; (split; [|exact P]); destruct P as (P & _).
  - apply (started_resources _ _ _ _ _ ST'), (H _ _ P), (started_resources _ _ _ _ _ ST). exact J.
  - apply (started_resources _ _ _ _ _ ST), (H _ _ P), (started_resources _ _ _ _ _ ST'). exact J.
Qed.

End Started.

(** *** Edits *)

(** Only options [k] of section [sec] with [touched k] differ. *)
Lemma own_settings : forall sec (touched : text -> Prop) ls ls', sec <> lit "GENERAL" ->
  (forall s k x, s <> sec \/ ~ touched k -> has_option ls s k x <-> has_option ls' s k x) ->
  same_control ls ls' /\ same_policy ls ls'.
Proof.
  intros sec touched ls ls' NG HS.
  assert (HG : forall k x, has_option ls (lit "GENERAL") k x <-> has_option ls' (lit "GENERAL") k x)
    by (intros; apply HS; left; auto).
  split; intros z; (split; (intros [(w & H & M)|(N & E)]; [left; exists w; split; [apply HG; exact H|exact M]
         |right; split; [|exact E]; intros w H; apply (N w); apply HG; exact H])).
Qed.

Lemma own_entries : forall sec n ls ls', 
  (forall s k x, s <> sec \/ ~ id_text k n -> has_option ls s k x <-> has_option ls' s k x) ->
  forall (A : Type) s (means : text -> A -> Prop) id x, lit s <> sec \/ id <> n ->
  entry ls s means id x <-> entry ls' s means id x.
Proof.
  intros sec n ls ls' HS A s means id x NE.
  assert (NJ : forall k, id_text k id -> lit s <> sec \/ ~ id_text k n).
  { intros k J. destruct NE as [NE|NE]; [auto|right]. intros X. apply NE. eapply id_text_fun; eauto. }
  split; intros (k & w & H & J & M); exists k, w; (split; [|auto]); apply (HS _ _ _ (NJ k J)); exact H.
Qed.
