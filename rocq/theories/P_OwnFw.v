(** Proofs that the firewall daemon's answer depends on the lines for the port only (C103). *)

From Coq Require Import String ZArith NArith List Bool Lia Permutation.
From Verif Require Import M_Base M_Proto M_IpAddr M_FwProto M_ConfTypes M_Text M_Conf M_Server M_Firewall
  S_Wire S_Session S_Text S_Conf
  P_Base P_Str P_Load P_ConfLoad P_Files P_Fwd P_FwdProps P_Apart P_Own S_Files S_Firewall S_Own.
Import ListNotations.
Local Open Scope N_scope.

Section Started.
Variable fraction : text -> option N.
Variables (file file' : option (list N)) (ls ls' : list text) (c c' : config).
Hypothesis ST : started_from fraction VarServer file ls c.
Hypothesis ST' : started_from fraction VarServer file' ls' c'.

Lemma own_nft : same_nft ls ls' ->
  c_nft_exe c = c_nft_exe c' /\ c_nft_family c = c_nft_family c' /\ c_nft_table c = c_nft_table c'
  /\ c_nft_chain c = c_nft_chain c' /\ c_nft_timeout c = c_nft_timeout c'.
Proof.
  intros HS. destruct (started_configures _ _ _ _ _ ST) as [CF V]. destruct (started_configures _ _ _ _ _ ST') as [CF' V'].
  destruct ST' as (_ & _ & _ & _ & W & _).
  destruct (cf_server _ _ _ CF V) as (_ & C2 & C3 & C4 & C5 & C6).
  destruct (cf_server _ _ _ CF' V') as (_ & D2 & D3 & D4 & D5 & D6).
  assert (SE : forall (A : Type) k (means : text -> A -> Prop) d x,
             setting ls "NFTABLES" k means d x -> setting ls' "NFTABLES" k means d x).
  { intros A k means d x [(w & H & M)|(N & E)].
    - left. exists w. split; [apply HS; exact H|exact M].
    - right. split; [|exact E]. intros w H. apply HS in H. eapply N; eauto. }
  apply SE in C2, C3, C4, C5, C6.
  assert (O : forall s o v w, has_option ls' s o v -> has_option ls' s o w -> v = w) by (apply has_option_fun; exact W).
  assert (SF : forall (T : Type) (p : text -> res T) (means : text -> T -> Prop) s o d x y,
            (forall t z, p t = Ok z <-> means t z) -> setting ls' s o means d x -> setting ls' s o means d y -> x = y).
  { intros T p means s o d x y E S1 S2. eapply setting_fun; eauto. intros t u v M1 M2. apply E in M1, M2. congruence. }
  assert (PF : forall s o d x y, setting ls' s o padded d x -> setting ls' s o padded d y -> x = y).
  { intros s o d x y S1 S2. eapply setting_fun; [exact padded_fun| |exact S1|exact S2]. intros; eapply O; eauto. }
  split; [eapply PF; eauto|]. split; [eapply SF; [exact family_spec|eauto|eauto]|].
  split; [eapply PF; eauto|]. split; [eapply PF; eauto|].
  eapply SF; [exact (parse_duration_spec fraction)|eauto|eauto].
Qed.

Lemma own_reply : same_control ls ls' -> same_nft ls ls' ->
  forall b a t port, all_bytes b -> asks b a t port -> same_port ls ls' port ->
  forall d now ok send_ok,
  fw_step c d (FwMessage (FwRxBuf b) now ok send_ok) = fw_step c' d (FwMessage (FwRxBuf b) now ok send_ok).
Proof.
  intros SC SN b a t port HB AK SP d now ok send_ok.
  pose proof (own_port _ _ _ _ _ _ _ _ ST ST' SC) as EP. destruct (own_nft SN) as (EX & EF & ET & EC & EM).
  pose proof (own_by_port _ _ _ _ _ _ _ _ ST ST' port None SP) as BP.
  apply asks_decode in AK; [|exact HB]. destruct AK as (m & D & O & FA & FP).
  assert (OP : forall k fw p, open_port c k fw now a p ok = open_port c' k fw now a p ok).
  { intros k fw p. clear - EP EX EF ET EC EM. destruct c, c'. cbn in EP, EX, EF, ET, EC, EM. subst. reflexivity. }
  unfold fw_step, handle_message. rewrite D, O, FA, FP, BP, EP, OP. reflexivity.
Qed.

End Started.
