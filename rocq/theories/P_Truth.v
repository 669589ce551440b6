(** Proofs about what the success of a client means (C95). *)

From Coq Require Import String ZArith NArith List Bool Lia ZifyBool ZifyNat ZifyN.
From Verif Require Import M_Base M_Proto M_IpAddr M_FwProto M_ConfTypes M_Server M_Client M_Firewall
  S_Wire S_Session S_Client S_System S_Firewall S_Whole S_Truth
  P_Base P_Proto P_FwProto P_Server P_Session P_Client P_System P_Firewall P_Fwd P_FwdProps P_Whole.
Import ListNotations.
Local Open Scope N_scope.

(** The operation is in the bytes of any message that can be written. *)
Lemma serialized_op : forall m b, msg_serialize m = Ok b -> u32_at b 4 = op_to_u32 (m_op m).
Proof.
  intros [mg o u r s a] b E. unfold msg_serialize in E.
  cbn [m_magic m_op m_user m_resource m_salt m_auth] in E.
  unfold put at 1 in E. cbn [repeat Nat.leb Nat.add length firstn skipn app MSG_SIZE MSG_OFFS_MAGIC be32 bind] in E.
  unfold put at 1 in E. cbn [repeat Nat.leb Nat.add length firstn skipn app MSG_OFFS_OPERATION be32 bind] in E.
  unfold put at 1 in E. cbn [repeat Nat.leb Nat.add length firstn skipn app MSG_OFFS_USER be32 bind] in E.
  unfold put at 1 in E. cbn [repeat Nat.leb Nat.add length firstn skipn app MSG_OFFS_RESOURCE be32 bind] in E.
  unfold put at 1 in E. unfold MSG_OFFS_SALT in E.
  destruct (Nat.leb _ _) in E; [|discriminate E].
  cbn [bind] in E. unfold put at 1 in E. unfold MSG_OFFS_AUTH in E.
  destruct (Nat.leb _ _) in E; [|discriminate E].
  cbn [bind] in E. injection E as <-. destruct o; reflexivity.
Qed.

Section Truth.

Variable mac : list N -> list N -> list N.
Variable parse_ip : list N -> option ip.
Variables conf_s conf_f : config.
Variable T : N.
Variable w : world.
Variable c : chain_name.
Hypothesis MAC : forall x y, length (mac x y) = 32%nat /\ all_bytes (mac x y).
Hypothesis KS : keys_sized conf_s.
Hypothesis PA : forall sid, ip_address (w_peer w sid).

Lemma sent_in : forall tr d m r, In (EvSend d m r) tr -> In m (sent tr).
Proof.
  induction tr as [|ev tr IH]; intros d m r I; [destruct I|].
  destruct I as [->|I]; [left; reflexivity|]. destruct ev; simpl; eauto; right; eauto.
Qed.

Lemma in_server : forall sid ev tr, In (GServer sid ev) tr -> In ev (server_events sid tr).
Proof.
  intros sid ev tr I. apply in_split in I. destruct I as (a & b & ->).
  rewrite server_events_app. apply in_or_app. right. simpl. rewrite PeanoNat.Nat.eqb_refl. left. reflexivity.
Qed.

Lemma success_open : forall tr d, whole mac parse_ip conf_s conf_f T w c tr d ->
  clock_monotone (fw_events tr) -> serving d ->
  forall cid sid, sane_identity (w_client w cid) ->
  connected w cid sid (net_events tr) -> client_succeeded mac parse_ip T w cid (net_events tr) ->
  exists rs before ev after t pt,
    tr = before ++ WFw (Some sid) ev (Some fw_new_ack) :: after
    /\ acked (ev, Some fw_new_ack) t (w_home w cid) pt (rs_port rs)
    /\ grants conf_s (kq_user (w_client w cid)) (kq_resource (w_client w cid)) rs
    /\ (not_expired conf_f t (fw_events after) ->
        forall pk, same_host (w_home w cid) (pk_src pk) -> ip_address (pk_src pk) ->
        resource_covers rs pk -> chain_accepts (d_kernel d) c pk).
Proof.
  intros tr d W CM SV cid sid SI (HP & LC & LS) SU.
  pose proof W as [[ES EC] H SF].
  pose proof SU as SU0.
  destruct (knock_success mac parse_ip T MAC _ SI _ _ SU) as (qs & a & ex & E & _ & X).
  destruct X as [os1 d1 knock kb d2 cb cu cr cs nonce os2 d3 resp rb d4 ib iu ir is ia WK VK LCb WR VR LI].
  match type of E with client_events _ _ = ?l => 
    assert (exists a0, l = a0 ++ [CeRecv d4 (RxBuf ib)]) as (a0 & E0)
  end.
  { eexists (_ ++ [_; _; _; _; _; _]). rewrite <- app_assoc. reflexivity. }
  rewrite E0 in E. destruct (client_events_split _ _ _ _ _ E) as (pre & post & EN & _ & _).
  destruct (LC _ _ _ _ EN) as (d' & m & r & IM & WM).
  assert (m_op m = ComeIn) as OP.
  { pose proof (serialized_op _ _ WM) as S. rewrite (wl_op _ _ _ _ _ _ LI) in S.
    destruct (m_op m); cbn in S; congruence. }
  assert (In (GServer sid (EvSend d' m r)) (net_events tr)) as IN by (rewrite EN; apply in_or_app; auto).
  (* what the message says *)
  destruct (ES sid) as (p & R). pose proof (runs mac conf_s (w_peer w sid) T KS _ _ R) as R'.
  pose proof (sent_in _ _ _ _ (in_server _ _ _ IN)) as IS.
  assert (m_user m = kq_user (w_client w cid) /\ m_resource m = kq_resource (w_client w cid)) as (EU & ER).
  { destruct (discipline mac conf_s (w_peer w sid) T _ _ R') as [D|(dk & kb' & rest & D1 & VF & D)].
    - rewrite D in IS. destruct IS.
    - destruct (server_events_split sid (net_events tr) [] _ _ D1) as (pre1 & post1 & EN1 & _ & _).
      destruct (LS _ _ _ _ EN1) as (dc & mc & rc & IC & WC).
      assert (In (GClient cid (CeSend dc mc rc)) (net_events tr)) as IC' by (rewrite EN1; apply in_or_app; auto).
      apply in_split in IC'. destruct IC' as (x & y & EXY).
      assert (client_events cid (net_events tr)
              = client_events cid x ++ CeSend dc mc rc :: client_events cid y) as EXC.
      { rewrite EXY, client_events_app. simpl. rewrite PeanoNat.Nat.eqb_refl. reflexivity. }
      assert (u32_at kb' 8 = kq_user (w_client w cid) /\ u32_at kb' 12 = kq_resource (w_client w cid)) as (FU & FR).
      { destruct (knock_sends mac parse_ip T MAC _ SI _ _ _ SU0 _ _ _ _ _ EXC)
          as [(b & WB & (s & au & tx & L & _) & _)|(b & ? & ? & ? & ? & ? & ? & ? & ? & WB & _ & _ & (s & au & tx & L & _))];
          unfold wire in WB, WC; rewrite WB in WC; injection WC as <-;
          exact (conj (wl_user _ _ _ _ _ _ L) (wl_resource _ _ _ _ _ _ L)). }
      rewrite <- FU, <- FR.
      destruct D as [(_ & g & DG & (DO & _))|(_ & D)].
      + rewrite DG in IS. destruct IS as [<-|[]]. congruence.
      + cbv zeta in D.
        destruct D as [(g & DG & GO & _)|[(g & DG & GO & _)|[(g & h & DG & (GO & _) & (HO & _))
                     |(g & h & DG & (GO & _) & (HO & HU & HR))]]];
          rewrite DG in IS; repeat (destruct IS as [<-|IS]; [try congruence|]); try destruct IS. auto. }
  apply in_split in IN. destruct IN as (n1 & n2 & EN2).
  destruct (net_events_split _ _ _ _ EN2) as (t1 & t2 & ET & _ & _).
  destruct (come_in_open mac parse_ip conf_s conf_f T w c KS PA tr d W CM SV _ _ _ _ _ _ ET OP)
    as (rs & before & ev & after & t & pt & EB & AK & GR & OPEN).
  exists rs, before, ev, (after ++ WNet (GServer sid (EvSend d' m r)) :: t2), t, pt.
  rewrite HP, <- EU, <- ER.
  split; [rewrite ET, EB, <- app_assoc; reflexivity|]. split; [exact AK|]. split; [exact GR|].
  intros NE. apply OPEN. rewrite fw_events_app in *. exact NE.
Qed.

End Truth.
