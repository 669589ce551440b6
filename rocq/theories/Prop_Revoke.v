(** C92: what a changed configuration no longer grants is closed after a restart of the
    firewall daemon, or one lease time after a restart of letmeind alone. *)

From Coq Require Import String NArith List Lia.
From Verif Require Import M_Base M_Proto M_IpAddr M_FwProto M_ConfTypes M_Server M_Client M_Firewall
  M_IpParse M_Sha3 S_Wire S_Ip S_Session S_Client S_System S_Firewall S_Loss S_Crash S_Whole S_Host
  P_Base P_Sha3 P_IpParse P_Exec P_CExec P_Relay P_Whole P_Crash P_Host Prop_System Prop_Firewall Prop_Whole Prop_Crash
  Prop_Host.
Import ListNotations.
Local Open Scope N_scope.

(** What was requested up to the point between [p1] and [p2] cannot be open any more: the
    firewall daemon was started again since, or it has done a maintenance run one lease
    time after the last of these requests. *)
Definition outdated (conf : config) (p1 p2 : list hevent) : Prop :=
  (exists conf', In (HStart conf') p2)
  \/ exists t0 conn now o1 o2 b1 b2 b3 reply,
     (forall conn' rx t ok sok reply', In (HFw conn' (FwMessage rx t ok sok) reply') p1 -> t <= t0)
     /\ In (HFw conn (FwMaintain now o1 o2 b1 b2 b3) reply) p2 /\ t0 + c_nft_timeout conf <= now.

Lemma host_fw_in : forall tr conn ev reply, In (HFw conn ev reply) tr -> In (ev, reply) (host_fw tr).
Proof.
  induction tr as [|x tr IH]; intros conn ev reply X; [destruct X|]. destruct X as [->|X]; [left; reflexivity|].
  destruct x as [g|cn e rp|cf]; simpl; eauto.
Qed.

(** Then whatever is open is granted by the configuration of a session whose request
    came later.  If the configuration was changed at that point, the old one does not
    count any more. *)
Theorem C92_only_later_sessions_count :
  forall mac parse_ip conf_of T w c,
  (forall sid, keys_sized (conf_of sid)) -> (forall sid, ip_address (w_peer w sid)) ->
  forall tr conf d h ps,
  whole_host mac parse_ip conf_of T w c tr (On conf d h) ps -> d_phase d = PhRun ->
  forall p1 p2, tr = p1 ++ p2 -> outdated conf p1 p2 ->
  forall pk, ip_address (pk_src pk) -> chain_accepts (d_kernel d) c pk -> ~ to_control_port conf pk ->
  exists sid user res_id r pre0 pre fm sent_ok post ev,
    In (HFw (Some sid) ev (Some fw_new_ack)) p2
    /\ tr = pre ++ HNet (GServer sid (EvFwSend fm sent_ok)) :: post
    /\ same_host (w_peer w sid) (pk_src pk)
    /\ server_events sid (host_net pre) = pre0 ++ [EvFwConnect true]
    /\ authenticated mac (conf_of sid) user res_id pre0
    /\ grants (conf_of sid) user res_id r /\ resource_covers r pk
    /\ permitted_port conf (rs_port r).
Proof.
  intros mac parse_ip conf_of T w c KS PEERS tr conf d h ps W PH p1 p2 E OD pk IPS ACC NC.
  destruct (running_session mac parse_ip conf_of T w c KS PEERS _ _ _ _ _ W PH pk IPS ACC NC)
    as (sid & user & res_id & r & pre0 & pre & fm & sent_ok & mid & ev & after & t & pt & ET & SH & SE & AU & G & RC
        & PP & AK & NS & NE).
  exists sid, user, res_id, r, pre0, pre, fm, sent_ok, (mid ++ HFw (Some sid) ev (Some fw_new_ack) :: after), ev.
  split; [|repeat (split; [assumption|]); assumption].
  assert (E2 : p1 ++ p2 = (pre ++ HNet (GServer sid (EvFwSend fm sent_ok)) :: mid)
                          ++ HFw (Some sid) ev (Some fw_new_ack) :: after)
    by (rewrite <- E, ET, <- app_assoc; reflexivity).
  apply app_eq_app in E2. destruct E2 as (l & [[E1 E2]|[E1 E2]]).
  2:{ rewrite E2. apply in_or_app. right. left. reflexivity. }
  destruct l as [|x l]; cbn [app] in E2; [rewrite <- E2; left; reflexivity|]. injection E2 as <- E2.
  exfalso. destruct OD as [(conf' & I)|(t0 & conn & now & o1 & o2 & b1 & b2 & b3 & reply & OLD & I & LE)].
  - apply (NS conf'). rewrite E2. apply in_or_app. auto.
  - destruct AK as (b & ok & sok & EX & _). injection EX as ->.
    assert (t <= t0).
    { eapply OLD. rewrite E1. apply in_or_app. right. left. reflexivity. }
    assert (now < t + c_nft_timeout conf); [|lia].
    eapply NE. eapply host_fw_in. rewrite E2. apply in_or_app. right. exact I.
Qed.
Print Assumptions C92_only_later_sessions_count.

(** So a key that was removed from the file is worthless: if all those sessions are
    served with files without it, and nobody forges or relays messages, whatever is
    open is open for the host of a holder of another key, which is in the file. *)
Theorem C92_removed_key_is_worthless :
  forall mac parse_ip conf_of T w c,
  (forall sid, keys_sized (conf_of sid)) -> (forall sid, ip_address (w_peer w sid)) ->
  (forall x y, length (mac x y) = 32%nat /\ all_bytes (mac x y)) ->
  (forall cid, sane_identity (w_client w cid)) ->
  forall tr conf d h ps,
  whole_host mac parse_ip conf_of T w c tr (On conf d h) ps -> d_phase d = PhRun ->
  unforgeable_keys mac conf_of w (host_net tr) -> unrelayed w (host_net tr) ->
  forall p1 p2 key, tr = p1 ++ p2 -> outdated conf p1 p2 ->
  (forall sid ev reply user, In (HFw (Some sid) ev reply) p2 -> ~ In (user, key) (c_keys (conf_of sid))) ->
  forall pk, ip_address (pk_src pk) -> chain_accepts (d_kernel d) c pk -> ~ to_control_port conf pk ->
  exists sid cid user, kq_key (w_client w cid) <> key
    /\ In (user, kq_key (w_client w cid)) (c_keys (conf_of sid)) /\ kq_user (w_client w cid) = user
    /\ same_host (w_home w cid) (pk_src pk).
Proof.
  intros mac parse_ip conf_of T w c KS PEERS MAC SANE tr conf d h ps W PH UF UR p1 p2 key E OD GONE pk IPS ACC NC.
  destruct (C92_only_later_sessions_count mac parse_ip conf_of T w c KS PEERS _ _ _ _ _ W PH _ _ E OD pk IPS ACC NC)
    as (sid & _ & _ & _ & _ & pre & fm & sent_ok & post & ev & I & ET & SH & _).
  destruct (request_holder mac parse_ip conf_of T w c KS PEERS MAC SANE _ _ _ W UF UR _ _ _ _ _ ET)
    as (cid & u & K & U & A).
  exists sid, cid, u. split; [|split; [exact K|split; [exact U|rewrite A; exact SH]]].
  intro X. rewrite X in K. exact (GONE _ _ _ _ I K).
Qed.
Print Assumptions C92_removed_key_is_worthless.

(** Example: the host of C91 at its second start, which is outdated in both ways; a key
    of nines is in no file.  At a point after the request, the wait was too short. *)
Example C92_witness :
  host_tr = firstn 2 host_tr ++ skipn 2 host_tr
  /\ outdated Prop_Firewall.ex_conf (firstn 2 host_tr) (skipn 2 host_tr)
  /\ (forall sid ev reply user, In (HFw (Some sid) ev reply) (skipn 2 host_tr) ->
      ~ In (user, repeat 9 32) (c_keys (host_conf sid)))
  /\ (exists t0, (forall conn rx t ok sok reply, In (HFw conn (FwMessage rx t ok sok) reply) (firstn 2 host_tr) -> t <= t0)
      /\ In (HFw None (FwMaintain 1500 same same true true true) None) (skipn 2 host_tr)
      /\ t0 + c_nft_timeout Prop_Firewall.ex_conf <= 1500)
  /\ ~ outdated Prop_Firewall.ex_conf (firstn 20 host_tr) (skipn 20 host_tr).
Proof.
  split; [reflexivity|]. split; [left; exists Prop_Firewall.ex_conf; left; reflexivity|].
  split; [intros sid ev reply user _ X; vm_compute in X; intuition discriminate|].
  split.
  - exists 0. split; [intros conn rx t ok sok reply [X|[X|[]]]; discriminate X|]. split; [vm_compute; tauto|discriminate].
  - intros [(conf' & X)|(t0 & conn & now & o1 & o2 & b1 & b2 & b3 & reply & OLD & X & LE)].
    + vm_compute in X. intuition discriminate.
    + assert (now = 1500) as -> by (vm_compute in X; intuition congruence).
      assert (1000 <= t0) as L.
      { apply (OLD (Some 0%nat) (FwRxBuf ex_request) 1000 true true (Some fw_new_ack)). vm_compute. tauto. }
      change (c_nft_timeout Prop_Firewall.ex_conf) with 600 in LE. lia.
Qed.
