(** Proofs about the whole system on a host with kills and restarts (C91). *)

From Coq Require Import String ZArith NArith List Bool Lia.
From Verif Require Import M_Base M_Proto M_IpAddr M_FwProto M_ConfTypes M_Server M_Client M_Firewall
  S_Wire S_Ip S_Session S_Client S_System S_Firewall S_Loss S_Listing S_Crash S_Whole S_Host
  P_Base P_Proto P_FwProto P_Server P_Session P_Client P_System P_Firewall P_Fwd P_FwdProps P_Loss P_Listing P_Crash P_Whole.
Import ListNotations.
Local Open Scope N_scope.

Lemma host_net_app : forall a b, host_net (a ++ b) = host_net a ++ host_net b.
Proof. induction a as [|[g|conn ev reply|conf] a IH]; intro b; simpl; rewrite ?IH; reflexivity. Qed.
Lemma host_fw_app : forall a b, host_fw (a ++ b) = host_fw a ++ host_fw b.
Proof. induction a as [|[g|conn ev reply|conf] a IH]; intro b; simpl; rewrite ?IH; reflexivity. Qed.

Lemma host_fw_split : forall tr a ev reply b, host_fw tr = a ++ (ev, reply) :: b ->
  exists pre conn post, tr = pre ++ HFw conn ev reply :: post /\ host_fw pre = a /\ host_fw post = b.
Proof.
  induction tr as [|[g|conn e rp|conf] tr IH]; intros a ev reply b E; simpl in E.
  - destruct a; discriminate E.
  - destruct (IH _ _ _ _ E) as (pre & conn & post & -> & <- & <-). exists (HNet g :: pre), conn, post. auto.
  - destruct a as [|x a]; simpl in E.
    + injection E as -> -> E. exists [], conn, tr. auto.
    + injection E as <- E. destruct (IH _ _ _ _ E) as (pre & conn' & post & -> & <- & <-).
      exists (HFw conn e rp :: pre), conn', post. auto.
  - destruct (IH _ _ _ _ E) as (pre & conn & post & -> & <- & <-). exists (HStart conf :: pre), conn, post. auto.
Qed.

Lemma lifetimes_last : forall tr conf h l, lifetimes tr ((conf, h) :: l) ->
  exists before rest, tr = before ++ HStart conf :: rest /\ host_fw rest = h
    /\ (forall conf', ~ In (HStart conf') rest) /\ lifetimes before l.
Proof. intros tr conf h l H. inversion H; subst. eauto 10. Qed.

(** The events of all clients and of one session. *)
Definition concerns (sid : nat) (g : gevent) : bool :=
  match g with GServer i _ => Nat.eqb i sid | GClient _ _ => true end.

Lemma only_server : forall sid tr, server_events sid (filter (concerns sid) tr) = server_events sid tr.
Proof.
  intros sid tr. induction tr as [|[i e|i e] tr IH]; simpl; [reflexivity| |exact IH].
  destruct (Nat.eqb i sid) eqn:E; simpl; rewrite ?E, ?IH; reflexivity.
Qed.
Lemma only_others : forall sid i tr, i <> sid -> server_events i (filter (concerns sid) tr) = [].
Proof.
  intros sid i tr NE. induction tr as [|[j e|j e] tr IH]; simpl; [reflexivity| |exact IH].
  destruct (Nat.eqb_spec j sid) as [->|N]; simpl; [|exact IH].
  destruct (Nat.eqb_spec sid i) as [->|]; [contradiction|exact IH].
Qed.
Lemma only_clients : forall sid i tr, client_events i (filter (concerns sid) tr) = client_events i tr.
Proof.
  intros sid i tr. induction tr as [|[j e|j e] tr IH]; simpl; [reflexivity| |].
  - destruct (Nat.eqb j sid); simpl; exact IH.
  - destruct (Nat.eqb j i); rewrite IH; reflexivity.
Qed.
Lemma filter_split : forall (A : Type) (f : A -> bool) l a x b, filter f l = a ++ x :: b ->
  exists pre post, l = pre ++ x :: post /\ filter f pre = a /\ filter f post = b.
Proof.
  intros A f. induction l as [|y l IH]; intros a x b E; simpl in E; [destruct a; discriminate E|].
  destruct (f y) eqn:FY.
  - destruct a as [|z a]; simpl in E; injection E as <- E.
    + exists [], l. auto.
    + destruct (IH _ _ _ E) as (pre & post & -> & <- & <-). exists (y :: pre), post. simpl. rewrite FY. auto.
  - destruct (IH _ _ _ E) as (pre & post & -> & <- & <-). exists (y :: pre), post. simpl. rewrite FY. auto.
Qed.

Section Host.
Variable mac : list N -> list N -> list N.
Variable parse_ip : list N -> option ip.
Variable conf_of : nat -> config.
Variable T : N.
Variable w : world.
Variable c : chain_name.
Hypothesis KS : forall sid, keys_sized (conf_of sid).
Hypothesis PEERS : forall sid, ip_address (w_peer w sid).

(** A request that the firewall daemon got belongs to an authenticated session. *)
Lemma request_session : forall tr s ps, whole_host mac parse_ip conf_of T w c tr s ps ->
  forall before conn b t ok sok reply after a pt port,
  tr = before ++ HFw conn (FwMessage (FwRxBuf b) t ok sok) reply :: after -> asks b a pt port ->
  exists sid user res_id r pre0 pre fm sent_ok mid,
    conn = Some sid /\ before = pre ++ HNet (GServer sid (EvFwSend fm sent_ok)) :: mid
    /\ a = w_peer w sid
    /\ server_events sid (host_net pre) = pre0 ++ [EvFwConnect true]
    /\ authenticated mac (conf_of sid) user res_id pre0
    /\ grants (conf_of sid) user res_id r /\ port = rs_port r
    /\ covers_tcp pt = rs_tcp r /\ covers_udp pt = rs_udp r.
Proof.
  intros tr s ps [ES _ _ _ RQ] before conn b t ok sok reply after a pt port E AK.
  destruct (RQ _ _ _ _ _ _ _ _ E) as (sid & fm & sent_ok & -> & IN & L).
  destruct (in_split _ _ IN) as (pre & post & EB). destruct (ES sid) as (p & R).
  assert (E1 : server_events sid (host_net tr)
               = server_events sid (host_net pre) ++ EvFwSend fm sent_ok
                 :: server_events sid (host_net (post ++ HFw (Some sid) (FwMessage (FwRxBuf b) t ok sok) reply :: after))).
  { rewrite E, EB, <- app_assoc. cbn [app]. rewrite host_net_app, server_events_app. simpl.
    rewrite Nat.eqb_refl. reflexivity. }
  destruct (request_facts mac (conf_of sid) (w_peer w sid) T (KS sid) _ _ _ _ _ _
              (runs mac (conf_of sid) (w_peer w sid) T (KS sid) _ _ R) E1)
    as (user & res_id & rs & pt' & pre0 & A & B & G & PT & F & _).
  destruct (port_type_covers _ _ _ PT) as (CT & CU).
  destruct (asks_layout _ _ _ _ _ L AK) as (FA & FP). rewrite F in FA, FP.
  exists sid, user, res_id, rs, pre0, pre, fm, sent_ok, post.
  split; [reflexivity|]. split; [exact EB|].
  unfold fw_new_open, fw_addr, fw_port in FA, FP. pose proof (octets_roundtrip _ (PEERS sid)) as O.
  destruct (addr_to_octets (w_peer w sid)) as [at_ oc]. cbn in FA, FP, O.
  injection FP as EP1 EP2. subst pt' port.
  destruct O as (_ & _ & O). split; [congruence|]. repeat split; auto; apply G.
Qed.

Lemma running_session : forall tr conf d h ps,
  whole_host mac parse_ip conf_of T w c tr (On conf d h) ps -> d_phase d = PhRun ->
  forall pk, ip_address (pk_src pk) -> chain_accepts (d_kernel d) c pk -> ~ to_control_port conf pk ->
  exists sid user res_id r pre0 pre fm sent_ok mid ev after t pt,
    tr = pre ++ HNet (GServer sid (EvFwSend fm sent_ok)) :: mid
         ++ HFw (Some sid) ev (Some fw_new_ack) :: after
    /\ same_host (w_peer w sid) (pk_src pk)
    /\ server_events sid (host_net pre) = pre0 ++ [EvFwConnect true]
    /\ authenticated mac (conf_of sid) user res_id pre0
    /\ grants (conf_of sid) user res_id r /\ resource_covers r pk
    /\ permitted_port conf (rs_port r)
    /\ acked (ev, Some fw_new_ack) t (w_peer w sid) pt (rs_port r)
    /\ (forall conf', ~ In (HStart conf') after) /\ not_expired conf t (host_fw after).
Proof.
  intros tr conf d h ps W PH pk IPS ACC NC.
  pose proof (host_inv_holds c _ _ (ho_fw _ _ _ _ _ _ _ _ _ W)) as RH. cbn [host_inv] in RH.
  pose proof (racy_inv conf c (racy_configured conf c d h RH) d h RH) as LI.
  destruct (lossy_accepts conf c d h LI PH pk IPS ACC)
    as [X|(a & pt & port & (h1 & [ev reply] & h2 & t & EH & AK & NE) & PP & SH & PC)]; [contradiction|].
  pose proof (ho_lives _ _ _ _ _ _ _ _ _ W) as LT. cbv beta iota in LT.
  apply lifetimes_last in LT. destruct LT as (before & rest & ET & EF & NS & _).
  rewrite EH in EF.
  destruct (host_fw_split _ _ _ _ _ EF) as (t1 & conn & t2 & ER & E1 & E2).
  destruct AK as (b & ok & sok & EX & AK). injection EX as -> ->.
  assert (ET' : tr = (before ++ HStart conf :: t1) ++ HFw conn (FwMessage (FwRxBuf b) t ok sok) (Some fw_new_ack) :: t2)
    by (rewrite ET, ER, <- app_assoc; reflexivity).
  destruct (request_session _ _ _ W _ _ _ _ _ _ _ _ _ _ _ ET' AK)
    as (sid & user & res_id & r & pre0 & pre & fm & sent_ok & mid & -> & EB & -> & SE & AU & G & -> & CT & CU).
  exists sid, user, res_id, r, pre0, pre, fm, sent_ok, mid, (FwMessage (FwRxBuf b) t ok sok), t2, t, pt.
  split; [rewrite ET', EB, <- app_assoc; reflexivity|]. split; [exact SH|].
  split; [exact SE|]. split; [exact AU|]. split; [exact G|].
  split; [eapply covers_resource; eauto|]. split; [exact PP|].
  split; [exists b, ok, sok; auto|]. split.
  - intros conf' I. apply (NS conf'). rewrite ER. apply in_or_app. right. right. exact I.
  - red. rewrite E2. exact NE.
Qed.

Lemma killed_session : forall tr k conf h ph ps,
  whole_host mac parse_ip conf_of T w c tr (Off k) (Past conf h ph :: ps) ->
  forall pk, ip_address (pk_src pk) -> chain_accepts k c pk -> ~ to_control_port conf pk ->
  exists sid user res_id r pre0 pre fm sent_ok mid b t ok sok reply after pt,
    tr = pre ++ HNet (GServer sid (EvFwSend fm sent_ok)) :: mid
         ++ HFw (Some sid) (FwMessage (FwRxBuf b) t ok sok) reply :: after
    /\ same_host (w_peer w sid) (pk_src pk)
    /\ server_events sid (host_net pre) = pre0 ++ [EvFwConnect true]
    /\ authenticated mac (conf_of sid) user res_id pre0
    /\ grants (conf_of sid) user res_id r /\ resource_covers r pk
    /\ permitted_port conf (rs_port r)
    /\ asks b (w_peer w sid) pt (rs_port r)
    /\ (forall conf', ~ In (HStart conf') after)
    /\ (ph = PhRun -> not_expired conf t (host_fw after)).
Proof.
  intros tr k conf h ph ps W pk IPS ACC NC.
  pose proof (host_inv_holds c _ _ (ho_fw _ _ _ _ _ _ _ _ _ W)) as [CL _]. cbn [host_inv] in CL.
  assert (exists h1 b t ok sok reply h2 a pt port,
    h = h1 ++ (FwMessage (FwRxBuf b) t ok sok, reply) :: h2 /\ asks b a pt port
    /\ permitted_port conf port /\ same_host a (pk_src pk) /\ port_covers pt port pk
    /\ (ph = PhRun -> not_expired conf t h2))
    as (h1 & b & t & ok & sok & reply & h2 & a & pt & port & EH & AK & PP & SH & PC & NE).
  { destruct (CL pk IPS ACC) as [C1 C2]. cbn [ps_conf ps_hist ps_phase] in C1, C2.
    assert (ph = PhRun \/ ph <> PhRun) as [EP|NP] by (destruct ph; auto; right; discriminate).
    - destruct (C2 EP) as [X|(a & pt & port & (h1 & b & t & ok & sok & reply & h2 & EH & AK & NE) & PP & SH & PC)];
        [contradiction|].
      exists h1, b, t, ok, sok, reply, h2, a, pt, port. repeat (split; [assumption|]). intros _. exact NE.
    - destruct C1 as [X|(a & pt & port & (b & t & ok & sok & reply & IN & AK) & PP & SH & PC)]; [contradiction|].
      destruct (in_split _ _ IN) as (h1 & h2 & EH).
      exists h1, b, t, ok, sok, reply, h2, a, pt, port. repeat (split; [assumption|]). intro. contradiction. }
  pose proof (ho_lives _ _ _ _ _ _ _ _ _ W) as LT. cbn [map of_past ps_conf ps_hist] in LT.
  apply lifetimes_last in LT. destruct LT as (before & rest & ET & EF & NS & _).
  rewrite EH in EF.
  destruct (host_fw_split _ _ _ _ _ EF) as (t1 & conn & t2 & ER & E1 & E2).
  assert (ET' : tr = (before ++ HStart conf :: t1) ++ HFw conn (FwMessage (FwRxBuf b) t ok sok) reply :: t2)
    by (rewrite ET, ER, <- app_assoc; reflexivity).
  destruct (request_session _ _ _ W _ _ _ _ _ _ _ _ _ _ _ ET' AK)
    as (sid & user & res_id & r & pre0 & pre & fm & sent_ok & mid & -> & EB & -> & SE & AU & G & -> & CT & CU).
  exists sid, user, res_id, r, pre0, pre, fm, sent_ok, mid, b, t, ok, sok, reply, t2, pt.
  split; [rewrite ET', EB, <- app_assoc; reflexivity|]. split; [exact SH|].
  split; [exact SE|]. split; [exact AU|]. split; [exact G|].
  split; [eapply covers_resource; eauto|]. split; [exact PP|]. split; [exact AK|]. split.
  - intros conf' I. apply (NS conf'). rewrite ER. apply in_or_app. right. right. exact I.
  - intro EP. rewrite E2. exact (NE EP).
Qed.

(** The key holder behind a request. *)
Hypothesis MAC : forall x y, length (mac x y) = 32%nat /\ all_bytes (mac x y).
Hypothesis SANE : forall cid, sane_identity (w_client w cid).

Lemma one_session : forall tr s ps sid, whole_host mac parse_ip conf_of T w c tr s ps ->
  execution mac parse_ip (conf_of sid) T w (filter (concerns sid) (host_net tr)).
Proof.
  intros tr s ps sid W. split.
  - intro i. destruct (PeanoNat.Nat.eq_dec i sid) as [->|NE].
    + rewrite only_server. exact (ho_sessions _ _ _ _ _ _ _ _ _ W sid).
    + rewrite only_others by exact NE. eexists. apply sr_nil.
  - intro cid. rewrite only_clients. exact (ho_clients _ _ _ _ _ _ _ _ _ W cid).
Qed.

Lemma one_unforgeable : forall tr sid, unforgeable_keys mac conf_of w tr ->
  unforgeable mac (conf_of sid) w (filter (concerns sid) tr).
Proof.
  intros tr sid UF pre i d b post user key resource nonce salt text E K NO L P.
  destruct (filter_split _ _ _ _ _ _ E) as (pre' & post' & E' & <- & <-).
  assert (i = sid) as ->.
  { assert (In (GServer i (EvRecv d (RxBuf b))) (filter (concerns sid) tr)) as I
      by (rewrite E; apply in_or_app; right; left; reflexivity).
    apply filter_In in I. destruct I as [_ I]. apply PeanoNat.Nat.eqb_eq in I. exact I. }
  unfold session_nonce in NO. rewrite only_server in NO.
  destruct (UF _ _ _ _ _ _ _ _ _ _ _ E' K NO L P) as (cid & n & X & Y).
  exists cid, n. rewrite only_clients. auto.
Qed.

Lemma one_unrelayed : forall tr sid, unrelayed w tr -> unrelayed w (filter (concerns sid) tr).
Proof.
  intros tr sid UR pre i d b post user resource salt auth nonce text cid n E L NO P C.
  destruct (filter_split _ _ _ _ _ _ E) as (pre' & post' & E' & <- & <-).
  assert (i = sid) as ->.
  { assert (In (GServer i (EvRecv d (RxBuf b))) (filter (concerns sid) tr)) as I
      by (rewrite E; apply in_or_app; right; left; reflexivity).
    apply filter_In in I. destruct I as [_ I]. apply PeanoNat.Nat.eqb_eq in I. exact I. }
  unfold session_nonce in NO. rewrite only_server in NO. rewrite only_clients in C.
  exact (UR _ _ _ _ _ _ _ _ _ _ _ _ _ E' L NO P C).
Qed.

Lemma request_holder : forall tr s ps, whole_host mac parse_ip conf_of T w c tr s ps ->
  unforgeable_keys mac conf_of w (host_net tr) -> unrelayed w (host_net tr) ->
  forall pre sid fm ok post, tr = pre ++ HNet (GServer sid (EvFwSend fm ok)) :: post ->
  exists cid user, In (user, kq_key (w_client w cid)) (c_keys (conf_of sid))
    /\ kq_user (w_client w cid) = user /\ w_home w cid = w_peer w sid.
Proof.
  intros tr s ps W UF UR pre sid fm ok post ET.
  assert (E1 : filter (concerns sid) (host_net tr)
               = filter (concerns sid) (host_net pre) ++ GServer sid (EvFwSend fm ok)
                 :: filter (concerns sid) (host_net post)).
  { rewrite ET, host_net_app, filter_app. simpl. rewrite Nat.eqb_refl. reflexivity. }
  pose proof (one_session _ _ _ sid W) as EX.
  pose proof (one_unforgeable _ sid UF) as UF'. pose proof (one_unrelayed _ sid UR) as UR'.
  destruct (unrelayed_address mac parse_ip (conf_of sid) T w MAC (KS sid) SANE _ EX UF' UR' PEERS _ _ _ _ _ E1)
    as (u & cid & K & U & A).
  destruct (agreement mac parse_ip (conf_of sid) T w MAC (KS sid) SANE _ EX UF' PEERS _ _ _ _ _ E1)
    as (u' & key & ri & r' & t' & nonce & salt & text & cid' & n & _ & _ & _ & FA & _).
  exists cid, u. split; [exact K|]. split; [exact U|]. congruence.
Qed.

End Host.
