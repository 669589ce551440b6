(** Proofs about the whole system. *)

From Coq Require Import String ZArith NArith List Bool Lia ZifyBool ZifyNat ZifyN Permutation.
From Verif Require Import M_Base M_Proto M_IpAddr M_FwProto M_ConfTypes M_Server M_Client M_Text M_Firewall
  S_Wire S_Session S_Client S_System S_Firewall S_Whole
  P_Base P_FwProto P_Session P_Server P_System P_Firewall P_Fwd P_FwdProps.
Import ListNotations.
Local Open Scope N_scope.

Lemma net_events_app : forall a b, net_events (a ++ b) = net_events a ++ net_events b.
Proof. induction a as [|[]]; intros; simpl; rewrite ?IHa; reflexivity. Qed.
Lemma fw_events_app : forall a b, fw_events (a ++ b) = fw_events a ++ fw_events b.
Proof. induction a as [|[]]; intros; simpl; rewrite ?IHa; reflexivity. Qed.

Lemma fw_events_split : forall tr a ev reply b, fw_events tr = a ++ (ev, reply) :: b ->
  exists t1 conn t2, tr = t1 ++ WFw conn ev reply :: t2 /\ fw_events t1 = a /\ fw_events t2 = b.
Proof.
  induction tr as [|[g|conn e r] tr IH]; intros a ev reply b E; simpl in E.
  - destruct a; discriminate.
  - destruct (IH _ _ _ _ E) as (t1 & conn & t2 & -> & A & B). exists (WNet g :: t1), conn, t2. auto.
  - destruct a as [|x a]; simpl in E.
    + injection E as -> -> E. exists [], conn, tr. auto.
    + injection E as <- E. destruct (IH _ _ _ _ E) as (t1 & conn' & t2 & -> & A & B).
      exists (WFw conn e r :: t1), conn', t2. split; [reflexivity|]. simpl. rewrite A. auto.
Qed.

Lemma net_events_split : forall tr a g b, net_events tr = a ++ g :: b ->
  exists t1 t2, tr = t1 ++ WNet g :: t2 /\ net_events t1 = a /\ net_events t2 = b.
Proof.
  induction tr as [|[g0|conn e r] tr IH]; intros a g b E; simpl in E.
  - destruct a; discriminate.
  - destruct a as [|x a]; simpl in E.
    + injection E as -> E. exists [], tr. auto.
    + injection E as <- E. destruct (IH _ _ _ E) as (t1 & t2 & -> & A & B).
      exists (WNet g0 :: t1), t2. split; [reflexivity|]. simpl. rewrite A. auto.
  - destruct (IH _ _ _ E) as (t1 & t2 & -> & A & B). exists (WFw conn e r :: t1), t2. auto.
Qed.

(** A request has one reading. *)
Lemma opcode_inj : forall x y, fw_opcode x = fw_opcode y -> x = y.
Proof. intros [] []; simpl; congruence. Qed.
Lemma port_code_inj : forall x y, port_type_code x = port_type_code y -> x = y.
Proof. intros [] []; simpl; congruence. Qed.
Lemma addr_code_inj : forall x y, addr_type_code x = addr_type_code y -> x = y.
Proof. intros [] []; simpl; congruence. Qed.

Lemma layout_unique : forall b m m', fw_layout b m -> fw_layout b m' -> m = m'.
Proof.
  intros b [] [] [] []; simpl in *.
  f_equal; try congruence.
  - apply opcode_inj. congruence.
  - apply port_code_inj. congruence.
  - apply addr_code_inj. congruence.
Qed.

Lemma asks_layout : forall b m a t port, fw_layout b m -> asks b a t port ->
  fw_addr m = Some a /\ fw_port m = Some (t, port).
Proof.
  intros b m a t port L AK.
  destruct (asks_decode _ _ _ _ (fl_bytes _ _ L) AK) as (m' & E & _ & A & P).
  destruct (decode_layout _ _ (fl_bytes _ _ L) E) as (L' & _).
  rewrite (layout_unique _ _ _ L L'). auto.
Qed.

Lemma covers_resource : forall t port r pk, covers_tcp t = rs_tcp r -> covers_udp t = rs_udp r ->
  port = rs_port r -> (port_covers t port pk <-> resource_covers r pk).
Proof.
  intros t port r pk CT CU ->. unfold port_covers, resource_covers.
  destruct t, (pk_transport pk); simpl in CT, CU; rewrite <- ?CT, <- ?CU; intuition congruence.
Qed.

Section Whole.
Variable mac : list N -> list N -> list N.
Variable parse_ip : list N -> option ip.
Variable conf_s conf_f : config.
Variable T : N.
Variable w : world.
Variable c : chain_name.
Hypothesis MAC : forall x y, length (mac x y) = 32%nat /\ all_bytes (mac x y).
Hypothesis KS : keys_sized conf_s.
Hypothesis SANE : forall cid, sane_identity (w_client w cid).
Hypothesis PEERS : forall sid, ip_address (w_peer w sid).

(** An acknowledged request belongs to an authenticated session. *)
Lemma acked_session : forall tr d, whole mac parse_ip conf_s conf_f T w c tr d ->
  forall before conn ev reply after t a pt port,
  tr = before ++ WFw conn ev reply :: after -> acked (ev, reply) t a pt port ->
  exists sid user res_id r pre0 pre fm sent_ok post,
    conn = Some sid /\ before = pre ++ WNet (GServer sid (EvFwSend fm sent_ok)) :: post
    /\ a = w_peer w sid
    /\ server_events sid (net_events pre) = pre0 ++ [EvFwConnect true]
    /\ authenticated mac conf_s user res_id pre0
    /\ grants conf_s user res_id r /\ port = rs_port r
    /\ covers_tcp pt = rs_tcp r /\ covers_udp pt = rs_udp r.
Proof.
  intros tr d [EX _ [RQ _]] before conn ev reply after t a pt port E (b & ok & sok & X & AK).
  injection X as -> ->.
  destruct (RQ _ _ _ _ _ _ _ _ E) as (sid & fm & sent_ok & -> & IN & L).
  destruct (in_split _ _ IN) as (pre & post & EB).
  destruct EX as [ES _]. destruct (ES sid) as (p & R).
  assert (E1 : server_events sid (net_events tr)
               = server_events sid (net_events pre) ++ EvFwSend fm sent_ok
                 :: server_events sid (net_events (post ++ WFw (Some sid) (FwMessage (FwRxBuf b) t ok sok) (Some fw_new_ack) :: after))).
  { rewrite E, EB, <- app_assoc. cbn [app]. rewrite net_events_app, server_events_app. simpl.
    rewrite Nat.eqb_refl. reflexivity. }
  destruct (request_facts mac conf_s (w_peer w sid) T KS _ _ _ _ _ _
              (runs mac conf_s (w_peer w sid) T KS _ _ R) E1)
    as (user & res_id & rs & pt' & pre0 & A & B & G & PT & F & _).
  destruct (port_type_covers _ _ _ PT) as (CT & CU).
  destruct (asks_layout _ _ _ _ _ L AK) as (FA & FP). rewrite F in FA, FP.
  exists sid, user, res_id, rs, pre0, pre, fm, sent_ok, post.
  split; [reflexivity|]. split; [exact EB|].
  unfold fw_new_open, fw_addr, fw_port in FA, FP. pose proof (octets_roundtrip _ (PEERS sid)) as O.
  destruct (addr_to_octets (w_peer w sid)) as [at_ oc]. cbn in FA, FP, O.
  injection FP as EP1 EP2. subst pt' port.
  destruct O as (_ & _ & O). split; [congruence|]. repeat split; auto; apply G.
Qed.

(** An accepted packet leads back to an authenticated session. *)
Lemma accepted_session : forall tr d, whole mac parse_ip conf_s conf_f T w c tr d ->
  clock_monotone (fw_events tr) -> d_phase d = PhRun ->
  forall pk, ip_address (pk_src pk) -> chain_accepts (d_kernel d) c pk ->
  ~ to_control_port conf_f pk ->
  exists sid user res_id r pre0 pre fm sent_ok mid ev after t pt,
    tr = pre ++ WNet (GServer sid (EvFwSend fm sent_ok)) :: mid
         ++ WFw (Some sid) ev (Some fw_new_ack) :: after
    /\ same_host (w_peer w sid) (pk_src pk)
    /\ server_events sid (net_events pre) = pre0 ++ [EvFwConnect true]
    /\ authenticated mac conf_s user res_id pre0
    /\ grants conf_s user res_id r /\ resource_covers r pk
    /\ acked (ev, Some fw_new_ack) t (w_peer w sid) pt (rs_port r)
    /\ not_expired conf_f t (fw_events after).
Proof.
  intros tr d W CM PH pk IPS ACC NC. pose proof (wh_fw _ _ _ _ _ _ _ _ _ W) as H.
  apply (accepts_exact conf_f c d _ H CM PH pk IPS) in ACC.
  destruct ACC as (_ & [X|(a & pt & port & (h1 & [ev reply] & h2 & t & EH & AK & NE) & SH & PC)]);
    [contradiction|].
  destruct (fw_events_split _ _ _ _ _ EH) as (t1 & conn & t2 & ET & E1 & E2).
  destruct (acked_session _ _ W _ _ _ _ _ _ _ _ _ ET AK)
    as (sid & user & res_id & r & pre0 & pre & fm & sok & post & -> & EB & -> & SE & AU & G & -> & CT & CU).
  exists sid, user, res_id, r, pre0, pre, fm, sok, post, ev, t2, t, pt.
  assert (reply = Some fw_new_ack) as -> by (destruct AK as (? & ? & ? & X & _); congruence).
  split; [rewrite ET, EB, <- app_assoc; reflexivity|]. split; [exact SH|].
  split; [exact SE|]. split; [exact AU|]. split; [exact G|].
  split; [eapply covers_resource; eauto|]. split; [exact AK|].
  red. rewrite E2. exact NE.
Qed.

Lemma accepted_ever : forall tr d, whole mac parse_ip conf_s conf_f T w c tr d ->
  forall pk, ip_address (pk_src pk) -> chain_accepts (d_kernel d) c pk ->
  ~ to_control_port conf_f pk ->
  exists sid user res_id r pre0 pre fm sent_ok post,
    tr = pre ++ WNet (GServer sid (EvFwSend fm sent_ok)) :: post
    /\ same_host (w_peer w sid) (pk_src pk)
    /\ server_events sid (net_events pre) = pre0 ++ [EvFwConnect true]
    /\ authenticated mac conf_s user res_id pre0
    /\ grants conf_s user res_id r /\ resource_covers r pk.
Proof.
  intros tr d W pk IPS ACC NC. pose proof (wh_fw _ _ _ _ _ _ _ _ _ W) as H.
  destruct (accepts_granted conf_f c d _ H pk IPS ACC)
    as [X|(a & pt & port & ([ev reply] & t & I & AK) & _ & SH & PC)]; [contradiction|].
  destruct (in_split _ _ I) as (h1 & h2 & EH).
  destruct (fw_events_split _ _ _ _ _ EH) as (t1 & conn & t2 & ET & E1 & E2).
  destruct (acked_session _ _ W _ _ _ _ _ _ _ _ _ ET AK)
    as (sid & user & res_id & r & pre0 & pre & fm & sok & post & -> & EB & -> & SE & AU & G & -> & CT & CU).
  exists sid, user, res_id, r, pre0, pre, fm, sok, (post ++ WFw (Some sid) ev reply :: t2).
  split; [rewrite ET, EB, <- app_assoc; reflexivity|]. split; [exact SH|].
  split; [exact SE|]. split; [exact AU|]. split; [exact G|].
  eapply covers_resource; eauto.
Qed.

(** The key holder behind an accepted packet. *)
Lemma accepted_holder : forall tr d, whole mac parse_ip conf_s conf_f T w c tr d ->
  unforgeable mac conf_s w (net_events tr) -> unrelayed w (net_events tr) ->
  forall pk, ip_address (pk_src pk) -> chain_accepts (d_kernel d) c pk ->
  ~ to_control_port conf_f pk ->
  exists cid user, In (user, kq_key (w_client w cid)) (c_keys conf_s)
    /\ kq_user (w_client w cid) = user /\ same_host (w_home w cid) (pk_src pk).
Proof.
  intros tr d W UF UR pk IPS ACC NC.
  destruct (accepted_ever _ _ W pk IPS ACC NC)
    as (sid & user & res_id & r & pre0 & pre & fm & sok & post & ET & SH & _).
  assert (E1 : net_events tr = net_events pre ++ GServer sid (EvFwSend fm sok) :: net_events post).
  { rewrite ET, net_events_app. reflexivity. }
  destruct (unrelayed_address mac parse_ip conf_s T w MAC KS SANE _ (wh_net _ _ _ _ _ _ _ _ _ W) UF UR PEERS _ _ _ _ _ E1)
    as (u & cid & K & U & A).
  destruct (agreement mac parse_ip conf_s T w MAC KS SANE _ (wh_net _ _ _ _ _ _ _ _ _ W) UF PEERS _ _ _ _ _ E1)
    as (u' & key & ri & r' & t' & nonce & salt & text & cid' & n & _ & _ & _ & FA & _).
  exists cid, u. split; [exact K|]. split; [exact U|].
  assert (w_home w cid = w_peer w sid) as -> by congruence. exact SH.
Qed.

(** A ComeIn means that the port is open. *)
Lemma sent_in : forall tr a d m r b, tr = a ++ EvSend d m r :: b -> In m (sent tr).
Proof.
  intros tr a d m r b ->. induction a as [|[]]; simpl; auto.
Qed.

Lemma come_in_open : forall tr d, whole mac parse_ip conf_s conf_f T w c tr d ->
  clock_monotone (fw_events tr) -> serving d ->
  forall pre sid dd m r post, tr = pre ++ WNet (GServer sid (EvSend dd m r)) :: post ->
  m_op m = ComeIn ->
  exists rs before ev after t pt,
    pre = before ++ WFw (Some sid) ev (Some fw_new_ack) :: after
    /\ acked (ev, Some fw_new_ack) t (w_peer w sid) pt (rs_port rs)
    /\ grants conf_s (m_user m) (m_resource m) rs
    /\ (not_expired conf_f t (fw_events (after ++ post)) ->
        forall pk, same_host (w_peer w sid) (pk_src pk) -> ip_address (pk_src pk) ->
        resource_covers rs pk -> chain_accepts (d_kernel d) c pk).
Proof.
  intros tr d W CM SV pre sid dd m r post ET OP.
  pose proof W as [[ES EC] H [RQ RP]].
  destruct (ES sid) as (p & R). pose proof (runs mac conf_s (w_peer w sid) T KS _ _ R) as R'.
  assert (E1 : server_events sid (net_events tr)
               = server_events sid (net_events pre) ++ EvSend dd m r :: server_events sid (net_events post)).
  { rewrite ET, net_events_app, server_events_app. simpl. rewrite Nat.eqb_refl. reflexivity. }
  destruct (come_after_ack mac conf_s (w_peer w sid) T KS _ _ _ _ _ _ _ R' E1 OP)
    as (_ & user & res_id & pre0 & fm & ok & ev & pre' & AU & EP & ACK).
  (* the ack *)
  destruct ev as [| | | | |[| |rb]]; try contradiction. simpl in ACK.
  assert (EP2 : server_events sid (net_events pre)
                = (pre0 ++ [EvFwConnect true; EvFwSend fm ok]) ++ EvFwRecv (FwRxBuf rb) :: pre').
  { rewrite EP, <- app_assoc. reflexivity. }
  destruct (server_events_split _ _ _ _ _ EP2) as (g1 & g2 & Eg & P1 & P2).
  destruct (net_events_split _ _ _ _ Eg) as (w1 & w2 & Ew & N1 & N2).
  assert (ET2 : tr = w1 ++ WNet (GServer sid (EvFwRecv (FwRxBuf rb)))
                      :: (w2 ++ WNet (GServer sid (EvSend dd m r)) :: post)).
  { rewrite ET, Ew, <- app_assoc. reflexivity. }
  destruct (RP _ _ _ _ ET2) as (rx & t & nok & sok & reply & IN & LR).
  destruct (in_split _ _ IN) as (v1 & v2 & Ev).
  set (after := v2 ++ WNet (GServer sid (EvFwRecv (FwRxBuf rb))) :: w2).
  assert (Epre : pre = v1 ++ WFw (Some sid) (FwMessage rx t nok sok) (Some reply) :: after).
  { unfold after. rewrite Ew, Ev, <- app_assoc. reflexivity. }
  assert (ET3 : tr = v1 ++ WFw (Some sid) (FwMessage rx t nok sok) (Some reply)
                      :: (after ++ WNet (GServer sid (EvSend dd m r)) :: post)).
  { rewrite ET, Epre, <- app_assoc. reflexivity. }
  assert (OR : f_op reply = FwAck).
  { apply opcode_inj. rewrite <- (fl_op _ _ LR). exact ACK. }
  (* the request *)
  assert (EH : fw_events tr = fw_events v1 ++ (FwMessage rx t nok sok, Some reply)
                 :: fw_events (after ++ post)).
  { rewrite ET3, fw_events_app. simpl. rewrite !fw_events_app. reflexivity. }
  assert (AK : reply = fw_new_ack /\ exists b a pt port, rx = FwRxBuf b /\ asks b a pt port).
  { clear - H EH OR.
    assert (X : forall d h, history conf_f c d h -> forall h1 h2 rx t nok sok reply,
      h = h1 ++ (FwMessage rx t nok sok, Some reply) :: h2 -> f_op reply = FwAck ->
      reply = fw_new_ack /\ exists b a pt port, rx = FwRxBuf b /\ asks b a pt port).
    { clear. intros d h H. pose proof (history_configured conf_f c d h H) as CC.
      induction H as [|d h ev d' rp H IH EV ST]; intros h1 h2 rx t nok sok reply E OR.
      - destruct h1; discriminate.
      - destruct (snoc_split _ _ _ _ _ _ E) as [(-> & -> & E2)|(b' & -> & E2)].
        2:{ eapply IH; eauto. }
        + injection E2 as <- <-.
          destruct (message_step conf_f c d h H _ _ _ _ _ _ EV ST)
            as [(_ & NA & AN)|(b & a & pt & port & -> & AK & _ & _ & _ & _ & E2)].
          * exfalso. unfold fw_step in ST.
            assert (RB : reply = fw_new_ack \/ reply = fw_new_nack).
            { destruct (d_phase d); try discriminate; destruct (handle_message conf_f (d_kernel d) (d_fw d) rx t nok sok) as [[[k1 fw1] rp1] r1] eqn:HM;
                injection ST as _ ->; unfold handle_message in HM;
                repeat match type of HM with
                       | context [match ?x with _ => _ end] => destruct x
                       end; injection HM; intros; subst; try discriminate; auto;
                match goal with H : Some _ = Some _ |- _ => injection H as <- end; auto. }
            destruct RB as [->| ->]; [apply NA; reflexivity|discriminate OR].
          * injection E2 as ->. split; [reflexivity|]. exists b, a, pt, port. auto. }
    eapply X; eauto. }
  destruct AK as (-> & b & a & pt & port & -> & AKS).
  assert (ACK2 : acked (FwMessage (FwRxBuf b) t nok sok, Some fw_new_ack) t a pt port).
  { exists b, nok, sok. auto. }
  destruct (acked_session _ _ W _ _ _ _ _ _ _ _ _ ET3 ACK2)
    as (sid' & u2 & ri2 & rs & pre2 & q1 & fm2 & ok2 & q2 & X & EB & -> & SE & AU2 & G & -> & CT & CU).
  injection X as <-.
  (* user and resource of the ComeIn are those of the knock *)
  assert (U : m_user m = u2 /\ m_resource m = ri2).
  { assert (E4 : exists l, server_events sid (net_events tr) = pre2 ++ l).
    { exists (EvFwConnect true :: EvFwSend fm2 ok2 ::
        server_events sid (net_events (q2 ++ WFw (Some sid) (FwMessage (FwRxBuf b) t nok sok) (Some fw_new_ack)
                      :: (after ++ WNet (GServer sid (EvSend dd m r)) :: post)))).
      rewrite ET3, EB, <- app_assoc. cbn [app]. rewrite net_events_app. cbn [net_events].
      rewrite server_events_app, SE. cbn [server_events]. rewrite Nat.eqb_refl, <- app_assoc. reflexivity. }
    destruct E4 as (l & E4).
    destruct AU2 as [key d1 kb ss nonce d2 chal d3 rb2 KI (salt & auth & text & WL & _) _ _ _ _ _].
    pose proof (sent_in _ _ _ _ _ _ E1) as SI.
    destruct (discipline mac conf_s (w_peer w sid) T _ _ R') as [X|(dk & kb' & rest & E5 & _ & CASES)].
    { rewrite X in SI. contradiction. }
    rewrite E4 in E5. injection E5 as <- <- _.
    pose proof (wl_user _ _ _ _ _ _ WL) as WU. pose proof (wl_resource _ _ _ _ _ _ WL) as WR.
    destruct CASES as [(_ & g & SG & (GO & _))|(_ & CASES)].
    { rewrite SG in SI. destruct SI as [->|[]]. congruence. }
    cbv zeta in CASES.
    destruct CASES as [(g & SG & GO & _)|[(g & SG & GO & _)|[(cc & g & SG & (CO & _) & (GO & _))|(cc & i & SG & (CO & _) & (GO & GU & GR))]]];
      rewrite SG in SI; simpl in SI.
    - destruct SI as [->|[]]. congruence.
    - destruct SI as [->|[]]. congruence.
    - destruct SI as [->|[->|[]]]; congruence.
    - destruct SI as [->|[->|[]]]; [congruence|]. split; congruence. }
  destruct U as (<- & <-).
  exists rs, v1, (FwMessage (FwRxBuf b) t nok sok), after, t, pt.
  split; [exact Epre|]. split; [exact ACK2|]. split; [exact G|].
  intros NE pk SH IPS RC.
  eapply (grant_effective conf_f c d _ H CM SV (w_peer w sid) pt (rs_port rs) pk); auto.
  - exists (fw_events v1), (FwMessage (FwRxBuf b) t nok sok, Some fw_new_ack), (fw_events (after ++ post)), t.
    split; [exact EH|]. split; [exact ACK2|exact NE].
  - apply (covers_resource pt (rs_port rs) rs pk CT CU eq_refl). exact RC.
Qed.

End Whole.
