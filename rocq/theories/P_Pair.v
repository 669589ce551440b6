(** Proof of C12: a legitimate knock over a loss-free channel succeeds. *)

From Coq Require Import String ZArith NArith List Bool Lia.
From Verif Require Import M_Base M_Proto M_IpAddr M_FwProto M_ConfTypes M_Server M_Client
  S_Wire S_Session S_Client S_Pair P_Base P_Proto P_Server P_Session P_Client.
Import ListNotations.
Local Open Scope N_scope.

Lemma resolve_is_chain : forall parse_ip host cfg k, parse_ip host = None ->
  resolve parse_ip host cfg k
  = chain (filter (enabled (rc_srv cfg) (rc_crypt cfg)) preference) (rc_mode cfg) k.
Proof.
  intros parse_ip host [mode [s q g c] [t h u]] k E.
  unfold resolve. rewrite E. cbn.
  destruct s, q, g, c, t, h, u; reflexivity.
Qed.

Lemma first_result_of_record : forall mode l a, first_record mode l a ->
  get_first_result l mode = Ok a.
Proof.
  intros mode l a F. induction F as [| |x l a N F IH|x l a N F IH]; simpl; auto.
  - destruct x; auto. exfalso. eapply N; reflexivity.
  - destruct x; auto. exfalso. eapply N; reflexivity.
Qed.

(** At most one message is on the way, and none to a session that has ended. *)
Definition narrow (s : pair) : Prop :=
  (length (pr_up s) + length (pr_down s) <= 1)%nat
  /\ forall r, pr_server s = SRet r -> pr_up s = [].

Definition done_well (final : pair -> Prop) (n : nat) (s : pair) : Prop :=
  forall m s', pair_steps m s s' ->
  ((m <= n)%nat /\ narrow s')
  /\ (final s' \/ ((forall r, pr_client s' <> CRet r) /\ exists s'', pair_step s' s'')).

Lemma dw_step : forall final n s, (forall r, pr_client s <> CRet r) /\ narrow s -> (exists s', pair_step s s') ->
  (forall s', pair_step s s' -> done_well final n s') -> done_well final (S n) s.
Proof.
  intros final n s [NR NA] [s1 H1] H m s' R. inversion R; subst.
  - split; [split; [lia|exact NA]|]. right. split; [exact NR|]. exists s1. exact H1.
  - match goal with H0 : pair_step s ?x, H2 : pair_steps _ ?x _ |- _ =>
      specialize (H _ H0 _ _ H2); split; [split; [lia|apply H]|apply H] end.
Qed.

Lemma dw_end : forall (final : pair -> Prop) s, (forall s', ~ pair_step s s') -> narrow s -> final s ->
  done_well final 0 s.
Proof.
  intros final s N NA F m s' R. inversion R; subst.
  - split; [split; [lia|exact NA]|auto].
  - exfalso. match goal with H0 : pair_step s ?x |- _ => exact (N _ H0) end.
Qed.

Lemma dw_mono : forall final n m s, (n <= m)%nat -> done_well final n s -> done_well final m s.
Proof. intros final n m s L H k s' R. apply H in R. split; [split; [lia|apply R]|apply R]. Qed.

Ltac going := split; [discriminate|split; [cbn; lia|let EQ := fresh in intros ? EQ; first [reflexivity|discriminate EQ]]].

Lemma good_exists : forall sz, (1 < sz)%nat -> exists b, good_bytes sz b.
Proof.
  intros [|[|sz]] L; try lia. exists (1 :: 2 :: repeat 0 sz).
  split; [simpl; rewrite repeat_length; reflexivity|]. split.
  - intros x I. destruct I as [<-|[<-|I]]; try reflexivity.
    apply repeat_spec in I. subst. reflexivity.
  - intros c E. simpl in E. injection E as E1 E2. congruence.
Qed.

Lemma good_msg : forall o u r b, good_bytes 8 b ->
  msg_new o u r (Some b) = Ok (Msg MAGIC o u r b ZERO_AUTH).
Proof.
  intros o u r b (L & _ & N). unfold msg_new. change SALT_SIZE with 8%nat.
  rewrite secure_random_complete; auto.
Qed.

Ltac pstep_inv :=
  let s := fresh "s" in let H := fresh "H" in
  intros s H; inversion H; subst; clear H.
Ltac pstep_go := apply dw_step; [going|eexists; econstructor; eauto|pstep_inv].

Section Pair.

Variable mac : list byte -> list byte -> list byte.
Variable parse_ip : text -> option ip.
Hypothesis mac_sized : forall x y, length (mac x y) = 32%nat /\ all_bytes (mac x y).
Variables cc sc : config.
Variables (host : text) (mode : res_mode) (srv : res_srv) (crypt : res_crypt).
Variables (user : N) (key : list N) (res_id port : N) (rs : resource) (peer : ip).
Hypothesis AG : agree cc sc host parse_ip mode srv crypt user key res_id port rs.
Variable cp : control_port.
Hypothesis CP : one_transport cp.

Definition final (s : pair) : Prop :=
  pr_client s = CRet (Ok tt) /\ pr_server s = SRet (Ok tt)
  /\ exists t, pr_opened s = [fw_new_open peer t port]
               /\ covers_tcp t = rs_tcp rs /\ covers_udp t = rs_udp rs.

Let q := KnockSeq host srv crypt cp user res_id key.

Lemma SI : sane_identity q.
Proof. destruct (ag_ids _ _ _ _ _ _ _ _ _ _ _ _ AG). repeat split; auto; apply AG. Qed.

Lemma contains : contains_user rs user = true.
Proof.
  destruct (ag_suser _ _ _ _ _ _ _ _ _ _ _ _ AG) as [E|I]; unfold contains_user.
  - rewrite E. reflexivity.
  - destruct (rs_users rs); auto. apply existsb_exists. exists user. split; auto. apply N.eqb_refl.
Qed.

(** The exchange, from the established connection on. *)
Lemma exchange : done_well final 16 (Pair (body mac q) (server_run mac sc peer) [] [] []).
Proof.
  pose proof SI as (KL & U & R).
  assert (G8 : exists b, good_bytes 8 b) by (apply good_exists; lia). destruct G8 as [g8 G8].
  assert (G32 : exists b, good_bytes 32 b) by (apply good_exists; lia). destruct G32 as [g32 G32].
  unfold body, client_msg. change SALT_SIZE with 8%nat.
  (* the salt of the knock *)
  pstep_go. match goal with H : good_bytes 8 _ |- _ => rename H into Gs; rename b into s1 end.
  rewrite good_msg by exact Gs. destruct Gs as (L1 & B1 & N1).
  destruct (honest_knock mac key user res_id s1 _ mac_sized KL U R L1 B1
              (good_msg Knock user res_id s1 (conj L1 (conj B1 N1))))
    as (knock & kb & knock' & EK & WK & DK & HK).
  cbn [kq_key kq_user kq_resource q]. rewrite EK. cbn [unres]. unfold client_send.
  (* the knock *)
  apply dw_step; [going|eexists; econstructor; exact WK|].
  pstep_inv. match goal with H : wire knock _ |- _ => unfold wire in H; rewrite WK in H; injection H as <- end.
  cbn [app]. unfold server_run, recv_msg.
  apply dw_step; [going|eexists; econstructor|]. pstep_inv.
  destruct HK as (OK & UK & RK & CK).
  unfold decode_rx. rewrite DK, OK. cbn [op_eqb negb ps_user ps_resource].
  change (op_eqb Knock Knock) with true. cbn [negb].
  rewrite UK, RK.
  unfold conf_key. rewrite (In_nlookup _ _ _ _ (ag_skeys _ _ _ _ _ _ _ _ _ _ _ _ AG)
                              (ag_skey _ _ _ _ _ _ _ _ _ _ _ _ AG)).
  rewrite CK. clear UK RK OK CK.
  unfold conf_resource. rewrite (In_nlookup _ _ _ _ (ag_sress _ _ _ _ _ _ _ _ _ _ _ _ AG)
                              (ag_sres _ _ _ _ _ _ _ _ _ _ _ _ AG)).
  rewrite contains. cbn [negb].
  rewrite (ag_sport _ _ _ _ _ _ _ _ _ _ _ _ AG).
  destruct (N.eqb_spec port (cp_port (c_port sc))) as [E|_];
    [exfalso; exact (ag_scontrol _ _ _ _ _ _ _ _ _ _ _ _ AG E)|].
  unfold challenge_response, new_msg. change SALT_SIZE with 8%nat.
  (* the challenge *)
  apply dw_step; [going|eexists; econstructor; exact G8|]. pstep_inv.
  match goal with H : good_bytes 8 ?b |- _ => rename H into Gs2; rename b into s2 end.
  rewrite good_msg by exact Gs2.
  apply dw_step; [going|eexists; econstructor; exact G32|]. pstep_inv.
  match goal with H : good_bytes AUTH_SIZE ?b |- _ => rename H into Gn; rename b into nonce end.
  destruct Gn as (Ln & Bn & Nn). destruct Gs2 as (L2 & B2 & N2).
  unfold generate_challenge. cbn [m_op]. change (op_eqb Challenge Challenge) with true.
  cbn [assert_]. rewrite secure_random_complete by (auto; cbv; lia).
  cbn [bind].
  set (ch := set_auth (Msg MAGIC Challenge user res_id s2 ZERO_AUTH) nonce).
  assert (ACH : api_message ch).
  { unfold api_message, ch. cbn [set_auth m_magic m_user m_resource m_salt m_auth]. auto 10. }
  destruct (roundtrip _ ACH) as (chb & WC & _ & DC).
  unfold send_msg.
  apply dw_step; [going|eexists; econstructor; exact WC|]. pstep_inv.
  match goal with H : wire ch _ |- _ => unfold wire in H; rewrite WC in H; injection H as <- end.
  cbn [app]. unfold recv_specific.
  (* the response *)
  apply dw_step; [going|eexists; econstructor|]. pstep_inv.
  unfold decode_rx. rewrite DC. change (op_eqb (m_op ch) GoAway) with false.
  change (op_eqb (m_op ch) Challenge) with true. cbn [negb].
  unfold tail2, client_msg. change SALT_SIZE with 8%nat.
  apply dw_step; [going|eexists; econstructor; exact G8|]. pstep_inv.
  match goal with H : good_bytes 8 ?b |- _ => rename H into Gs3; rename b into s3 end.
  rewrite good_msg by exact Gs3. pose proof Gs3 as (L3 & B3 & N3).
  destruct (honest_response mac key user res_id s3 _ ch mac_sized KL U R L3 B3 ACH eq_refl
              (good_msg Response user res_id s3 Gs3))
    as (resp & rb & resp' & ER & WR & DR & HR).
  cbn [kq_key kq_user kq_resource q]. rewrite ER. cbn [unres]. unfold client_send.
  apply dw_step; [going|eexists; econstructor; exact WR|]. pstep_inv.
  match goal with H : wire resp _ |- _ => unfold wire in H; rewrite WR in H; injection H as <- end.
  cbn [app]. unfold recv_msg.
  apply dw_step; [going|eexists; econstructor|]. pstep_inv.
  destruct HR as (OR & UR & RR & CR).
  unfold decode_rx. rewrite DR, OR. change (op_eqb Response Response) with true. cbn [negb ps_user ps_resource].
  rewrite UR, RR, !N.eqb_refl. cbn [negb]. rewrite CR. clear UR RR OR CR.
  (* the firewall *)
  unfold open_firewall.
  assert (PT : exists t, port_type_of (rs_tcp rs) (rs_udp rs) = Some t
                 /\ covers_tcp t = rs_tcp rs /\ covers_udp t = rs_udp rs).
  { destruct (ag_stransport _ _ _ _ _ _ _ _ _ _ _ _ AG) as [E|E]; rewrite E;
      [destruct (rs_udp rs)|destruct (rs_tcp rs)]; eexists; split; try reflexivity; auto. }
  destruct PT as (t & PT & CT & CU). rewrite PT.
  apply dw_step; [going|eexists; econstructor|]. pstep_inv.
  cbn [negb ps_auth auth_eqb]. unfold fw_open_port.
  apply dw_step; [going|eexists; econstructor|]. pstep_inv. cbn [negb app].
  apply dw_step; [going|eexists; econstructor; reflexivity|]. pstep_inv.
  match goal with H : fw_serialize fw_new_ack = Ok ?b |- _ =>
    vm_compute in H; injection H as <- end.
  match goal with |- context [fw_deserialize ?b] =>
    replace (fw_deserialize b) with (Ok fw_new_ack) by (vm_compute; reflexivity) end.
  cbn [f_op fw_new_ack]. unfold send_come_in, new_msg. change SALT_SIZE with 8%nat.
  apply dw_step; [going|eexists; econstructor; exact G8|]. pstep_inv.
  match goal with H : good_bytes 8 ?b |- _ => rename H into Gs4; rename b into s4 end.
  rewrite good_msg by exact Gs4. destruct Gs4 as (L4 & B4 & N4).
  set (ci := Msg MAGIC ComeIn user res_id s4 ZERO_AUTH).
  assert (ACI : api_message ci).
  { unfold api_message, ci. cbn [m_magic m_user m_resource m_salt m_auth].
    pose proof zero_auth_ok as [Z1 Z2]. auto 10. }
  destruct (roundtrip _ ACI) as (cib & WI & _ & DI).
  unfold send_msg.
  apply dw_step; [going|eexists; econstructor; exact WI|]. pstep_inv.
  match goal with H : wire ci _ |- _ => unfold wire in H; rewrite WI in H; injection H as <- end.
  cbn [app].
  apply dw_step; [going|eexists; econstructor|]. pstep_inv.
  unfold decode_rx. rewrite DI. change (op_eqb (m_op ci) GoAway) with false.
  change (op_eqb (m_op ci) ComeIn) with true. cbn [negb].
  apply dw_end.
  - intros s H. inversion H.
  - split; [cbn; lia|reflexivity].
  - split; [reflexivity|]. split; [reflexivity|]. exists t.
    rewrite (ag_sport _ _ _ _ _ _ _ _ _ _ _ _ AG). auto.
Qed.

(** Connecting and the exchange. *)
Lemma connected : forall a, done_well final 17
  (Pair (match Ok a with
    | Panic => CRet Panic
    | Err e => CRet (Err e)
    | Ok a =>
        if cp_tcp cp then
          if cp_udp cp then CRet Panic
          else CConnect true a (cp_port cp)
                 (fun ok => match (if ok then Ok tt else Err "Connect to server")
                            with Panic => CRet Panic | Err e => CRet (Err e) | Ok _ => body mac q end)
        else if negb (cp_udp cp) then CRet Panic
        else CConnect false a (cp_port cp)
                 (fun ok => match (if ok then Ok tt else Err "Connect to server")
                            with Panic => CRet Panic | Err e => CRet (Err e) | Ok _ => body mac q end)
    end) (server_run mac sc peer) [] [] []).
Proof.
  intros a. red in CP. destruct (cp_tcp cp), (cp_udp cp); try discriminate; cbn [negb];
    (apply dw_step; [going|eexists; econstructor|]); pstep_inv; exact exchange.
Qed.

Lemma sequence : done_well final 18
  (Pair (knock_sequence mac parse_ip q mode) (server_run mac sc peer) [] [] []).
Proof.
  unfold knock_sequence, client_new. cbn [kq_addr kq_port kq_srv kq_crypt q].
  destruct (ag_host _ _ _ _ _ _ _ _ _ _ _ _ AG) as [(a & E & F)|(E & sv & EN)].
  - apply dw_mono with (n := 17%nat); [lia|].
    pose proof (connected a) as K. clear AG.
    unfold resolve. rewrite E. cbn [rc_mode].
    destruct mode, a; try contradiction; exact K.
  - rewrite resolve_is_chain by exact E. cbn [rc_srv rc_crypt rc_mode].
    assert (I : In sv (filter (enabled srv crypt) preference)).
    { apply filter_In. split; auto. destruct sv as [|[] []]; simpl; auto 12. }
    destruct (filter (enabled srv crypt) preference) as [|s0 l]; [destruct I|].
    cbn [chain].
    apply dw_step.
    + going.
    + destruct mode; eexists.
      * eapply ps_lookup with (l := [RAAAA (repeat 0 16)]); [|constructor].
        intros x [<-|[]]. split; reflexivity.
      * eapply ps_lookup with (l := [RA (repeat 0 4)]); [|constructor].
        intros x [<-|[]]. split; reflexivity.
    + pstep_inv. match goal with H : first_record _ _ _ |- _ => rewrite (first_result_of_record _ _ _ H) end.
      exact (connected _).
Qed.

End Pair.

Lemma res_id_unique : forall l id crs user,
  NoDup (map (fun x => rs_port (snd x)) l) -> In (id, crs) l ->
  contains_user crs user = true ->
  res_id_by_port l (rs_port crs) (Some user) = Some id.
Proof.
  induction l as [|[k r] l IH]; intros id crs user ND I C; [destruct I|].
  simpl in ND. inversion ND; subst. simpl. destruct I as [E|I].
  - injection E as -> ->. rewrite N.eqb_refl, C. reflexivity.
  - destruct (N.eqb_spec (rs_port r) (rs_port crs)) as [E|_]; [|auto].
    exfalso. match goal with H : ~ In _ _ |- _ => apply H end.
    rewrite E. apply in_map_iff. exists (id, crs). auto.
Qed.

Lemma contains_user_of : forall r u, rs_users r = [] \/ In u (rs_users r) -> contains_user r u = true.
Proof.
  intros r u H. unfold contains_user. destruct (rs_users r) eqn:E; auto.
  destruct H as [H|H]; [discriminate|]. apply existsb_exists. exists u. split; auto. apply N.eqb_refl.
Qed.

Lemma legit_knock_narrow : forall mac parse_ip cc sc host (ipv4 : bool) srv crypt user key res_id port rs peer kport tcp udp n s,
  (forall x y, length (mac x y) = 32%nat /\ all_bytes (mac x y)) ->
  agree cc sc host parse_ip (if ipv4 then RmIpv4 else RmIpv6) srv crypt user key res_id port rs ->
  pair_steps n
    (Pair (run_knock mac parse_ip cc host
             (KnockServer (addr_mode_of ipv4 (negb ipv4)) kport tcp udp) port (Some user) srv crypt)
          (server_run mac sc peer) [] [] []) s ->
  ((n <= 18)%nat /\ narrow s)
  /\ ((pr_client s = CRet (Ok tt) /\ pr_server s = SRet (Ok tt)
       /\ exists t, pr_opened s = [fw_new_open peer t port]
                    /\ covers_tcp t = rs_tcp rs /\ covers_udp t = rs_udp rs)
      \/ exists s', pair_step s s').
Proof.
  intros mac parse_ip cc sc host ipv4 srv crypt user key res_id port rs peer kport tcp udp n s MS AG.
  destruct (ag_cres _ _ _ _ _ _ _ _ _ _ _ _ AG) as (crs & I & <- & AU).
  unfold run_knock. unfold conf_key.
  rewrite (In_nlookup _ _ _ _ (ag_ckeys _ _ _ _ _ _ _ _ _ _ _ _ AG) (ag_ckey _ _ _ _ _ _ _ _ _ _ _ _ AG)).
  unfold resource_id_by_port.
  rewrite (res_id_unique _ res_id crs user (ag_cports _ _ _ _ _ _ _ _ _ _ _ _ AG) I (contains_user_of _ _ AU)).
  pose proof (control_port_choice (KnockServer (addr_mode_of ipv4 (negb ipv4)) kport tcp udp) cc
                (ag_ctransport _ _ _ _ _ _ _ _ _ _ _ _ AG)) as (OT & _).
  intro R. destruct (sequence mac parse_ip MS cc sc host (if ipv4 then RmIpv4 else RmIpv6) srv crypt
                     user key res_id (rs_port crs) rs peer AG _ OT n s) as (B & [F|(_ & ST)]); [|split; auto..].
  destruct ipv4; exact R.
Qed.

Lemma legit_knock : forall mac parse_ip cc sc host (ipv4 : bool) srv crypt user key res_id port rs peer kport tcp udp n s,
  (forall x y, length (mac x y) = 32%nat /\ all_bytes (mac x y)) ->
  agree cc sc host parse_ip (if ipv4 then RmIpv4 else RmIpv6) srv crypt user key res_id port rs ->
  pair_steps n
    (Pair (run_knock mac parse_ip cc host
             (KnockServer (addr_mode_of ipv4 (negb ipv4)) kport tcp udp) port (Some user) srv crypt)
          (server_run mac sc peer) [] [] []) s ->
  (n <= 18)%nat
  /\ ((pr_client s = CRet (Ok tt) /\ pr_server s = SRet (Ok tt)
       /\ exists t, pr_opened s = [fw_new_open peer t port]
                    /\ covers_tcp t = rs_tcp rs /\ covers_udp t = rs_udp rs)
      \/ exists s', pair_step s s').
Proof.
  intros mac parse_ip cc sc host ipv4 srv crypt user key res_id port rs peer kport tcp udp n s MS AG R.
  destruct (legit_knock_narrow mac parse_ip cc sc host ipv4 srv crypt user key res_id port rs peer kport tcp udp n s MS AG R)
    as ((B & _) & Q). auto.
Qed.
