(** C56: an expired lease is closed soon. *)

From Coq Require Import String NArith List Lia.
From Verif Require Import M_Base M_Proto M_IpAddr M_FwProto M_ConfTypes M_Text M_Conf M_Server M_Client M_Firewall
  S_Wire S_Session S_Client S_Text S_Conf S_System S_Whole S_Maint
  P_Base P_FwdProps P_Maint P_Whole P_Files Prop_Firewall Prop_Whole Prop_E2e S_Files S_Firewall.
Import ListNotations.
Local Open Scope N_scope.

(** If the maintenance is on schedule and the chain accepts, at the time [now], a
    packet that does not go to the control port, then a request for its source,
    port and transport was acknowledged less than the lease time plus five seconds
    plus the delay of the maintenance ago. *)
Theorem C56_expired_lease_is_closed_soon :
  forall conf c d h start delay now, history conf c d h -> clock_monotone h -> d_phase d = PhRun ->
  since start h -> on_schedule start delay h now ->
  forall pk, ip_address (pk_src pk) -> chain_accepts (d_kernel d) c pk -> ~ to_control_port conf pk ->
  exists x t a pt port, In x h /\ acked x t a pt port /\ same_host a (pk_src pk) /\ port_covers pt port pk
    /\ now < t + c_nft_timeout conf + 5000000000 + delay.
Proof.
  intros conf c d h start delay now H MONO PH SI SC pk IA ACC NCP.
  apply (accepts_exact conf c d h H MONO PH pk IA) in ACC. destruct ACC as (_ & [CP|(a & pt & port & LG & SH & PC)]);
    [contradiction|].
  destruct LG as (pre & x & post & t & E & AK & LIVE).
  exists x, t, a, pt, port. split; [rewrite E; apply in_or_app; right; left; reflexivity|].
  split; [exact AK|]. split; [exact SH|]. split; [exact PC|].
  eapply (overstay start delay h now pre x post t); eauto.
  destruct AK as (b & ok & sok & -> & _). reflexivity.
Qed.
Print Assumptions C56_expired_lease_is_closed_soon.

(** In the whole system, in terms of the configuration file: whoever is let
    through to a port other than the control port has authenticated recently. *)
Theorem C56_access_needs_a_recent_session :
  forall mac parse_ip fraction sfile sls sc fc T w c start delay now,
  started_from fraction VarServer sfile sls sc -> started_from fraction VarServer sfile sls fc ->
  (forall sid, ip_address (w_peer w sid)) ->
  forall tr d, whole mac parse_ip sc fc T w c tr d ->
  clock_monotone (fw_events tr) -> d_phase d = PhRun ->
  since start (fw_events tr) -> on_schedule start delay (fw_events tr) now ->
  forall pk, ip_address (pk_src pk) -> chain_accepts (d_kernel d) c pk ->
  (exists cp, control_port_is sls cp /\ pk_dport pk = cp_port cp
     /\ match pk_transport pk with Tcp => cp_tcp cp | Udp => cp_udp cp end = true)
  \/ exists sid user key id rs pre0 pre fm sent_ok mid ev after t pt timeout,
       entry sls "KEYS"%string key_text user key
       /\ entry sls "RESOURCES"%string resource_text id rs /\ open_to rs user
       /\ pk_dport pk = rs_port rs
       /\ match pk_transport pk with Tcp => rs_tcp rs | Udp => rs_udp rs end = true
       /\ same_host (w_peer w sid) (pk_src pk)
       /\ tr = pre ++ WNet (GServer sid (EvFwSend fm sent_ok)) :: mid
               ++ WFw (Some sid) ev (Some fw_new_ack) :: after
       /\ server_events sid (net_events pre) = pre0 ++ [EvFwConnect true]
       /\ proved_key mac key user id pre0
       /\ acked (ev, Some fw_new_ack) t (w_peer w sid) pt (rs_port rs)
       /\ setting sls "NFTABLES"%string "timeout"%string (duration_text fraction) 600000000000 timeout
       /\ now < t + timeout + 5000000000 + delay.
Proof.
  intros mac parse_ip fraction sfile sls sc fc T w c start delay now SL FL PA tr d WH MONO PH SI SC pk IA ACC.
  destruct (C55_only_the_file_opens_ports mac parse_ip fraction sfile sls sc fc T w c SL FL PA tr d WH MONO PH pk IA ACC)
    as [CP|(sid & user & key & id & rs & pre0 & pre & fm & sok & mid & ev & after & t & pt & timeout
            & K & R & O & DP & TR & SH & ET & SE & PK & AK & ST & NE)]; [left; exact CP|right].
  exists sid, user, key, id, rs, pre0, pre, fm, sok, mid, ev, after, t, pt, timeout.
  do 11 (split; [assumption|]).
  assert (forall a b, fw_events (a ++ b) = fw_events a ++ fw_events b) as FE.
  { induction a as [|[g|s e r] a IH]; intros b; simpl; [reflexivity|apply IH|f_equal; apply IH]. }
  eapply (overstay start delay (fw_events tr) now (fw_events (pre ++ WNet (GServer sid (EvFwSend fm sok)) :: mid))
            (ev, Some fw_new_ack) (fw_events after) t); eauto.
  - rewrite ET. rewrite !FE. simpl. rewrite FE. simpl. rewrite <- app_assoc. reflexivity.
  - destruct AK as (b & ok & sok' & [= -> ] & _). reflexivity.
Qed.
Print Assumptions C56_access_needs_a_recent_session.

(** The example history of Prop_Firewall.v is on schedule, and a lease is open at
    its end. *)
Example C56_witness :
  history ex_conf ex_chain (fst (ex_run 3)) (ex_hist 3) /\ clock_monotone (ex_hist 3)
  /\ d_phase (fst (ex_run 3)) = PhRun
  /\ since 0 (ex_hist 3) /\ on_schedule 0 2000 (ex_hist 3) 3000
  /\ chain_accepts (d_kernel (fst (ex_run 3))) ex_chain (Packet host_b Udp 53)
  /\ ~ to_control_port ex_conf (Packet host_b Udp 53).
Proof.
  split; [exact ex_history3|]. split; [exact ex_monotone|]. split; [reflexivity|].
  split; [intros x t _ _; apply N.le_0_l|]. split.
  { intros [|k] L.
    - exists 1600. split; [vm_compute; reflexivity|]. unfold FW_MAINTAIN_PERIOD. lia.
    - exfalso. unfold FW_MAINTAIN_PERIOD in L. lia. }
  split; [|intros [A _]; vm_compute in A; discriminate].
  assert (ip_address host_b) as IB by (split; [reflexivity|apply bytes_ok_spec; vm_compute; reflexivity]).
  apply (accepts_exact ex_conf ex_chain _ _ ex_history3 ex_monotone eq_refl (Packet host_b Udp 53) IB).
  split; [exact Logic.I|]. right. exists host_b, PtTcpUdp, 53.
  split; [|split; [right; split; [reflexivity|]|split; [reflexivity|exact Logic.I]]].
  - exists [nth 0 (ex_hist 3) (FwShutdown true, None)], (nth 1 (ex_hist 3) (FwShutdown true, None)),
           [nth 2 (ex_hist 3) (FwShutdown true, None)], 1500.
    split; [vm_compute; reflexivity|]. split.
    + exists open_b53, true, true. split; [vm_compute; reflexivity|].
      exists (FwMsg FwOpen PtTcpUdp 53 AtIpv6 [32; 1; 13; 184; 0; 0; 0; 0; 0; 0; 0; 0; 0; 0; 0; 1]).
      repeat split; try reflexivity. apply bytes_ok_spec. reflexivity.
    + intros now o1 o2 b1 b2 b3 reply [E|[]]. vm_compute in E. injection E as <- _ _ _ _ _ _. vm_compute. reflexivity.
  - intros o L E. unfold host_b, mapped_prefix in E. discriminate.
Qed.
