(** C91: behind every open port is an authenticated knock, also on a host whose daemons
    are killed and restarted. *)

From Coq Require Import String NArith List Lia.
From Verif Require Import M_Base M_Proto M_IpAddr M_FwProto M_ConfTypes M_Server M_Client M_Firewall
  M_IpParse M_Sha3 S_Wire S_Ip S_Session S_Client S_System S_Firewall S_Loss S_Crash S_Whole S_Host
  P_Base P_Sha3 P_IpParse P_Exec P_CExec P_Relay P_Whole P_Crash P_Host Prop_System Prop_Firewall Prop_Whole Prop_Crash.
Import ListNotations.
Local Open Scope N_scope.

(** While a firewall daemon serves, whatever happened before it was started and whatever
    others took out of the chain: behind a packet that is accepted and does not go to
    the control port is a session with the packet's source, which authenticated a user
    for a resource with the packet's port and transport; the session's letmeind grants
    it by its configuration, and this firewall daemon permits the port by its own,
    acknowledged the request itself, and has not yet had to expire it. *)
Theorem C91_behind_an_open_port_is_a_knock :
  forall mac parse_ip conf_of T w c,
  (forall sid, keys_sized (conf_of sid)) -> (forall sid, ip_address (w_peer w sid)) ->
  forall tr conf d h ps,
  whole_host mac parse_ip conf_of T w c tr (On conf d h) ps -> d_phase d = PhRun ->
  forall pk, ip_address (pk_src pk) -> chain_accepts (d_kernel d) c pk -> ~ to_control_port conf pk ->
  exists sid user res_id r pre0 pre fm sent_ok mid ev after t pt,
    tr = pre ++ HNet (GServer sid (EvFwSend fm sent_ok)) :: mid
         ++ HFw (Some sid) ev (Some fw_new_ack) :: after
    /\ same_host (w_peer w sid) (pk_src pk)
    /\ server_events sid (host_net pre) = pre0 ++ [EvFwConnect true]
    /\ authenticated mac (conf_of sid) user res_id pre0
    /\ grants (conf_of sid) user res_id r /\ resource_covers r pk
    /\ permitted_port conf (rs_port r)
    /\ acked (ev, Some fw_new_ack) t (w_peer w sid) pt (rs_port r)
    /\ (forall conf', ~ In (HStart conf') after) /\ not_expired conf t (host_fw after).
Proof. exact running_session. Qed.
Print Assumptions C91_behind_an_open_port_is_a_knock.

(** After the firewall daemon was killed: the same, but it may have been killed before
    it acknowledged the request. *)
Theorem C91_behind_a_port_left_open_is_a_knock :
  forall mac parse_ip conf_of T w c,
  (forall sid, keys_sized (conf_of sid)) -> (forall sid, ip_address (w_peer w sid)) ->
  forall tr k conf h ph ps,
  whole_host mac parse_ip conf_of T w c tr (Off k) (Past conf h ph :: ps) ->
  forall pk, ip_address (pk_src pk) -> chain_accepts k c pk -> ~ to_control_port conf pk ->
  exists sid user res_id r pre0 pre fm sent_ok mid b t ok sok reply after pt,
    tr = pre ++ HNet (GServer sid (EvFwSend fm sent_ok)) :: mid
         ++ HFw (Some sid) (FwMessage (FwRxBuf b) t ok sok) reply :: after
    /\ same_host (w_peer w sid) (pk_src pk)
    /\ server_events sid (host_net pre) = pre0 ++ [EvFwConnect true]
    /\ authenticated mac (conf_of sid) user res_id pre0
    /\ grants (conf_of sid) user res_id r /\ resource_covers r pk
    /\ permitted_port conf (rs_port r)
    /\ asks b (w_peer w sid) pt (rs_port r)
    /\ (forall conf', ~ In (HStart conf') after)
    /\ (ph = PhRun -> not_expired conf t (host_fw after)).
Proof. exact killed_session. Qed.
Print Assumptions C91_behind_a_port_left_open_is_a_knock.

(** With unforgeable messages and no relaying, in both cases the packet comes from the
    host of a holder of a configured key. *)
Theorem C91_open_ports_are_for_key_holders :
  forall mac parse_ip conf_of T w c,
  (forall sid, keys_sized (conf_of sid)) -> (forall sid, ip_address (w_peer w sid)) ->
  (forall x y, length (mac x y) = 32%nat /\ all_bytes (mac x y)) ->
  (forall cid, sane_identity (w_client w cid)) ->
  forall tr s ps, whole_host mac parse_ip conf_of T w c tr s ps ->
  unforgeable_keys mac conf_of w (host_net tr) -> unrelayed w (host_net tr) ->
  forall conf k,
  match s with
  | On conf' d _ => conf = conf' /\ k = d_kernel d /\ d_phase d = PhRun
  | Off k' => k = k' /\ exists p l, ps = p :: l /\ conf = ps_conf p
  end ->
  forall pk, ip_address (pk_src pk) -> chain_accepts k c pk -> ~ to_control_port conf pk ->
  exists sid cid user, In (user, kq_key (w_client w cid)) (c_keys (conf_of sid))
    /\ kq_user (w_client w cid) = user /\ same_host (w_home w cid) (pk_src pk).
Proof.
  intros mac parse_ip conf_of T w c KS PEERS MAC SANE tr s ps W UF UR conf k HK pk IPS ACC NC.
  assert (exists pre sid fm ok post, tr = pre ++ HNet (GServer sid (EvFwSend fm ok)) :: post
          /\ same_host (w_peer w sid) (pk_src pk)) as (pre & sid & fm & ok & post & ET & SH).
  { destruct s as [k'|conf' d h].
    - destruct HK as (-> & [cf h ph] & l & -> & ->). cbn [ps_conf] in NC.
      destruct (killed_session mac parse_ip conf_of T w c KS PEERS _ _ _ _ _ _ W pk IPS ACC NC)
        as (sid & ? & ? & ? & ? & pre & fm & ok & ? & ? & ? & ? & ? & ? & ? & ? & ET & SH & _).
      eauto 10.
    - destruct HK as (-> & -> & PH).
      destruct (running_session mac parse_ip conf_of T w c KS PEERS _ _ _ _ _ W PH pk IPS ACC NC)
        as (sid & ? & ? & ? & ? & pre & fm & ok & ? & ? & ? & ? & ? & ET & SH & _).
      eauto 10. }
  destruct (request_holder mac parse_ip conf_of T w c KS PEERS MAC SANE _ _ _ W UF UR _ _ _ _ _ ET)
    as (cid & user & K & U & A).
  exists sid, cid, user. split; [exact K|]. split; [exact U|]. rewrite A. exact SH.
Qed.
Print Assumptions C91_open_ports_are_for_key_holders.

(** Example: a first firewall daemon does a maintenance run and is killed; in the
    second the session of C47 runs; then this one is killed, too. *)
Definition host_first : daemon :=
  match fw_step Prop_Firewall.ex_conf ex_start ex_fw2 with Some (d, _) => d | None => ex_start end.
Definition host_second : daemon :=
  match fw_start Prop_Firewall.ex_conf (d_kernel host_first) true true with (_, Ok d) => d | _ => ex_start end.
Definition host_tr : list hevent :=
  HStart Prop_Firewall.ex_conf :: HFw None ex_fw2 None :: HStart Prop_Firewall.ex_conf
  :: map (fun x => match x with WNet g => HNet g | WFw conn ev reply => HFw conn ev reply end) whole_tr.
Definition host_end : daemon :=
  match fw_run Prop_Firewall.ex_conf host_second [ex_fw1; ex_fw2] with Some (d, _) => d | None => ex_start end.
Definition host_hist : hist := [(ex_fw1, Some fw_new_ack); (ex_fw2, None)].
Definition host_past : past := Past Prop_Firewall.ex_conf [(ex_fw2, None)] PhRun.
Definition host_conf (sid : nat) : config := P_Exec.ex_conf PolAlways.

Lemma host_history_second : host_history ex_chain (On Prop_Firewall.ex_conf host_second []) [host_past].
Proof.
  assert (exists reply, fw_step Prop_Firewall.ex_conf ex_start ex_fw2 = Some (host_first, reply) /\ reply = None
    /\ d_phase host_first = PhRun) as (reply & ST & -> & PH) by (eexists; vm_compute; auto).
  assert (exists k', fw_start Prop_Firewall.ex_conf (d_kernel host_first) true true = (k', Ok host_second))
    as (k' & ST2) by (eexists; vm_compute; reflexivity).
  eapply hh_start; [|exact ex_configured|exact ST2].
  unfold host_past. rewrite <- PH. apply (hh_kill ex_chain Prop_Firewall.ex_conf host_first [(ex_fw2, None)]).
  apply (hh_step ex_chain Prop_Firewall.ex_conf ex_start [] [] ex_fw2 host_first None); [|split; exact same_perm|exact ST].
  apply history_host. apply P_Loss.history_lossy. exact ex_history0.
Qed.

Lemma host_history_end : host_history ex_chain (On Prop_Firewall.ex_conf host_end host_hist) [host_past].
Proof.
  assert (exists d1, fw_step Prop_Firewall.ex_conf host_second ex_fw1 = Some (d1, Some fw_new_ack)
    /\ fw_step Prop_Firewall.ex_conf d1 ex_fw2 = Some (host_end, None)) as (d1 & S1 & S2)
    by (eexists; split; vm_compute; reflexivity).
  change host_hist with (([] ++ [(ex_fw1, Some fw_new_ack)]) ++ [(ex_fw2, @None fw_message)])%list.
  eapply hh_step; [|split; exact same_perm|exact S2].
  eapply hh_step; [exact host_history_second|apply bytes_ok_spec; vm_compute; reflexivity|exact S1].
Qed.

Lemma host_lives : lifetimes host_tr [(Prop_Firewall.ex_conf, host_hist); (Prop_Firewall.ex_conf, [(ex_fw2, None)])].
Proof.
  unfold host_tr.
  set (rest := map _ whole_tr).
  change (lifetimes ([HStart Prop_Firewall.ex_conf; HFw None ex_fw2 None] ++ HStart Prop_Firewall.ex_conf :: rest)
            [(Prop_Firewall.ex_conf, host_fw rest); (Prop_Firewall.ex_conf, host_fw [HFw None ex_fw2 None])]).
  apply lt_start.
  - change [HStart Prop_Firewall.ex_conf; HFw None ex_fw2 None]
      with ([] ++ HStart Prop_Firewall.ex_conf :: [HFw None ex_fw2 None])%list.
    apply lt_start.
    + apply lt_none; intros; intros [].
    + intros conf' [X|[]]. discriminate X.
  - intros conf' X. apply in_map_iff in X. destruct X as ([g|cn ev rp] & X & _); discriminate X.
Qed.

Lemma host_socket_holds : host_socket host_tr.
Proof.
  intros pre conn b t ok sok reply post E.
  unfold host_tr, ex_fw2 in E. remember (map _ whole_tr) as rest eqn:ER in E. destruct pre as [|e0 [|e1 [|e2 pre]]]; cbn [app] in E; try discriminate E.
  cbn [app] in E. injection E as <- <- <- E.
  assert (exists wpre wpost, whole_tr = wpre ++ WFw conn (FwMessage (FwRxBuf b) t ok sok) reply :: wpost
    /\ pre = map (fun x => match x with WNet g => HNet g | WFw conn ev reply => HFw conn ev reply end) wpre)
    as (wpre & wpost & EW & ->).
  { rewrite ER in E. clear - E. revert pre E. generalize whole_tr. intro l. induction l as [|x l IH]; intros pre E;
      [destruct pre; discriminate E|].
    destruct pre as [|p pre]; cbn [map app] in E.
    - destruct x as [g|cn ev rp]; [discriminate E|]. injection E as -> -> -> E. exists [], l. auto.
    - injection E as E1 E. destruct (IH _ E) as (wpre & wpost & -> & ->). exists (x :: wpre), wpost.
      split; [reflexivity|]. cbn [map]. rewrite E1. reflexivity. }
  destruct (proj1 whole_socket _ _ _ _ _ _ _ _ EW) as (sid & m & sent_ok & -> & IN & L).
  exists sid, m, sent_ok. split; [reflexivity|]. split; [|exact L].
  do 3 right. apply (in_map (fun x => match x with WNet g => HNet g | WFw conn ev reply => HFw conn ev reply end) _ _ IN).
Qed.

Lemma host_net_same : host_net host_tr = net_events whole_tr.
Proof. vm_compute. reflexivity. Qed.

Example C91_witness : let pk := Packet relay_addr Tcp 22 in
  whole_host hmac_sha3_256 ex_parse_ip host_conf 10 ex_world ex_chain host_tr
             (On Prop_Firewall.ex_conf host_end host_hist) [host_past]
  /\ whole_host hmac_sha3_256 ex_parse_ip host_conf 10 ex_world ex_chain host_tr
             (Off (d_kernel host_end)) [Past Prop_Firewall.ex_conf host_hist PhRun; host_past]
  /\ d_phase host_end = PhRun /\ ip_address (pk_src pk)
  /\ chain_accepts (d_kernel host_end) ex_chain pk /\ ~ to_control_port Prop_Firewall.ex_conf pk
  /\ (forall sid, keys_sized (host_conf sid)) /\ (forall sid, ip_address (w_peer ex_world sid))
  /\ unforgeable_keys hmac_sha3_256 host_conf ex_world (host_net host_tr)
  /\ unrelayed ex_world (host_net host_tr).
Proof.
  cbv zeta.
  assert (ip_address relay_addr) as IA by (split; [reflexivity|apply bytes_ok_spec; reflexivity]).
  assert (d_phase host_end = PhRun) as PH by (vm_compute; reflexivity).
  pose proof relay_execution as [ES EC].
  split; [|split].
  - constructor; [rewrite host_net_same; exact ES|rewrite host_net_same; exact EC|exact host_history_end
                 |exact host_lives|exact host_socket_holds].
  - constructor; [rewrite host_net_same; exact ES|rewrite host_net_same; exact EC|
                 |exact host_lives|exact host_socket_holds].
    rewrite <- PH. apply hh_kill. exact host_history_end.
  - split; [exact PH|]. split; [exact IA|]. split; [|split; [|split; [|split; [|split]]]].
    + split; [exact Logic.I|].
      exists (nth 3 (k_rules (d_kernel host_end)) (Rule ex_chain 0 None [])).
      split; [vm_compute; tauto|]. split; [reflexivity|]. cbv -[ipv4_text ipv6_text].
      split; [|tauto]. eexists; split; [reflexivity|].
      match goal with |- ipv4_text ?t ?o => apply (proj1 (parse_ip_addr_spec t (V4 o))) end. vm_compute. reflexivity.
    + intros [X _]. discriminate X.
    + intro. apply C14_nonvacuous.
    + intro. exact IA.
    + rewrite host_net_same. intros pre sid. exact (fun d => relay_unforgeable pre sid d).
    + red. intros. reflexivity.
Qed.
