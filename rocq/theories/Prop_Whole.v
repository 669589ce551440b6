(** Properties of the whole system: C47, C51. *)

From Coq Require Import String NArith List Lia.
From Verif Require Import M_Base M_Proto M_IpAddr M_FwProto M_ConfTypes M_Server M_Client M_Firewall
  M_IpParse M_Sha3 S_Wire S_Ip S_Session S_Client S_System S_Firewall S_Whole
  P_Base P_Sha3 P_IpParse P_Exec P_CExec P_Relay P_Whole Prop_System Prop_Firewall.
Import ListNotations.
Local Open Scope N_scope.

(** *** C47 *)

(** Whenever the chain accepts a packet that does not go to the control port,
    then a session with the packet's source as peer completed the
    challenge-response authentication of a user for a resource that the
    configuration grants to this user and that has the packet's port and
    transport; the session's request was acknowledged at a time [t], and no
    maintenance run since then was at or after [t] plus the lease time. *)
Theorem C47_accepted_packet_has_authenticated_session :
  forall mac parse_ip conf_s conf_f T w c,
  keys_sized conf_s -> (forall sid, ip_address (w_peer w sid)) ->
  forall tr d, whole mac parse_ip conf_s conf_f T w c tr d ->
  clock_monotone (fw_events tr) -> d_phase d = PhRun ->
  forall pk, ip_address (pk_src pk) -> chain_accepts (d_kernel d) c pk ->
  ~ to_control_port conf_f pk ->
  exists sid user res_id r pre0 pre fm sent_ok mid ev after t pt,
    tr = pre ++ WNet (GServer sid (EvFwSend fm sent_ok)) :: mid
         ++ WFw (Some sid) ev (Some fw_new_ack) :: after
    /\ same_host (w_peer w sid) (pk_src pk)
    /\ server_events sid (net_events pre) = pre0 ++ [EvFwConnect true]
    /\ authenticated mac conf_s user res_id pre0
    /\ grants conf_s user res_id r /\ resource_covers r pk
    /\ acked (ev, Some fw_new_ack) t (w_peer w sid) pt (rs_port r)
    /\ not_expired conf_f t (fw_events after).
Proof. exact accepted_session. Qed.
Print Assumptions C47_accepted_packet_has_authenticated_session.

(** In every phase of the daemon, also after failures: the packet's source has
    authenticated itself at some time. *)
Theorem C47_accepted_packet_was_authenticated :
  forall mac parse_ip conf_s conf_f T w c,
  keys_sized conf_s -> (forall sid, ip_address (w_peer w sid)) ->
  forall tr d, whole mac parse_ip conf_s conf_f T w c tr d ->
  forall pk, ip_address (pk_src pk) -> chain_accepts (d_kernel d) c pk ->
  ~ to_control_port conf_f pk ->
  exists sid user res_id r pre0 pre fm sent_ok post,
    tr = pre ++ WNet (GServer sid (EvFwSend fm sent_ok)) :: post
    /\ same_host (w_peer w sid) (pk_src pk)
    /\ server_events sid (net_events pre) = pre0 ++ [EvFwConnect true]
    /\ authenticated mac conf_s user res_id pre0
    /\ grants conf_s user res_id r /\ resource_covers r pk.
Proof. exact accepted_ever. Qed.
Print Assumptions C47_accepted_packet_was_authenticated.

(** With unforgeable messages and no relaying, only packets from hosts of key
    holders are accepted. *)
Theorem C47_accepted_packet_comes_from_key_holder :
  forall mac parse_ip conf_s conf_f T w c,
  (forall x y, length (mac x y) = 32%nat /\ all_bytes (mac x y)) ->
  keys_sized conf_s -> (forall cid, sane_identity (w_client w cid)) ->
  (forall sid, ip_address (w_peer w sid)) ->
  forall tr d, whole mac parse_ip conf_s conf_f T w c tr d ->
  unforgeable mac conf_s w (net_events tr) -> unrelayed w (net_events tr) ->
  forall pk, ip_address (pk_src pk) -> chain_accepts (d_kernel d) c pk ->
  ~ to_control_port conf_f pk ->
  exists cid user, In (user, kq_key (w_client w cid)) (c_keys conf_s)
    /\ kq_user (w_client w cid) = user /\ same_host (w_home w cid) (pk_src pk).
Proof. exact accepted_holder. Qed.
Print Assumptions C47_accepted_packet_comes_from_key_holder.

(** *** C51 *)

(** When a session sends a ComeIn, the port of the resource named in it has been
    opened for the session's peer, and stays open until the lease expires. *)
Theorem C51_come_in_means_open :
  forall mac parse_ip conf_s conf_f T w c,
  keys_sized conf_s -> (forall sid, ip_address (w_peer w sid)) ->
  forall tr d, whole mac parse_ip conf_s conf_f T w c tr d ->
  clock_monotone (fw_events tr) -> serving d ->
  forall pre sid dd m r post, tr = pre ++ WNet (GServer sid (EvSend dd m r)) :: post ->
  m_op m = ComeIn ->
  exists rs before ev after t pt,
    pre = before ++ WFw (Some sid) ev (Some fw_new_ack) :: after
    /\ acked (ev, Some fw_new_ack) t (w_peer w sid) pt (rs_port rs)
    /\ grants conf_s (m_user m) (m_resource m) rs
    /\ (not_expired conf_f t (fw_events (after ++ post)) ->
        forall pk, same_host (w_peer w sid) (pk_src pk) -> ip_address (pk_src pk) ->
        resource_covers rs pk -> chain_accepts (d_kernel d) c pk).
Proof. exact come_in_open. Qed.
Print Assumptions C51_come_in_means_open.

(** *** A concrete execution: the session of P_Relay.v, with the firewall daemon
    handling its request between its sending and the reply, and a maintenance
    run at the end. *)
Definition ex_world : world :=
  World (fun _ => relay_addr) (fun _ => relay_client) (fun _ => RmIpv4) (fun _ => relay_addr).
Definition ex_request : list N := Eval vm_compute in
  get [] (fw_serialize (fw_new_open relay_addr PtTcp 22)).
Definition ex_fw1 : fw_event := FwMessage (FwRxBuf ex_request) 1000 true true.
Definition ex_fw2 : fw_event := FwMaintain 1500 same same true true true.
Definition whole_tr : list wevent := Eval vm_compute in
  (map WNet (firstn 13 relay_tr) ++ [WFw (Some 0%nat) ex_fw1 (Some fw_new_ack)]
   ++ map WNet (skipn 13 relay_tr) ++ [WFw None ex_fw2 None])%list.
Definition whole_end : daemon :=
  match fw_run Prop_Firewall.ex_conf ex_start [ex_fw1; ex_fw2] with
  | Some (d, _) => d
  | None => ex_start
  end.

Lemma split_nth : forall (A : Type) (l a : list A) x b, l = a ++ x :: b ->
  exists n, nth_error l n = Some x /\ a = firstn n l.
Proof.
  intros A l a x b ->. exists (length a). split.
  - rewrite nth_error_app2, PeanoNat.Nat.sub_diag by lia. reflexivity.
  - rewrite firstn_app, PeanoNat.Nat.sub_diag. simpl. rewrite firstn_all, app_nil_r. reflexivity.
Qed.

Lemma whole_socket : socket_faithful whole_tr.
Proof.
  split.
  - intros pre conn b t ok sok reply post E. apply split_nth in E. destruct E as (n & N & ->).
    do 13 (destruct n as [|n]; [discriminate N|]).
    destruct n as [|n]; [|do 9 (destruct n as [|n]; [discriminate N|]); destruct n; discriminate N].
    cbn in N. injection N as <- <- <- <- <- <-.
    exists 0%nat, (fw_new_open relay_addr PtTcp 22), true. split; [reflexivity|].
    split; [cbn; auto 20|]. constructor; try (vm_compute; reflexivity).
    apply bytes_ok_spec. reflexivity.
  - intros pre sid b post E. apply split_nth in E. destruct E as (n & N & ->).
    do 14 (destruct n as [|n]; [discriminate N|]).
    destruct n as [|n]; [|do 8 (destruct n as [|n]; [discriminate N|]); destruct n; discriminate N].
    cbn in N. injection N as <- <-.
    exists (FwRxBuf ex_request), 1000, true, true, fw_new_ack. split; [cbn; auto 20|].
    constructor; try (vm_compute; reflexivity). apply bytes_ok_spec. reflexivity.
Qed.

Lemma whole_history : history Prop_Firewall.ex_conf ex_chain whole_end (fw_events whole_tr).
Proof.
  change (fw_events whole_tr)
    with (([] ++ [(ex_fw1, Some fw_new_ack)]) ++ [(ex_fw2, @None fw_message)])%list.
  eapply hist_step; [eapply hist_step; [exact ex_history0| |vm_compute; reflexivity]|
                    |vm_compute; reflexivity].
  - apply bytes_ok_spec. vm_compute. reflexivity.
  - split; exact same_perm.
Qed.

Example whole_execution : whole hmac_sha3_256 ex_parse_ip (P_Exec.ex_conf PolAlways)
  Prop_Firewall.ex_conf 10 ex_world ex_chain whole_tr whole_end.
Proof.
  constructor.
  - exact relay_execution.
  - exact whole_history.
  - exact whole_socket.
Qed.

Example whole_monotone : clock_monotone (fw_events whole_tr).
Proof.
  intros p x q y r t u E T U. change (fw_events whole_tr)
    with [(ex_fw1, Some fw_new_ack); (ex_fw2, @None fw_message)] in E.
  destruct p as [|p0 [|p1 p]]; simpl in E; injection E; intros.
  - destruct q as [|q0 q]; simpl in *.
    + injection H as <- H. subst. simpl in *. injection T as <-. injection U as <-. lia.
    + exfalso. injection H as _ H. destruct q; discriminate.
  - exfalso. destruct q; discriminate.
  - exfalso. destruct p; discriminate.
Qed.

(** The peer may use port 22 at the end, and this packet meets all hypotheses. *)
Example C47_witness : let pk := Packet relay_addr Tcp 22 in
  d_phase whole_end = PhRun /\ ip_address (pk_src pk)
  /\ chain_accepts (d_kernel whole_end) ex_chain pk /\ ~ to_control_port Prop_Firewall.ex_conf pk
  /\ keys_sized (P_Exec.ex_conf PolAlways)
  /\ unforgeable hmac_sha3_256 (P_Exec.ex_conf PolAlways) ex_world (net_events whole_tr)
  /\ unrelayed ex_world (net_events whole_tr)
  /\ (forall sid, ip_address (w_peer ex_world sid))
  /\ exists pre dd m r post, whole_tr = pre ++ WNet (GServer 0 (EvSend dd m r)) :: post
     /\ m_op m = ComeIn.
Proof.
  cbv zeta. split; [vm_compute; reflexivity|].
  assert (ip_address relay_addr) as IA by (split; [reflexivity|apply bytes_ok_spec; reflexivity]).
  split; [exact IA|]. split; [|split; [|split; [|split; [|split; [|split]]]]].
  - split; [exact I|].
    exists (nth 3 (k_rules (d_kernel whole_end)) (Rule ex_chain 0 None [])).
    split; [vm_compute; tauto|]. split; [reflexivity|]. cbv -[ipv4_text ipv6_text].
    split; [|tauto]. eexists; split; [reflexivity|].
    match goal with |- ipv4_text ?t ?o => apply (proj1 (parse_ip_addr_spec t (V4 o))) end. vm_compute. reflexivity.
  - intros [X _]. discriminate X.
  - apply C14_nonvacuous.
  - exact relay_unforgeable.
  - red. intros. reflexivity.
  - intro. exact IA.
  - exists (firstn 16 whole_tr). eexists _, _, _, (skipn 17 whole_tr).
    split; [vm_compute; reflexivity|reflexivity].
Qed.
