(** C84, C85: the firewall daemon while other programs rewrite its chain. *)

From Coq Require Import String NArith List Bool Lia Permutation.
From Verif Require Import M_Base M_IpAddr M_FwProto M_ConfTypes M_Server M_Text M_Firewall M_IpParse
  S_Wire S_Ip S_Firewall S_Loss P_Base P_FwProto P_Text P_IpParse P_Firewall P_Fwd P_FwdProps P_Loss
  Prop_Firewall.
Import ListNotations.
Local Open Scope N_scope.

(** *** C84: whatever others take out of the chain, nothing is open that was not granted *)

(** While the daemon runs normally, the chain accepts a packet only if it goes to the
    control port or if a request for its source, port and transport was acknowledged
    whose lease time was not over at any maintenance run since. *)
Theorem C84_only_live_grants_are_open :
  forall conf c d h, lossy_history conf c d h -> d_phase d = PhRun ->
  forall pk, ip_address (pk_src pk) -> chain_accepts (d_kernel d) c pk ->
  to_control_port conf pk
  \/ exists a pt port, live_grant conf h a pt port /\ permitted_port conf port
     /\ same_host a (pk_src pk) /\ port_covers pt port pk.
Proof.
  intros conf c d h H. exact (lossy_accepts conf c d h (lossy_inv conf c (lossy_configured conf c d h H) d h H)).
Qed.
Print Assumptions C84_only_live_grants_are_open.

(** In every phase, also after a failed maintenance and after the shutdown, only
    what was granted at some time is open. *)
Theorem C84_only_granted_is_open :
  forall conf c d h, lossy_history conf c d h ->
  forall pk, ip_address (pk_src pk) -> chain_accepts (d_kernel d) c pk ->
  to_control_port conf pk
  \/ exists a pt port, granted h a pt port /\ permitted_port conf port
     /\ same_host a (pk_src pk) /\ port_covers pt port pk.
Proof.
  intros conf c d h H. exact (lossy_accepts_granted conf c d h (lossy_inv conf c (lossy_configured conf c d h H) d h H)).
Qed.
Print Assumptions C84_only_granted_is_open.

(** If a maintenance run finds that a rule of an expired lease is gone and the run
    succeeds, then the chain accepts exactly the right packets again: what others
    took away is restored. *)
Theorem C84_maintenance_repairs :
  forall conf c d h, lossy_history conf c d h ->
  forall now o1 o2 lok dok rok d' reply,
  lossy_event c d (FwMaintain now o1 o2 lok dok rok) ->
  fw_step conf d (FwMaintain now o1 o2 lok dok rok) = Some (d', reply) -> d_phase d' = PhRun ->
  clock_monotone (h ++ [(FwMaintain now o1 o2 lok dok rok, reply)]) ->
  (exists l w, In l (leases d) /\ l_timeout l <= now /\ In w (lease_contents l)
     /\ ~ in_chain c (d_kernel d) w) ->
  forall pk, ip_address (pk_src pk) ->
  (chain_accepts (d_kernel d') c pk <->
   traverses c pk
   /\ (to_control_port conf pk
       \/ exists a pt port, live_grant conf (h ++ [(FwMaintain now o1 o2 lok dok rok, reply)]) a pt port
          /\ same_host a (pk_src pk) /\ port_covers pt port pk)).
Proof.
  intros conf c d h H now o1 o2 lok dok rok d' reply EV ST PH MONO (l & w & J & TO & K & NI).
  pose proof (lossy_configured conf c d h H) as CC.
  apply (lossy_mirrors_accepts conf c CC d'); auto.
  - econstructor; eassumption.
  - eapply (lossy_repair conf c CC d h); eauto. apply lossy_inv; auto.
Qed.
Print Assumptions C84_maintenance_repairs.

(** A run after which nothing is missing is followed by the same: maintenance does
    not lose rules itself. *)
Theorem C84_maintenance_loses_nothing :
  forall conf c d h, lossy_history conf c d h ->
  forall now o1 o2 lok dok rok d' reply,
  lossy_event c d (FwMaintain now o1 o2 lok dok rok) ->
  fw_step conf d (FwMaintain now o1 o2 lok dok rok) = Some (d', reply) -> d_phase d' = PhRun ->
  mirrors conf c d -> mirrors conf c d'.
Proof.
  intros conf c d h H. pose proof (lossy_configured conf c d h H) as CC.
  exact (lossy_maintain_keeps conf c CC d h (lossy_inv conf c CC d h H)).
Qed.
Print Assumptions C84_maintenance_loses_nothing.

(** The daemon never panics. *)
Theorem C84_no_panic :
  forall conf c d h, lossy_history conf c d h -> d_phase d <> PhDead.
Proof.
  intros conf c d h H. pose proof (lossy_configured conf c d h H) as CC.
  exact (lossy_never_dead conf c d h (lossy_inv conf c CC d h H)).
Qed.
Print Assumptions C84_no_panic.

(** Histories without loss are a special case. *)
Theorem C84_covers_undisturbed_histories :
  forall conf c d h, history conf c d h -> lossy_history conf c d h.
Proof. exact history_lossy. Qed.
Print Assumptions C84_covers_undisturbed_histories.

(** Example: two leases, then the chain is flushed by somebody else, then
    maintenance at 1700 finds that the rule of a's lease, which is over, is gone. *)
Definition flushed (k : kernel) : kernel := Kernel (k_chains k) (rules_elsewhere ex_chain k) 1.
Definition loss_events : list fw_event :=
  [FwExternal (flushed (d_kernel (fst (ex_run 2)))); FwMaintain 1700 same same true true true].
Definition loss_run (n : nat) : daemon :=
  match fw_run ex_conf (fst (ex_run 2)) (firstn n loss_events) with Some (d, _) => d | None => ex_start end.
Definition loss_hist (n : nat) : hist := ex_hist 2 ++ map (fun e => (e, None)) (firstn n loss_events).

Lemma loss_history1 : lossy_history ex_conf ex_chain (loss_run 1) (loss_hist 1).
Proof.
  eapply (lossy_step _ _ (fst (ex_run 2)) (ex_hist 2)).
  - apply history_lossy. apply ex_history2.
  - assert (rules_of ex_chain (flushed (d_kernel (fst (ex_run 2)))) = []) as E by (vm_compute; reflexivity).
    split; [|right; exact E]. exists (rules_of ex_chain (d_kernel (fst (ex_run 2)))). rewrite E. reflexivity.
  - vm_compute. reflexivity.
Qed.

Example C84_witness :
  lossy_history ex_conf ex_chain (loss_run 1) (loss_hist 1)
  /\ rules_of ex_chain (d_kernel (loss_run 1)) = []
  /\ lossy_event ex_chain (loss_run 1) (FwMaintain 1700 same same true true true)
  /\ fw_step ex_conf (loss_run 1) (FwMaintain 1700 same same true true true) = Some (loss_run 2, None)
  /\ d_phase (loss_run 2) = PhRun
  /\ (exists l w, In l (leases (loss_run 1)) /\ l_timeout l <= 1700 /\ In w (lease_contents l)
       /\ ~ in_chain ex_chain (d_kernel (loss_run 1)) w)
  /\ clock_monotone (loss_hist 1 ++ [(FwMaintain 1700 same same true true true, None)])
  /\ length (rules_of ex_chain (d_kernel (loss_run 2))) = 4%nat.
Proof.
  split; [exact loss_history1|]. split; [vm_compute; reflexivity|]. split; [split; exact same_perm|].
  split; [vm_compute; reflexivity|]. split; [vm_compute; reflexivity|]. split; [|split].
  - exists (nth 1 (leases (loss_run 1)) (Lease host_a (LpTcp 0) 0)).
    exists (nth 0 (lease_contents (nth 1 (leases (loss_run 1)) (Lease host_a (LpTcp 0) 0))) (None, [])).
    split; [vm_compute; auto|]. split; [vm_compute; discriminate|]. split; [vm_compute; auto|].
    intros J. vm_compute in J. exact J.
  - intros p x q y r t u E T U.
    change (loss_hist 1 ++ [(FwMaintain 1700 same same true true true, None)]) with
      [(FwMessage (FwRxBuf open_a22) 1000 true true, Some fw_new_ack);
       (FwMessage (FwRxBuf open_b53) 1500 true true, Some fw_new_ack);
       (FwExternal (flushed (d_kernel (fst (ex_run 2)))), None);
       (FwMaintain 1700 same same true true true, None)] in E.
    assert (forall z v, In z (p ++ x :: q ++ y :: r) -> event_time (fst z) = Some v ->
            v = 1000 \/ v = 1500 \/ v = 1700) as B.
    { rewrite <- E. intros z v [<-|[<-|[<-|[<-|[]]]]] Z; simpl in Z; try discriminate Z; injection Z as <-; auto. }
    destruct p as [|p0 [|p1 [|p2 [|p3 p]]]]; simpl in E; injection E; intros; subst; simpl in *;
      try discriminate T.
    + injection T as <-. destruct (B y u) as [->|[->| ->]]; auto; try lia.
      right. apply in_or_app. right. left. reflexivity.
    + injection T as <-. destruct q as [|q0 q]; simpl in *; injection H; intros; subst; simpl in *; try discriminate U.
      destruct q as [|q1 q]; simpl in *; injection H0; intros; subst; simpl in *.
      * injection U as <-. lia.
      * destruct q; discriminate.
    + destruct q; discriminate.
    + destruct p; discriminate.
  - vm_compute. reflexivity.
Qed.

(** *** C85: does the daemon notice that others rewrote its chain? *)

(** No: an acknowledged request need not be open.  a's port was opened, somebody
    else flushed the chain (a reload of the ruleset), and a knocks again: the request
    is acknowledged because the lease is only refreshed, but a is not let in. *)
Theorem C85_acknowledged_is_open_refuted :
  exists conf c d h ev d' reply t a pt port pk,
    lossy_history conf c d h /\ d_phase d = PhRun /\ lossy_event c d ev
    /\ fw_step conf d ev = Some (d', reply) /\ acked (ev, reply) t a pt port
    /\ ip_address (pk_src pk) /\ same_host a (pk_src pk) /\ port_covers pt port pk /\ traverses c pk
    /\ d_phase d' = PhRun /\ ~ chain_accepts (d_kernel d') c pk.
Proof.
  pose (ev := FwMessage (FwRxBuf open_a22) 1550 true true).
  exists ex_conf, ex_chain, (loss_run 1), (loss_hist 1), ev.
  destruct (fw_step ex_conf (loss_run 1) ev) as [[d' reply]|] eqn:ST; [|vm_compute in ST; discriminate].
  exists d', reply, 1550, host_a, PtTcp, 22, (Packet host_a Tcp 22).
  assert (d_kernel d' = d_kernel (loss_run 1) /\ reply = Some fw_new_ack /\ d_phase d' = PhRun) as (EK & ER & EP).
  { vm_compute in ST. injection ST as <- <-. vm_compute. auto. }
  split; [exact loss_history1|]. split; [vm_compute; reflexivity|].
  split; [apply bytes_ok_spec; vm_compute; reflexivity|]. split; [reflexivity|].
  split; [exists open_a22, true, true; rewrite ER; split; [reflexivity|exact ex_asks]|].
  split; [split; [reflexivity|apply bytes_ok_spec; vm_compute; reflexivity]|].
  split; [right; split; [reflexivity|discriminate]|]. split; [split; [reflexivity|exact Logic.I]|].
  split; [exact Logic.I|]. split; [exact EP|]. rewrite EK.
  intros [_ (r & R & C & _)]. vm_compute in R. destruct R as [<-|[]]. discriminate C.
Qed.
Print Assumptions C85_acknowledged_is_open_refuted.

(** No: without an expired lease, maintenance changes nothing, whatever was taken
    away.  The control port stays closed, too. *)
Theorem C85_nothing_is_repaired_without_an_expired_lease :
  forall conf c d h, lossy_history conf c d h ->
  forall now o1 o2 lok dok rok d' reply,
  lossy_event c d (FwMaintain now o1 o2 lok dok rok) ->
  fw_step conf d (FwMaintain now o1 o2 lok dok rok) = Some (d', reply) ->
  (forall l, In l (leases d) -> now < l_timeout l) -> d' = d.
Proof.
  intros conf c d h H. pose proof (lossy_configured conf c d h H) as CC.
  exact (idle_maintenance conf c d h (lossy_inv conf c CC d h H)).
Qed.
Print Assumptions C85_nothing_is_repaired_without_an_expired_lease.

(** No: a rule that somebody else brings back (a ruleset that was saved while the
    lease was alive and is restored later) stays.  The state before is that of an
    undisturbed history without any lease, the restored rules are those which the
    chain had earlier in this history, and any number of maintenance runs at any
    times leave the port open. *)
Theorem C85_restored_rule_is_removed_refuted :
  exists conf c d0 h0 d h k pk,
    history conf c d0 h0 /\ history conf c d h /\ (exists r, h = h0 ++ r) /\ d_phase d = PhRun
    /\ k = d_kernel d0
    /\ (forall a pt port, ~ live_grant conf h a pt port)
    /\ ip_address (pk_src pk) /\ ~ to_control_port conf pk
    /\ ~ chain_accepts (d_kernel d) c pk
    /\ forall times d' replies,
       fw_run conf d (FwExternal k :: map (fun t => FwMaintain t (fun l => l) (fun l => l) true true true) times)
         = Some (d', replies) ->
       d_phase d' = PhRun /\ chain_accepts (d_kernel d') c pk.
Proof.
  pose (m := FwMaintain 1700 same same true true true).
  assert (exists d, fw_step ex_conf (fst (ex_run 1)) m = Some (d, None) /\ d_phase d = PhRun
          /\ d_fw d = Firewall [] false
          /\ k_rules (d_kernel d) = firstn 3 (k_rules (d_kernel (fst (ex_run 1))))) as (d & ST & PH & FW & RU).
  { eexists. split; [vm_compute; reflexivity|]. vm_compute. auto. }
  assert (history ex_conf ex_chain d (ex_hist 1 ++ [(m, None)])) as HD.
  { eapply hist_step; [exact ex_history1|split; exact same_perm|exact ST]. }
  exists ex_conf, ex_chain, (fst (ex_run 1)), (ex_hist 1), d, (ex_hist 1 ++ [(m, None)]),
    (d_kernel (fst (ex_run 1))), (Packet host_a Tcp 22).
  split; [exact ex_history1|]. split; [exact HD|]. split; [eauto|]. split; [exact PH|]. split; [reflexivity|].
  split; [|split; [|split; [|split]]].
  - intros a pt port (pre & x & post & t & E & AK & F).
    change (ex_hist 1 ++ [(m, None)]) with
      [(FwMessage (FwRxBuf open_a22) 1000 true true, Some fw_new_ack); (m, None)] in E.
    destruct pre as [|y [|z pre]]; simpl in E; injection E; intros; subst.
    + destruct AK as (b & ok & sok & [= <- <- <- <-] & _).
      assert (1700 < 1000 + c_nft_timeout ex_conf) as L by (eapply F; left; reflexivity).
      vm_compute in L. discriminate L.
    + destruct AK as (b & ok & sok & [=] & _).
    + destruct pre; discriminate.
  - split; [reflexivity|apply bytes_ok_spec; vm_compute; reflexivity].
  - intros [E _]. discriminate E.
  - intros [_ (r & R & C & A)]. rewrite RU in R. vm_compute in R.
    repeat destruct R as [<-|R]; try contradiction; try discriminate C; cbv -[ipv4_text ipv6_text] in A;
      repeat match goal with X : _ /\ _ |- _ => destruct X end; discriminate.
  - assert (chain_accepts (d_kernel (fst (ex_run 1))) ex_chain (Packet host_a Tcp 22)) as ACC.
    { eapply (ack_effective ex_conf ex_chain (fst (ex_run 0)) (ex_hist 0) ex_history0
               (FwMessage (FwRxBuf open_a22) 1000 true true) _ (Some fw_new_ack) 1000 host_a PtTcp 22).
      - apply bytes_ok_spec. vm_compute. reflexivity.
      - vm_compute. reflexivity.
      - exists open_a22, true, true. split; [reflexivity|exact ex_asks].
      - right. split; [reflexivity|discriminate].
      - split; [reflexivity|apply bytes_ok_spec; vm_compute; reflexivity].
      - split; [reflexivity|exact Logic.I]. }
    assert (forall times d1 d2 replies, d_phase d1 = PhRun -> d_fw d1 = Firewall [] false ->
      fw_run ex_conf d1 (map (fun t => FwMaintain t (fun l => l) (fun l => l) true true true) times)
        = Some (d2, replies) -> d2 = d1) as IDLE.
    { induction times as [|t times IH]; intros d1 d2 replies P1 F1 R; [simpl in R; congruence|].
      cbn [map fw_run] in R. unfold fw_step in R. rewrite P1, F1 in R.
      unfold maintain in R. cbn [fw_shutdown fw_leases prune filter map next_phase] in R.
      set (d3 := Daemon (d_kernel d1) (Firewall [] false) PhRun) in *.
      assert (d3 = d1) as E3 by (destruct d1 as [k1 f1 p1]; unfold d3; simpl in *; congruence).
      rewrite E3 in R.
      destruct (fw_run ex_conf d1 _) as [[d4 rs]|] eqn:R2; [|discriminate].
      injection R as <- <-. eapply IH; eassumption. }
    intros times d' replies R. cbn [fw_run fw_step] in R.
    destruct (fw_run ex_conf _ (map _ times)) as [[d4 rs]|] eqn:R2; [|discriminate].
    injection R as <- <-. apply IDLE in R2; [|exact PH|exact FW]. rewrite R2. split; [exact PH|]. exact ACC.
Qed.
Print Assumptions C85_restored_rule_is_removed_refuted.

(** What remains: an acknowledged request is open if no earlier request for the same
    address, transports and port was still alive. *)
Theorem C85_first_request_opens_partial :
  forall conf c d h, lossy_history conf c d h -> forall ev d' reply t a pt port,
  lossy_event c d ev -> fw_step conf d ev = Some (d', reply) -> acked (ev, reply) t a pt port ->
  ~ live_grant conf h a pt port ->
  forall pk, same_host a (pk_src pk) -> ip_address (pk_src pk) -> port_covers pt port pk ->
  chain_accepts (d_kernel d') c pk.
Proof.
  intros conf c d h H ev d' reply t a pt port EV ST AK NL pk SH HS PC.
  pose proof (lossy_configured conf c d h H) as CC.
  destruct (lossy_ack conf c CC d h (lossy_inv conf c CC d h H) ev d' reply t a pt port EV ST AK)
    as [(LG & _)|(SU & IA & CO)]; [contradiction|].
  apply accepts_contents. split; [eapply supported_traverses; eassumption|]. rewrite CO.
  destruct (proj2 (lease_accepts pk (Lease a (lease_port_of pt port) (t + c_nft_timeout conf)) IA HS)) as (w & J & A).
  { split; [exact SH|]. apply single_ports_cover. exact PC. }
  exists w. split; [apply in_or_app; right; exact J|exact A].
Qed.
Print Assumptions C85_first_request_opens_partial.

(** And an acknowledgement never closes anything. *)
Theorem C85_acknowledged_keeps_open_partial :
  forall conf c d h, lossy_history conf c d h -> forall ev d' reply t a pt port,
  lossy_event c d ev -> fw_step conf d ev = Some (d', reply) -> acked (ev, reply) t a pt port ->
  forall pk, chain_accepts (d_kernel d) c pk -> chain_accepts (d_kernel d') c pk.
Proof.
  intros conf c d h H ev d' reply t a pt port EV ST AK pk A.
  pose proof (lossy_configured conf c d h H) as CC.
  destruct (lossy_ack conf c CC d h (lossy_inv conf c CC d h H) ev d' reply t a pt port EV ST AK)
    as [(_ & ->)|(SU & IA & CO)]; [exact A|].
  apply accepts_contents in A. destruct A as (TR & w & J & A). apply accepts_contents. split; [exact TR|].
  rewrite CO. exists w. split; [apply in_or_app; left; exact J|exact A].
Qed.
Print Assumptions C85_acknowledged_keeps_open_partial.

(** Example: after the flush a different host c asks for the first time. *)
Definition open_c22 : list N := [0;2; 0;0; 0;22; 0;1; 0;0;0;0;0;0;0;0;0;0;0;0; 192;168;0;9].
Example C85_witness :
  lossy_history ex_conf ex_chain (loss_run 1) (loss_hist 1)
  /\ (exists d', fw_step ex_conf (loss_run 1) (FwMessage (FwRxBuf open_c22) 1550 true true)
                 = Some (d', Some fw_new_ack) /\ length (rules_of ex_chain (d_kernel d')) = 1%nat)
  /\ ~ live_grant ex_conf (loss_hist 1) (V4 [192; 168; 0; 9]) PtTcp 22.
Proof.
  split; [exact loss_history1|]. split; [eexists; split; [vm_compute; reflexivity|vm_compute; reflexivity]|].
  intros (pre & x & post & t & E & (b & ok & sok & EX & AK) & _).
  assert (In x (loss_hist 1)) as J by (rewrite E; apply in_or_app; right; left; reflexivity).
  assert (b = open_a22 \/ b = open_b53) as B.
  { rewrite EX in J. vm_compute in J. destruct J as [J|[J|[J|[]]]]; try discriminate J.
    - left. injection J as <- _ _ _. reflexivity.
    - right. injection J as <- _ _ _. reflexivity. }
  assert (all_bytes b) as AB by (destruct B as [-> | ->]; apply bytes_ok_spec; vm_compute; reflexivity).
  destruct (asks_decode b _ _ _ AB AK) as (m & D & _ & A & _).
  destruct B as [-> | ->]; vm_compute in D; injection D as <-; vm_compute in A; discriminate A.
Qed.
