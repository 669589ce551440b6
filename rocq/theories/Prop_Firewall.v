(** Properties of the firewall daemon: C21 - C27, C50. *)

From Coq Require Import String NArith List Bool Lia Permutation.
From Verif Require Import M_Base M_IpAddr M_FwProto M_ConfTypes M_Server M_Text M_Firewall
  M_IpParse S_Wire S_Ip S_Firewall P_Base P_FwProto P_Text P_IpParse P_Firewall P_Fwd P_FwdProps.
Import ListNotations.
Local Open Scope N_scope.

(** ** A concrete daemon for the examples *)

Definition ex_conf : config :=
  Config VarServer None false (ControlPort 5800 true true) 5 PolAlways ScOff
         [(0, repeat 7 32)] [(1, ResPort 22 true false []); (2, ResPort 53 true true [])] 0
         (lit "nft") (lit "inet") (lit "filter") (lit "LETMEIN-INPUT") 600.
Definition ex_chain : chain_name := ChainName INet (lit "filter") (lit "LETMEIN-INPUT").
Definition ex_other : chain_name := ChainName INet (lit "filter") (lit "INPUT").
(** Before the start: a leftover rule in letmein's chain and a foreign rule. *)
Definition ex_kernel : kernel :=
  Kernel [ex_other; ex_chain]
         [Rule ex_other 3 None [MatchDport (SpTcp 80); Accept];
          Rule ex_chain 4 (Some (lit "old")) [MatchDport (SpTcp 22); Accept]] 5.
Definition host_a : ip := V4 [192; 168; 0; 7].
Definition host_b : ip := V6 [32; 1; 13; 184; 0; 0; 0; 0; 0; 0; 0; 0; 0; 0; 0; 1].
Definition open_a22 : list N := [0;2; 0;0; 0;22; 0;1; 0;0;0;0;0;0;0;0;0;0;0;0; 192;168;0;7].
Definition open_b53 : list N := [0;2; 0;2; 0;53; 0;0; 32;1;13;184;0;0;0;0;0;0;0;0;0;0;0;1].
Definition same (l : list lease) : list lease := l.

(** Open 22 for a at 1000, open 53 for b at 1500, maintenance at 1600 (a's lease
    is over, b's is not) whose deletion fails, so that the chain is rebuilt. *)
Definition ex_events : list fw_event :=
  [FwMessage (FwRxBuf open_a22) 1000 true true;
   FwMessage (FwRxBuf open_b53) 1500 true true;
   FwMaintain 1600 same same true false true].
Definition ex_start : daemon :=
  match fw_start ex_conf ex_kernel true true with
  | (_, Ok d) => d
  | _ => Daemon ex_kernel (Firewall [] false) PhDead
  end.
Definition ex_run (n : nat) : daemon * list (option fw_message) :=
  match fw_run ex_conf ex_start (firstn n ex_events) with
  | Some x => x
  | None => (ex_start, [])
  end.
Definition ex_hist (n : nat) : hist := combine (firstn n ex_events) (snd (ex_run n)).

Example ex_configured : configured_chain ex_conf ex_chain.
Proof. repeat split; discriminate. Qed.

Lemma same_perm : forall l, Permutation (same l) l.
Proof. reflexivity. Qed.

Example ex_history0 : history ex_conf ex_chain (fst (ex_run 0)) (ex_hist 0).
Proof. eapply (hist_start _ _ ex_kernel true true); [apply ex_configured|vm_compute; reflexivity]. Qed.
Example ex_history1 : history ex_conf ex_chain (fst (ex_run 1)) (ex_hist 1).
Proof.
  eapply (hist_step _ _ _ (ex_hist 0)); [apply ex_history0| |vm_compute; reflexivity].
  apply bytes_ok_spec. vm_compute. reflexivity.
Qed.
Example ex_history2 : history ex_conf ex_chain (fst (ex_run 2)) (ex_hist 2).
Proof.
  eapply (hist_step _ _ _ (ex_hist 1)); [apply ex_history1| |vm_compute; reflexivity].
  apply bytes_ok_spec. vm_compute. reflexivity.
Qed.
Example ex_history3 : history ex_conf ex_chain (fst (ex_run 3)) (ex_hist 3).
Proof.
  eapply (hist_step _ _ _ (ex_hist 2)); [apply ex_history2| |vm_compute; reflexivity].
  split; exact same_perm.
Qed.

(** Two leases before, one after the maintenance; both requests acknowledged. *)
Example ex_outcome :
  map snd (ex_hist 3) = [Some fw_new_ack; Some fw_new_ack; None]
  /\ map l_addr (leases (fst (ex_run 2))) = [host_b; host_a]
  /\ map l_addr (leases (fst (ex_run 3))) = [host_b]
  /\ d_phase (fst (ex_run 3)) = PhRun
  /\ length (rules_of ex_chain (d_kernel (fst (ex_run 2)))) = 5%nat
  /\ length (rules_of ex_chain (d_kernel (fst (ex_run 3)))) = 4%nat
  /\ length (rules_elsewhere ex_chain (d_kernel (fst (ex_run 3)))) = 1%nat.
Proof. vm_compute. repeat split. Qed.

Example ex_asks : asks open_a22 host_a PtTcp 22.
Proof.
  exists (FwMsg FwOpen PtTcp 22 AtIpv4 [0;0;0;0;0;0;0;0;0;0;0;0;192;168;0;7]).
  repeat split; try reflexivity. apply bytes_ok_spec. reflexivity.
Qed.

Example ex_monotone : clock_monotone (ex_hist 3).
Proof.
  intros p x q y r t u E T U. change (ex_hist 3) with
    [(FwMessage (FwRxBuf open_a22) 1000 true true, Some fw_new_ack);
     (FwMessage (FwRxBuf open_b53) 1500 true true, Some fw_new_ack);
     (FwMaintain 1600 same same true false true, None)] in E.
  destruct p as [|p0 [|p1 [|p2 p]]]; simpl in E; injection E; intros.
  - destruct q as [|q0 [|q1 q]]; simpl in *; subst x y || idtac.
    + injection H as <- H. subst. simpl in *. injection T as <-. injection U as <-. lia.
    + injection H as <- <- H. subst. simpl in *. injection T as <-. injection U as <-. lia.
    + exfalso. injection H as _ _ H. destruct q; discriminate.
  - destruct q as [|q0 q]; simpl in *.
    + injection H as <- H. subst. simpl in *. injection T as <-. injection U as <-. lia.
    + exfalso. injection H as _ H. destruct q; discriminate.
  - exfalso. destruct q; discriminate.
  - exfalso. destruct p; discriminate.
Qed.

(** *** C21 *)

(** A message that is not an open request for a plausible address and a
    permitted port leaves the daemon and the kernel as they are and is not
    acknowledged. *)
Theorem C21_only_valid_requests_have_effect :
  forall conf c d h, history conf c d h ->
  forall r now ok send_ok d' reply,
  event_ok c d (FwMessage r now ok send_ok) ->
  fw_step conf d (FwMessage r now ok send_ok) = Some (d', reply) ->
  (forall b a t port, r = FwRxBuf b -> asks b a t port ->
     ~ (plausible_address a /\ permitted_port conf port)) ->
  d' = d /\ reply <> Some fw_new_ack.
Proof.
  intros conf c d h H r now ok sok d' reply EV ST NV.
  destruct (message_step conf c d h H _ _ _ _ _ _ EV ST)
    as [(E & NA & _)|(b & a & t & port & EB & AK & _ & PL & PP & _)]; [auto|].
  exfalso. eapply NV; eauto.
Qed.
Print Assumptions C21_only_valid_requests_have_effect.

(** A valid request is acknowledged if nft works, the chain exists and its
    family can match the address. *)
Theorem C21_valid_requests_are_served :
  forall conf c d h, history conf c d h -> serving d ->
  forall b a t port now send_ok, all_bytes b -> asks b a t port ->
  plausible_address a -> permitted_port conf port ->
  family_fits c a -> has_chain (d_kernel d) c = true ->
  exists d', fw_step conf d (FwMessage (FwRxBuf b) now true send_ok) = Some (d', Some fw_new_ack).
Proof.
  intros conf c d h H SV b a t port now sok HB AK PL PP (src & SH & TR) HC.
  destruct (fw_step conf d (FwMessage (FwRxBuf b) now true sok)) as [[d' reply]|] eqn:ST.
  - destruct (message_step conf c d h H (FwRxBuf b) now true sok d' reply HB ST)
      as [(_ & _ & R)|(b' & a' & t' & port' & _ & _ & _ & _ & _ & _ & ->)]; [|eauto].
    exfalso. destruct (R b a t port eq_refl AK) as (_ & [X|[X|[X|[X|X]]]]); try congruence; auto.
    apply X. eapply family_supported; [exact SH|]. exact TR.
  - exfalso. unfold fw_step in ST. destruct SV as [PH|PH]; rewrite PH in ST;
      destruct (handle_message _ _ _ _ _ _ _) as [[[? ?] ?] ?]; discriminate.
Qed.
Print Assumptions C21_valid_requests_are_served.

(** The all-zero and all-one addresses are not plausible, others are. *)
Example C21_plausible : plausible_address host_a /\ plausible_address host_b
  /\ ~ plausible_address (V4 [0;0;0;0]) /\ ~ plausible_address (V6 (repeat 255 16)).
Proof.
  assert (forall v (l : list N), (forall x, In x l -> x = v) -> ~ exists x, In x l /\ x <> v) as NO.
  { intros v l A (x & I & N). apply N. apply A. exact I. }
  split; [|split; [|split]].
  - split; exists 192; split; try discriminate; simpl; auto.
  - split; exists 32; split; try discriminate; simpl; auto.
  - intros [A _]. apply NO in A; [exact A|]. simpl. intuition congruence.
  - intros [_ A]. apply NO in A; [exact A|]. intros x I. apply repeat_spec in I. exact I.
Qed.
Example C21_witness : history ex_conf ex_chain (fst (ex_run 0)) (ex_hist 0)
  /\ serving (fst (ex_run 0)) /\ asks open_a22 host_a PtTcp 22 /\ permitted_port ex_conf 22
  /\ family_fits ex_chain host_a /\ has_chain (d_kernel (fst (ex_run 0))) ex_chain = true.
Proof.
  split; [apply ex_history0|]. split; [left; reflexivity|]. split; [apply ex_asks|].
  split; [split; [discriminate|]; exists 1, (ResPort 22 true false []); simpl; auto|].
  split; [|reflexivity]. exists host_a. split; [right; split; [reflexivity|discriminate]|exact I].
Qed.

(** *** C22 *)

(** While the daemon runs, its chain contains exactly the control port rules and
    the rules of the current leases. *)
Theorem C22_chain_mirrors_leases :
  forall conf c d h, history conf c d h -> d_phase d = PhRun -> mirrors conf c d.
Proof.
  intros conf c d h H PH. pose proof (history_configured conf c d h H) as CC.
  pose proof (i_phase _ _ _ _ (history_inv conf c CC d h H)) as IP. unfold phase_inv in IP.
  rewrite PH in IP. apply IP.
Qed.
Print Assumptions C22_chain_mirrors_leases.

(** The daemon's own steps never change another chain. *)
Theorem C22_other_chains_untouched :
  forall conf c d h, history conf c d h -> forall ev d' reply,
  event_ok c d ev -> fw_step conf d ev = Some (d', reply) -> (forall k, ev <> FwExternal k) ->
  rules_elsewhere c (d_kernel d') = rules_elsewhere c (d_kernel d).
Proof. exact elsewhere_untouched. Qed.
Print Assumptions C22_other_chains_untouched.

(** There is at most one lease per address, transport and port. *)
Theorem C22_leases_are_distinct :
  forall conf c d h, history conf c d h ->
  forall i j li lj, nth_error (leases d) i = Some li -> nth_error (leases d) j = Some lj ->
  l_addr li = l_addr lj -> l_port li = l_port lj -> i = j.
Proof.
  intros conf c d h H i j li lj Ei Ej EA EP.
  pose proof (lease_keys_nodup conf c d h H) as ND.
  pose proof (history_configured conf c d h H) as CC.
  pose proof (history_inv conf c CC d h H) as I.
  unfold leases in *. rewrite nth_error_map in Ei, Ej.
  destruct (nth_error (fw_leases (d_fw d)) i) as [[ki li']|] eqn:Ni; [|discriminate].
  destruct (nth_error (fw_leases (d_fw d)) j) as [[kj lj']|] eqn:Nj; [|discriminate].
  simpl in Ei, Ej. injection Ei as ->. injection Ej as ->.
  destruct (i_lease _ _ _ _ I _ _ (nth_error_In _ _ Ni)) as (Ki & _).
  destruct (i_lease _ _ _ _ I _ _ (nth_error_In _ _ Nj)) as (Kj & _).
  rewrite NoDup_nth_error in ND. apply ND.
  - rewrite map_length. apply nth_error_Some. congruence.
  - rewrite !nth_error_map, Ni, Nj. simpl. congruence.
Qed.
Print Assumptions C22_leases_are_distinct.

Example C22_witness : history ex_conf ex_chain (fst (ex_run 2)) (ex_hist 2)
  /\ d_phase (fst (ex_run 2)) = PhRun /\ length (leases (fst (ex_run 2))) = 2%nat.
Proof. split; [apply ex_history2|]. split; reflexivity. Qed.

(** *** C23 *)

(** The chain accepts a packet that it sees if and only if the packet goes to the
    control port or there is a live grant for its source, port and transport. *)
Theorem C23_packet_accepted_iff_control_or_live_grant :
  forall conf c d h, history conf c d h -> clock_monotone h -> d_phase d = PhRun ->
  forall pk, ip_address (pk_src pk) ->
  (chain_accepts (d_kernel d) c pk <->
   traverses c pk
   /\ (to_control_port conf pk
       \/ exists a pt port, live_grant conf h a pt port /\ same_host a (pk_src pk)
          /\ port_covers pt port pk)).
Proof. exact accepts_exact. Qed.
Print Assumptions C23_packet_accepted_iff_control_or_live_grant.

(** The same in terms of the lease table. *)
Theorem C23_lease_iff_live_grant :
  forall conf c d h, history conf c d h -> clock_monotone h -> serving d ->
  forall a pt port,
  (exists l, In l (leases d) /\ l_addr l = a
     /\ l_port l = match pt with PtTcp => LpTcp port | PtUdp => LpUdp port | PtTcpUdp => LpTcpUdp port end)
  <-> live_grant conf h a pt port.
Proof. exact lease_iff_live. Qed.
Print Assumptions C23_lease_iff_live_grant.

(** Example: after the run, b may reach port 53, a may no longer reach port 22,
    everybody may reach the control port. *)
Example C23_witness :
  let d := fst (ex_run 3) in
  history ex_conf ex_chain d (ex_hist 3) /\ clock_monotone (ex_hist 3) /\ d_phase d = PhRun
  /\ chain_accepts (d_kernel d) ex_chain (Packet host_b Udp 53)
  /\ ~ chain_accepts (d_kernel d) ex_chain (Packet host_a Tcp 22)
  /\ chain_accepts (d_kernel (fst (ex_run 2))) ex_chain (Packet host_a Tcp 22)
  /\ chain_accepts (d_kernel d) ex_chain (Packet host_a Tcp 5800).
Proof.
  cbv zeta. split; [apply ex_history3|]. split; [apply ex_monotone|]. split; [reflexivity|].
  split; [|split; [|split]].
  - split; [exact I|]. exists (nth 4 (k_rules (d_kernel (fst (ex_run 3)))) (Rule ex_chain 0 None [])).
    split; [vm_compute; tauto|]. split; [reflexivity|]. cbv -[ipv4_text ipv6_text].
    split; [|tauto]. eexists; split; [reflexivity|].
    match goal with
    | |- ipv4_text ?t ?o => apply (proj1 (parse_ip_addr_spec t (V4 o)))
    | |- ipv6_text ?t ?o => apply (proj1 (parse_ip_addr_spec t (V6 o)))
    end; vm_compute; reflexivity.
  - intros [_ (r & R & C & A)]. vm_compute in R.
    repeat destruct R as [<-|R]; try contradiction; try discriminate C; cbv -[ipv4_text ipv6_text] in A;
      repeat match goal with
             | H : _ /\ _ |- _ => destruct H
             | H : ipv4_text ?t ?o |- _ => apply (proj2 (parse_ip_addr_spec t (V4 o))) in H; vm_compute in H
             | H : exists o, _ |- _ => destruct H as (? & ? & H)
             end; congruence.
  - split; [exact I|]. exists (nth 3 (k_rules (d_kernel (fst (ex_run 2)))) (Rule ex_chain 0 None [])).
    split; [vm_compute; tauto|]. split; [reflexivity|]. cbv -[ipv4_text ipv6_text].
    split; [|tauto]. eexists; split; [reflexivity|].
    match goal with
    | |- ipv4_text ?t ?o => apply (proj1 (parse_ip_addr_spec t (V4 o)))
    | |- ipv6_text ?t ?o => apply (proj1 (parse_ip_addr_spec t (V6 o)))
    end; vm_compute; reflexivity.
  - split; [exact I|]. exists (nth 1 (k_rules (d_kernel (fst (ex_run 3)))) (Rule ex_chain 0 None [])).
    split; [vm_compute; tauto|]. split; [reflexivity|]. vm_compute. tauto.
Qed.

(** *** C24 *)

(** A request acknowledged at time t stays effective as long as no maintenance
    run happens at or after t + timeout. *)
Theorem C24_not_removed_before_expiry :
  forall conf c d h, history conf c d h -> clock_monotone h -> serving d ->
  forall a pt port pk, live_grant conf h a pt port ->
  same_host a (pk_src pk) -> ip_address (pk_src pk) -> port_covers pt port pk ->
  chain_accepts (d_kernel d) c pk.
Proof. exact grant_effective. Qed.
Print Assumptions C24_not_removed_before_expiry.

(** After a maintenance run at a time when all grants for a packet are over,
    the packet is no longer accepted. *)
Theorem C24_removed_after_expiry :
  forall conf c d h now o1 o2 list_ok del_ok rebuild_ok reply,
  history conf c d (h ++ [(FwMaintain now o1 o2 list_ok del_ok rebuild_ok, reply)]) ->
  clock_monotone (h ++ [(FwMaintain now o1 o2 list_ok del_ok rebuild_ok, reply)]) ->
  d_phase d = PhRun ->
  forall pk, ip_address (pk_src pk) -> ~ to_control_port conf pk ->
  (forall x t a pt port, In x h -> acked x t a pt port -> same_host a (pk_src pk) ->
     port_covers pt port pk -> t + c_nft_timeout conf <= now) ->
  ~ chain_accepts (d_kernel d) c pk.
Proof. exact expired_closed. Qed.
Print Assumptions C24_removed_after_expiry.

(** A maintenance run removes exactly the leases whose time is over. *)
Theorem C24_maintenance_removes_exactly_the_expired :
  forall conf c d h, history conf c d h -> forall now o1 o2 list_ok del_ok rebuild_ok d' reply,
  event_ok c d (FwMaintain now o1 o2 list_ok del_ok rebuild_ok) ->
  fw_step conf d (FwMaintain now o1 o2 list_ok del_ok rebuild_ok) = Some (d', reply) ->
  leases d' = filter (fun l => now <? l_timeout l) (leases d).
Proof. intros. eapply maintain_step; eassumption. Qed.
Print Assumptions C24_maintenance_removes_exactly_the_expired.

Example C24_witness :
  live_grant ex_conf (ex_hist 2) host_a PtTcp 22 /\ ~ live_grant ex_conf (ex_hist 3) host_a PtTcp 22
  /\ ~ to_control_port ex_conf (Packet host_a Tcp 22).
Proof.
  split; [|split].
  - eexists [], _, _, 1000. split; [reflexivity|]. split.
    + exists open_a22, true, true. split; [reflexivity|apply ex_asks].
    + intros now o1 o2 b1 b2 b3 reply. vm_compute. intros [[=]|[]].
  - intros L. apply (C23_lease_iff_live_grant ex_conf ex_chain (fst (ex_run 3)) (ex_hist 3)) in L.
    + destruct L as (l & [<-|[]] & E & _). discriminate E.
    + apply ex_history3.
    + apply ex_monotone.
    + left. reflexivity.
  - intros [E _]. discriminate E.
Qed.

(** *** C25 *)

(** A request that is not acknowledged changes nothing, and every open request
    gets an answer. *)
Theorem C25_unacknowledged_changes_nothing :
  forall conf c d h, history conf c d h -> forall r now ok send_ok d' reply,
  event_ok c d (FwMessage r now ok send_ok) ->
  fw_step conf d (FwMessage r now ok send_ok) = Some (d', reply) ->
  (reply = Some fw_new_ack \/ d' = d)
  /\ (forall b a t port, r = FwRxBuf b -> asks b a t port ->
      reply = Some fw_new_ack \/ reply = Some fw_new_nack).
Proof.
  intros conf c d h H r now ok sok d' reply EV ST.
  destruct (message_step conf c d h H _ _ _ _ _ _ EV ST)
    as [(E & NA & R)|(b & a & t & port & EB & AK & _ & PL & PP & _ & EA)].
  - split; [auto|]. intros b a t port EB AK. right. apply (R b a t port EB AK).
  - split; [auto|]. intros. auto.
Qed.
Print Assumptions C25_unacknowledged_changes_nothing.

(** An acknowledged request is effective at once. *)
Theorem C25_acknowledged_is_effective :
  forall conf c d h, history conf c d h -> forall ev d' reply t a pt port,
  event_ok c d ev -> fw_step conf d ev = Some (d', reply) -> acked (ev, reply) t a pt port ->
  forall pk, same_host a (pk_src pk) -> ip_address (pk_src pk) -> port_covers pt port pk ->
  chain_accepts (d_kernel d') c pk.
Proof. exact ack_effective. Qed.
Print Assumptions C25_acknowledged_is_effective.

(** A maintenance run either leaves the chain an exact mirror of the leases, or -
    only if the rebuild failed as well - leaves the kernel untouched and puts the
    daemon into the phase in which it only shuts down. *)
Theorem C25_maintenance_is_all_or_nothing :
  forall conf c d h, history conf c d h -> forall now o1 o2 list_ok del_ok rebuild_ok d' reply,
  event_ok c d (FwMaintain now o1 o2 list_ok del_ok rebuild_ok) ->
  fw_step conf d (FwMaintain now o1 o2 list_ok del_ok rebuild_ok) = Some (d', reply) ->
  (d_phase d' = PhRun /\ mirrors conf c d')
  \/ (d_phase d' = PhFatal /\ d_kernel d' = d_kernel d
      /\ (rebuild_ok = false \/ has_chain (d_kernel d) c = false)).
Proof. intros. eapply maintain_step; eassumption. Qed.
Print Assumptions C25_maintenance_is_all_or_nothing.

(** If the ruleset can be listed and nft accepts the deletion, maintenance removes
    the rules of the expired leases and goes on, even if a rebuild of the chain
    would fail, unless two expired leases have a rule in common. *)
Theorem C25_maintenance_needs_no_rebuild :
  forall conf c d h, history conf c d h -> forall now o1 o2 rebuild_ok d' reply,
  event_ok c d (FwMaintain now o1 o2 true true rebuild_ok) ->
  fw_step conf d (FwMaintain now o1 o2 true true rebuild_ok) = Some (d', reply) ->
  NoDup (flat_map lease_contents (filter (fun l => l_timeout l <=? now) (leases d))) ->
  d_phase d' = PhRun.
Proof. exact maintain_no_rebuild. Qed.
Print Assumptions C25_maintenance_needs_no_rebuild.

(** The lease of a is over at 1600 and is removed without a rebuild. *)
Example C25_no_rebuild_witness :
  length (filter (fun l => l_timeout l <=? 1600) (leases (fst (ex_run 2)))) = 1%nat
  /\ NoDup (flat_map lease_contents (filter (fun l => l_timeout l <=? 1600) (leases (fst (ex_run 2)))))
  /\ exists d', fw_step ex_conf (fst (ex_run 2)) (FwMaintain 1600 same same true true false) = Some (d', None)
     /\ length (rules_of ex_chain (d_kernel d')) = 4%nat.
Proof.
  split; [vm_compute; reflexivity|]. split.
  - vm_compute. constructor; [intros []|constructor].
  - eexists. split; [vm_compute; reflexivity|]. vm_compute. reflexivity.
Qed.

(** The exception is real: leases of one host for 53/TCP and for 53/TCP+UDP share a
    rule text.  If both expire in the same run the same handle is deleted twice, the
    batch fails, and without a working rebuild the daemon stops. *)
Definition open_b53tcp : list N := [0;2; 0;0; 0;53; 0;0; 32;1;13;184;0;0;0;0;0;0;0;0;0;0;0;1].
Example C25_common_rule_needs_rebuild :
  exists d rs, fw_run ex_conf ex_start
    [FwMessage (FwRxBuf open_b53) 1000 true true; FwMessage (FwRxBuf open_b53tcp) 1000 true true;
     FwMaintain 1600 same same true true false] = Some (d, rs)
  /\ rs = [Some fw_new_ack; Some fw_new_ack; None] /\ d_phase d = PhFatal.
Proof. do 2 eexists. split; [vm_compute; reflexivity|]. split; vm_compute; reflexivity. Qed.

(** Whatever failed and in whatever phase: a packet is accepted only if it goes
    to the control port or was granted at some time. *)
Theorem C25_only_granted_packets_accepted :
  forall conf c d h, history conf c d h ->
  forall pk, ip_address (pk_src pk) -> chain_accepts (d_kernel d) c pk ->
  to_control_port conf pk
  \/ exists a pt port, granted h a pt port /\ permitted_port conf port
     /\ same_host a (pk_src pk) /\ port_covers pt port pk.
Proof. exact accepts_granted. Qed.
Print Assumptions C25_only_granted_packets_accepted.

(** Example: listing, deletion and rebuild all fail. *)
Definition ex_fatal : daemon :=
  match fw_step ex_conf (fst (ex_run 2)) (FwMaintain 1600 same same false false false) with
  | Some (d, _) => d
  | None => ex_start
  end.
Example C25_witness : d_phase ex_fatal = PhFatal /\ length (leases ex_fatal) = 1%nat
  /\ d_kernel ex_fatal = d_kernel (fst (ex_run 2))
  /\ fw_step ex_conf ex_fatal (FwMaintain 1700 same same true true true) = None
  /\ match fw_step ex_conf ex_fatal (FwShutdown true) with
     | Some (d, _) => rules_of ex_chain (d_kernel d) = []
     | None => False
     end.
Proof. vm_compute. repeat split. Qed.

(** *** C26 *)

(** A start either fails without changing the kernel, or leaves exactly the
    control port rules in the chain and all other chains as they were.  It
    succeeds if nft works and the configured chain exists. *)
Theorem C26_start_leaves_only_control_rules :
  forall conf k exe_ok ok k' r, fw_start conf k exe_ok ok = (k', r) ->
  (exists d c, r = Ok d /\ configured_chain conf c /\ has_chain k c = true /\ d_kernel d = k'
     /\ d_phase d = PhRun /\ leases d = []
     /\ Permutation (map content (rules_of c k')) (control_contents conf)
     /\ rules_elsewhere c k' = rules_elsewhere c k)
  \/ (k' = k /\ (exists e, r = Err e)
      /\ (exe_ok = false \/ ok = false
          \/ forall c, configured_chain conf c -> has_chain k c = false)).
Proof. exact start_cases. Qed.
Print Assumptions C26_start_leaves_only_control_rules.

(** A shutdown empties the chain and nothing else, unless nft fails or the chain
    is gone. *)
Theorem C26_shutdown_empties_chain :
  forall conf c d h, history conf c d h -> forall ok d' reply,
  fw_step conf d (FwShutdown ok) = Some (d', reply) ->
  d_phase d' = PhDown /\ leases d' = []
  /\ ((rules_of c (d_kernel d') = []
       /\ rules_elsewhere c (d_kernel d') = rules_elsewhere c (d_kernel d))
      \/ (d_kernel d' = d_kernel d /\ (ok = false \/ has_chain (d_kernel d) c = false))).
Proof. exact shutdown_step. Qed.
Print Assumptions C26_shutdown_empties_chain.

(** After a successful shutdown nothing is accepted, not even the control port. *)
Theorem C26_nothing_accepted_after_shutdown :
  forall conf c d h, history conf c d h -> forall d' reply,
  has_chain (d_kernel d) c = true ->
  fw_step conf d (FwShutdown true) = Some (d', reply) ->
  forall pk, ~ chain_accepts (d_kernel d') c pk.
Proof.
  intros conf c d h H d' reply HC ST pk (_ & r & I & E & _).
  destruct (shutdown_step conf c d h H true d' reply ST) as (_ & _ & [[R _]|[_ [X|X]]]); try congruence.
  assert (In r (rules_of c (d_kernel d'))) as J.
  { apply filter_In. split; [exact I|]. apply chain_eqb_spec. exact E. }
  rewrite R in J. contradiction.
Qed.
Print Assumptions C26_nothing_accepted_after_shutdown.

Example C26_witness :
  (exists k' d, fw_start ex_conf ex_kernel true true = (k', Ok d)
     /\ length (rules_of ex_chain ex_kernel) = 1%nat /\ length (rules_of ex_chain k') = 2%nat)
  /\ (exists d' reply, fw_step ex_conf (fst (ex_run 2)) (FwShutdown true) = Some (d', reply)
      /\ length (rules_of ex_chain (d_kernel (fst (ex_run 2)))) = 5%nat
      /\ rules_of ex_chain (d_kernel d') = []).
Proof. split; eexists _, _; vm_compute; repeat split. Qed.

(** *** C27 *)

(** Different addresses, transports or ports have different comments; [None] is
    the control port rule. *)
Theorem C27_comments_are_unique :
  forall a b p q,
  (forall x, a = Some x -> ip_address x) -> (forall x, b = Some x -> ip_address x) ->
  rule_comment a p = rule_comment b q -> a = b /\ p = q.
Proof. exact rule_comment_inj. Qed.
Print Assumptions C27_comments_are_unique.

(** Removing leases removes exactly their rules: no rule of another address or
    port, no control rule, no rule of another chain. *)
Theorem C27_removal_is_exact :
  forall conf c d h, history conf c d h -> forall ls list_ok ok k',
  (forall l, In l ls -> ip_address (l_addr l)) ->
  remove_leases conf (d_kernel d) ls list_ok ok = (k', Ok tt) ->
  Permutation (map content (rules_of c (d_kernel d)))
              (flat_map lease_contents ls ++ map content (rules_of c k'))
  /\ rules_elsewhere c k' = rules_elsewhere c (d_kernel d).
Proof. exact removal_exact. Qed.
Print Assumptions C27_removal_is_exact.

(** The text of an address determines the address. *)
Theorem C27_address_texts_are_unique :
  forall a b, ip_address a -> ip_address b -> fmt_ip a = fmt_ip b -> a = b.
Proof. exact fmt_ip_inj. Qed.
Print Assumptions C27_address_texts_are_unique.

Example C27_texts :
  fmt_ip host_a = lit "192.168.0.7" /\ fmt_ip host_b = lit "2001:db8::1"
  /\ fmt_ip (V6 (mapped_prefix ++ [192;168;0;7])) = lit "::ffff:192.168.0.7"
  /\ fmt_ip (V6 (repeat 0 16)) = lit "::"
  /\ fmt_ip (V6 [0;1;0;0;0;0;0;2;0;0;0;0;0;0;0;3]) = lit "1:0:0:2::3"
  /\ rule_comment (Some host_a) (SpTcp 22) = lit "192.168.0.7/22/TCP/accept/letmein/GENERATED"
  /\ rule_comment None (SpUdp 5800) = lit "any/5800/UDP/accept/letmein/GENERATED".
Proof. vm_compute. repeat split. Qed.
Example C27_witness : exists k', remove_leases ex_conf (d_kernel (fst (ex_run 2)))
    [Lease host_a (LpTcp 22) 1600] true true = (k', Ok tt).
Proof. eexists. vm_compute. reflexivity. Qed.

(** *** C50 *)

(** No message, failure of nft or schedule makes the firewall daemon panic. *)
Theorem C50_firewall_daemon_never_panics :
  forall conf c d h, history conf c d h -> d_phase d <> PhDead.
Proof. exact never_dead. Qed.
Print Assumptions C50_firewall_daemon_never_panics.

(** The phase is indeed entered by a panic, e.g. of a second shutdown. *)
Example C50_witness :
  option_map (fun x => d_phase (fst x))
    (fw_step ex_conf (Daemon ex_kernel (Firewall [] true) PhRun) (FwShutdown true)) = Some PhDead.
Proof. vm_compute. reflexivity. Qed.
