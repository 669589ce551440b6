(** C89, C90: the firewall daemon is killed at any point and started again. *)

From Coq Require Import String NArith List Bool Lia Permutation.
From Verif Require Import M_Base M_IpAddr M_FwProto M_ConfTypes M_Server M_Text M_Firewall M_Listing M_IpParse
  S_Wire S_Ip S_Firewall S_Loss S_Listing S_Crash P_Base P_FwProto P_Text P_IpParse P_Firewall P_Fwd P_FwdProps P_Loss
  P_Listing P_Crash Prop_Firewall Prop_Loss Prop_Listing.
Import ListNotations.
Local Open Scope N_scope.

(** *** C89: whenever the daemon is killed, only what it was asked for is open *)

(** While a daemon runs, nothing of earlier daemons is open: only the control port and
    what this daemon acknowledged and whose lease time has not ended. *)
Theorem C89_nothing_from_before_is_open :
  forall c conf d h ps, host_history c (On conf d h) ps -> d_phase d = PhRun ->
  forall pk, ip_address (pk_src pk) -> chain_accepts (d_kernel d) c pk ->
  to_control_port conf pk
  \/ exists a pt port, live_grant conf h a pt port /\ permitted_port conf port
     /\ same_host a (pk_src pk) /\ port_covers pt port pk.
Proof.
  intros c conf d h ps H. apply host_inv_holds in H. cbn [host_inv] in H.
  exact (C86_only_live_grants_are_open conf c d h H).
Qed.
Print Assumptions C89_nothing_from_before_is_open.

(** After a daemon was killed, only the control port and what this daemon was asked
    for is open; nothing of the daemons before it. *)
Theorem C89_after_a_kill :
  forall c k conf h ph ps, host_history c (Off k) (Past conf h ph :: ps) ->
  forall pk, ip_address (pk_src pk) -> chain_accepts k c pk ->
  to_control_port conf pk
  \/ exists a pt port, requested h a pt port /\ permitted_port conf port
     /\ same_host a (pk_src pk) /\ port_covers pt port pk.
Proof.
  intros c k conf h ph ps H pk HS A. apply host_inv_holds in H. destruct H as [CL _].
  exact (proj1 (CL pk HS A)).
Qed.
Print Assumptions C89_after_a_kill.

(** Unless a maintenance run had failed, the lease time of what is open had not ended
    when the daemon was killed. *)
Theorem C89_after_a_kill_while_serving :
  forall c k conf h ps, host_history c (Off k) (Past conf h PhRun :: ps) ->
  forall pk, ip_address (pk_src pk) -> chain_accepts k c pk ->
  to_control_port conf pk
  \/ exists a pt port, live_request conf h a pt port /\ permitted_port conf port
     /\ same_host a (pk_src pk) /\ port_covers pt port pk.
Proof.
  intros c k conf h ps H pk HS A. apply host_inv_holds in H. destruct H as [CL _].
  exact (proj2 (CL pk HS A) eq_refl).
Qed.
Print Assumptions C89_after_a_kill_while_serving.

(** A successful start opens exactly the control port, whatever was left behind. *)
Theorem C89_a_start_closes_everything :
  forall c k ps, host_history c (Off k) ps ->
  forall conf exe_ok ok k' d, configured_chain conf c -> fw_start conf k exe_ok ok = (k', Ok d) ->
  forall pk, chain_accepts (d_kernel d) c pk <-> traverses c pk /\ to_control_port conf pk.
Proof. intros c k ps _ conf. exact (start_exact c conf k). Qed.
Print Assumptions C89_a_start_closes_everything.

(** No daemon of the host ever panics. *)
Theorem C89_no_panic :
  forall c s ps, host_history c s ps ->
  match s with On _ d _ => d_phase d <> PhDead | Off _ => True end /\ forall p, In p ps -> ps_phase p <> PhDead.
Proof.
  intros c s ps H. split.
  - apply host_inv_holds in H. destruct s as [k|conf d h]; [exact I|]. exact (C86_no_panic conf c d h H).
  - induction H as [| | | | | |conf d h ps H IH|conf d h ps ev d' reply H IH EV ST]; try assumption.
    + intros p [].
    + intros p [<-|J]; [|auto]. cbn [ps_phase]. apply host_inv_holds in H. exact (C86_no_panic conf c d h H).
    + intros p [<-|J]; [|auto]. cbn [ps_phase]. apply host_inv_holds in H.
      eapply (C86_no_panic conf c d'). eapply racy_step; eassumption.
Qed.
Print Assumptions C89_no_panic.

(** Example: the daemon of C22 opens 22 for a; while it handles b's request it is
    killed after nft was called; b never gets an answer but its port is open; the
    next daemon closes both. *)
Definition crash_life : list past :=
  [Past ex_conf (ex_hist 1 ++ [(FwMessage (FwRxBuf open_b53) 1500 true true, None)]) PhRun].
Definition crash_kernel : kernel := d_kernel (fst (ex_run 2)).

Lemma history_host : forall conf c d h, lossy_history conf c d h -> host_history c (On conf d h) [].
Proof.
  intros conf c d h H. induction H; [eapply hh_start; [apply hh_boot|eassumption|eassumption]|].
  eapply hh_step; eassumption.
Qed.

Lemma crash_history : host_history ex_chain (Off crash_kernel) crash_life.
Proof.
  assert (exists d reply, fw_step ex_conf (fst (ex_run 1)) (FwMessage (FwRxBuf open_b53) 1500 true true) = Some (d, reply)
    /\ d = fst (ex_run 2) /\ d_phase d = PhRun) as (d & reply & ST & ED & PH).
  { eexists. eexists. split; [vm_compute; reflexivity|]. vm_compute. auto. }
  unfold crash_kernel, crash_life. rewrite <- PH, <- ED.
  eapply hh_kill_amid; [|apply bytes_ok_spec; vm_compute; reflexivity|exact ST].
  apply history_host. apply history_lossy. exact ex_history1.
Qed.

Example C89_witness :
  host_history ex_chain (Off crash_kernel) crash_life
  /\ map r_comment (rules_of ex_chain crash_kernel) =
     map Some [lit "any/5800/TCP/accept/letmein/GENERATED"; lit "any/5800/UDP/accept/letmein/GENERATED";
               lit "192.168.0.7/22/TCP/accept/letmein/GENERATED";
               lit "2001:db8::1/53/TCP/accept/letmein/GENERATED"; lit "2001:db8::1/53/UDP/accept/letmein/GENERATED"]
  /\ (exists k' d, fw_start ex_conf crash_kernel true true = (k', Ok d)
      /\ host_history ex_chain (On ex_conf d []) crash_life
      /\ map r_comment (rules_of ex_chain (d_kernel d)) =
         map Some [lit "any/5800/TCP/accept/letmein/GENERATED"; lit "any/5800/UDP/accept/letmein/GENERATED"]).
Proof.
  split; [exact crash_history|]. split; [vm_compute; reflexivity|].
  destruct (fw_start ex_conf crash_kernel true true) as [k' [d| |]] eqn:ST; try (vm_compute in ST; discriminate ST).
  exists k', d. split; [reflexivity|]. split.
  - eapply hh_start; [exact crash_history|exact ex_configured|exact ST].
  - vm_compute in ST. injection ST as <- <-. vm_compute. reflexivity.
Qed.

(** *** C90: after a restart with another configuration only what that one allows is open *)

(** No, if the daemon was killed and the new configuration names another chain: the
    rules in the old chain stay whatever the new daemon does in its maintenance. *)
Definition moved_conf : config :=
  Config VarServer None false (ControlPort 5800 true true) 5 PolAlways ScOff
         [(0, repeat 7 32)] [] 0 (lit "nft") (lit "inet") (lit "filter") (lit "INPUT") 600.

Theorem C90_restart_obeys_new_configuration_refuted :
  exists c k ps conf c' k' d pk,
    host_history c (Off k) ps /\ configured_chain conf c'
    /\ fw_start conf k true true = (k', Ok d)
    /\ ip_address (pk_src pk) /\ ~ to_control_port conf pk /\ (forall port, ~ permitted_port conf port)
    /\ forall times d' replies,
       fw_run conf d (map (fun t => FwMaintain t (fun l => l) (fun l => l) true true true) times) = Some (d', replies) ->
       d_phase d' = PhRun /\ chain_accepts (d_kernel d') c pk.
Proof.
  destruct (fw_start moved_conf crash_kernel true true) as [k' [d| |]] eqn:ST; try (vm_compute in ST; discriminate ST).
  assert (d_phase d = PhRun /\ d_fw d = Firewall [] false
          /\ In (Rule ex_chain 7 (Some (rule_comment (Some host_a) (SpTcp 22)))
               [MatchSaddr false (fmt_ipv4 [192; 168; 0; 7]); MatchDport (SpTcp 22); Accept]) (k_rules (d_kernel d)))
    as (PH & FW & IN).
  { vm_compute in ST. injection ST as <- <-. vm_compute. tauto. }
  exists ex_chain, crash_kernel, crash_life, moved_conf, ex_other, k', d, (Packet host_a Tcp 22).
  split; [exact crash_history|]. split; [repeat split; discriminate|]. split; [exact ST|].
  split; [split; [reflexivity|apply bytes_ok_spec; vm_compute; reflexivity]|].
  split; [intros [E _]; discriminate E|]. split; [intros port (_ & id & r & [] & _)|].
  assert (chain_accepts (d_kernel d) ex_chain (Packet host_a Tcp 22)) as ACC.
  { split; [exact Logic.I|]. eexists. split; [exact IN|]. split; [reflexivity|].
    cbn [r_expr expr_accepts matches pk_src pk_transport pk_dport host_a]. split; [|repeat split; reflexivity].
    exists [192; 168; 0; 7]. split; [reflexivity|].
    apply ipv4_unique; [reflexivity|apply bytes_ok_spec; vm_compute; reflexivity|reflexivity]. }
  assert (forall times d1 d2 replies, d_phase d1 = PhRun -> d_fw d1 = Firewall [] false ->
    fw_run moved_conf d1 (map (fun t => FwMaintain t (fun l => l) (fun l => l) true true true) times)
      = Some (d2, replies) -> d2 = d1) as IDLE.
  { clear. induction times as [|t times IH]; intros d1 d2 replies P1 F1 R; [simpl in R; congruence|].
    cbn [map fw_run] in R. unfold fw_step in R. rewrite P1, F1 in R.
    unfold maintain in R. cbn [fw_shutdown fw_leases prune filter map next_phase] in R.
    set (d3 := Daemon (d_kernel d1) (Firewall [] false) PhRun) in *.
    assert (d3 = d1) as E3 by (destruct d1 as [k1 f1 p1]; unfold d3; simpl in *; congruence).
    rewrite E3 in R.
    destruct (fw_run moved_conf d1 _) as [[d4 rs]|] eqn:R2; [|discriminate].
    injection R as <- <-. eapply IH; eassumption. }
  intros times d' replies R. apply IDLE in R; [|exact PH|exact FW]. rewrite R. split; [exact PH|exact ACC].
Qed.
Print Assumptions C90_restart_obeys_new_configuration_refuted.

(** What remains: it is so if the chain is the same, however the daemon ended and
    whatever else was changed in the configuration. *)
Theorem C90_same_chain_partial :
  forall c conf d h p ps, host_history c (On conf d h) (p :: ps) -> d_phase d = PhRun ->
  forall pk, ip_address (pk_src pk) -> chain_accepts (d_kernel d) c pk ->
  to_control_port conf pk
  \/ exists a pt port, live_grant conf h a pt port /\ permitted_port conf port
     /\ same_host a (pk_src pk) /\ port_covers pt port pk.
Proof. intros c conf d h p ps H. exact (C89_nothing_from_before_is_open c conf d h (p :: ps) H). Qed.
Print Assumptions C90_same_chain_partial.

(** And if the daemon ended orderly and nft did not fail: then nothing is left in the
    old chain, and a start with another chain does not change that. *)
Theorem C90_orderly_end_partial :
  forall c conf d h ps, host_history c (On conf d h) ps -> has_chain (d_kernel d) c = true ->
  forall d' reply, fw_step conf d (FwShutdown true) = Some (d', reply) ->
  (forall pk, ~ chain_accepts (d_kernel d') c pk)
  /\ forall conf' c' exe_ok ok k'' r, configured_chain conf' c' -> c' <> c ->
     fw_start conf' (d_kernel d') exe_ok ok = (k'', r) -> forall pk, ~ chain_accepts k'' c pk.
Proof.
  intros c conf d h ps H HC d' reply ST. apply host_inv_holds in H. cbn [host_inv] in H.
  pose proof (racy_configured conf c d h H) as CC.
  destruct (shutdown_empties c conf d h true d' reply (racy_inv conf c CC d h H) CC ST)
    as (_ & [[R _]|[_ [X|X]]]); try congruence.
  assert (forall k, rules_of c k = [] -> forall pk, ~ chain_accepts k c pk) as NO.
  { intros k E pk (_ & r & I & EC & _). assert (In r (rules_of c k)) as J.
    { apply filter_In. split; [exact I|]. apply chain_eqb_spec. exact EC. }
    rewrite E in J. exact J. }
  split; [apply NO; exact R|]. intros conf' c' exe ok k'' r CC' NE ST'. apply NO.
  destruct (start_cases conf' (d_kernel d') exe ok k'' r ST') as [(d2 & c2 & _ & CC2 & _ & _ & _ & _ & _ & EL)|(-> & _)];
    [|exact R].
  assert (c2 = c') as -> by (apply names_ok in CC2; apply names_ok in CC'; congruence).
  assert (forall rs, filter (fun x => chain_eqb (r_chain x) c) rs
          = filter (fun x => chain_eqb (r_chain x) c) (filter (fun x => negb (chain_eqb (r_chain x) c')) rs)) as EQ.
  { induction rs as [|x rs IH]; [reflexivity|]. cbn [filter].
    destruct (chain_eqb (r_chain x) c) eqn:A, (chain_eqb (r_chain x) c') eqn:B; cbn [negb filter];
      rewrite ?A, ?IH; try reflexivity; exfalso. apply chain_eqb_spec in A. apply chain_eqb_spec in B. congruence. }
  unfold rules_of, rules_elsewhere in *. rewrite EQ, EL, <- EQ. exact R.
Qed.
Print Assumptions C90_orderly_end_partial.

Example C90_witness :
  host_history ex_chain (On ex_conf (fst (ex_run 2)) (ex_hist 2)) []
  /\ has_chain (d_kernel (fst (ex_run 2))) ex_chain = true
  /\ (exists d' reply, fw_step ex_conf (fst (ex_run 2)) (FwShutdown true) = Some (d', reply)
      /\ rules_of ex_chain (d_kernel d') = [] /\ length (rules_of ex_chain (d_kernel (fst (ex_run 2)))) = 5%nat
      /\ exists k'' d2, fw_start moved_conf (d_kernel d') true true = (k'', Ok d2))
  /\ configured_chain moved_conf ex_other /\ ex_other <> ex_chain
  /\ (exists conf d h p ps, host_history ex_chain (On conf d h) (p :: ps) /\ d_phase d = PhRun).
Proof.
  split; [apply history_host, history_lossy, ex_history2|]. split; [vm_compute; reflexivity|].
  split; [eexists; eexists; split; [vm_compute; reflexivity|]; split; [vm_compute; reflexivity|]; split; [vm_compute; reflexivity|];
          eexists; eexists; vm_compute; reflexivity|].
  split; [repeat split; discriminate|]. split; [vm_compute; discriminate|].
  destruct C89_witness as (_ & _ & k' & d & ST & HH & _).
  exists ex_conf, d, [], (hd (Past ex_conf [] PhRun) crash_life), []. split; [exact HH|].
  vm_compute in ST. injection ST as _ <-. reflexivity.
Qed.
