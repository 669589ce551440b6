(** Proofs about hosts on which the firewall daemon is killed and started again (C89, C90). *)

From Coq Require Import String ZArith NArith List Bool Lia Permutation ZifyBool ZifyNat ZifyN.
From Verif Require Import M_Base M_IpAddr M_FwProto M_ConfTypes M_Server M_Text M_Firewall M_Listing
  S_Wire S_Ip S_Firewall S_Loss S_Listing S_Crash P_Base P_Text P_Firewall P_Fwd P_FwdProps P_Loss P_Listing.
Import ListNotations.
Local Open Scope N_scope.

Lemma removes_accepts : forall c k k', removes_only c k k' ->
  forall pk, chain_accepts k' c pk -> chain_accepts k c pk.
Proof.
  intros c k k' [[gone ER] _] pk A. apply accepts_contents in A. destruct A as (TR & w & J & A).
  apply accepts_contents. split; [exact TR|]. exists w. split; [|exact A].
  unfold contents in *. apply in_map_iff in J. destruct J as (r & <- & J). apply in_map.
  symmetry in ER. apply (Permutation_in r ER). apply in_or_app. auto.
Qed.

Lemma granted_requested : forall h ev reply a pt port,
  granted (h ++ [(ev, reply)]) a pt port -> requested (h ++ [(ev, None)]) a pt port.
Proof.
  intros h ev reply a pt port (x & t & J & b & ok & sok & EX & AK).
  apply in_app_or in J. destruct J as [J|[J|[]]].
  - exists b, t, ok, sok, (Some fw_new_ack). split; [|exact AK]. apply in_or_app. left. rewrite <- EX. exact J.
  - exists b, t, ok, sok, None. split; [|exact AK]. apply in_or_app. right. left.
    rewrite <- J in EX. injection EX as -> _. reflexivity.
Qed.

Lemma granted_requested' : forall h a pt port, granted h a pt port -> requested h a pt port.
Proof. intros h a pt port (x & t & J & b & ok & sok & -> & AK). exists b, t, ok, sok, (Some fw_new_ack). auto. Qed.

Lemma live_requested : forall conf h ev reply a pt port,
  live_grant conf (h ++ [(ev, reply)]) a pt port -> live_request conf (h ++ [(ev, None)]) a pt port.
Proof.
  intros conf h ev reply a pt port (pre & x & post & t & E & (b & ok & sok & EX & AK) & F).
  destruct post as [|y post] using rev_ind.
  - apply app_inj_tail in E. destruct E as [<- E]. rewrite EX in E. injection E as -> _.
    exists h, b, t, ok, sok, None, []. split; [reflexivity|]. split; [exact AK|]. intros ? ? ? ? ? ? ? [].
  - clear IHpost. replace (pre ++ x :: post ++ [y]) with ((pre ++ x :: post) ++ [y]) in E
      by (rewrite <- app_assoc; reflexivity).
    apply app_inj_tail in E. destruct E as [E <-].
    exists pre, b, t, ok, sok, (Some fw_new_ack), (post ++ [(ev, None)]).
    split; [rewrite E, <- EX, <- app_assoc; reflexivity|]. split; [exact AK|].
    intros now o1 o2 b1 b2 b3 reply' J. apply in_app_or in J. destruct J as [J|[J|[]]].
    + eapply F. apply in_or_app. left. exact J.
    + injection J as -> _. eapply F. apply in_or_app. right. left. reflexivity.
Qed.

Lemma live_requested' : forall conf h a pt port, live_grant conf h a pt port -> live_request conf h a pt port.
Proof.
  intros conf h a pt port (pre & x & post & t & E & (b & ok & sok & EX & AK) & F).
  exists pre, b, t, ok, sok, (Some fw_new_ack), post. rewrite <- EX. auto.
Qed.

Section Host.
Variable c : chain_name.

Definition closed (k : kernel) (p : past) : Prop :=
  forall pk, ip_address (pk_src pk) -> chain_accepts k c pk ->
  (to_control_port (ps_conf p) pk
   \/ exists a pt port, requested (ps_hist p) a pt port /\ permitted_port (ps_conf p) port
      /\ same_host a (pk_src pk) /\ port_covers pt port pk)
  /\ (ps_phase p = PhRun ->
      to_control_port (ps_conf p) pk
      \/ exists a pt port, live_request (ps_conf p) (ps_hist p) a pt port /\ permitted_port (ps_conf p) port
         /\ same_host a (pk_src pk) /\ port_covers pt port pk).

Definition host_inv (s : host) (ps : list past) : Prop :=
  match s with
  | Off k => match ps with p :: _ => closed k p /\ ps_phase p <> PhDead | [] => True end
  | On conf d h => racy_history conf c d h
  end.

Lemma host_inv_holds : forall s ps, host_history c s ps -> host_inv s ps.
Proof.
  intros s ps H.
  induction H as [k|k k' ps H IH R|k ps conf exe ok k' d H IH CC ST|k ps conf exe ok k' e H IH CC ST
    |conf d h ps ev d' reply H IH EV ST|conf d h ps listing k k2 now o1 o2 dok rok k' fw' r H IH PH SH L1 L2 O1 O2 MT
    |conf d h ps H IH|conf d h ps ev d' reply H IH EV ST]; cbn [host_inv] in *.
  - exact I.
  - destruct ps as [|p ps]; [exact I|]. destruct IH as [CL PD]. split; [|exact PD].
    intros pk HS A. apply CL; [exact HS|]. eapply removes_accepts; eassumption.
  - eapply racy_start; eassumption.
  - destruct (start_cases conf k exe ok k' _ ST) as [(d & c' & E & _)|(-> & _)]; [discriminate E|exact IH].
  - eapply racy_step; eassumption.
  - eapply racy_maintain; eassumption.
  - pose proof (racy_inv conf c (racy_configured conf c d h IH) d h IH) as LI. split.
    + intros pk HS A. cbn [ps_conf ps_hist ps_phase]. split.
      * destruct (lossy_accepts_granted conf c d h LI pk HS A) as [X|(a & pt & port & G & X)]; [auto|].
        right. exists a, pt, port. split; [apply granted_requested'; exact G|exact X].
      * intros PH. destruct (lossy_accepts conf c d h LI PH pk HS A) as [X|(a & pt & port & G & X)]; [auto|].
        right. exists a, pt, port. split; [apply live_requested'; exact G|exact X].
    + exact (lossy_never_dead conf c d h LI).
  - assert (racy_history conf c d' (h ++ [(ev, reply)])) as H' by (eapply racy_step; eassumption).
    pose proof (racy_inv conf c (racy_configured conf c _ _ H') _ _ H') as LI. split.
    + intros pk HS A. cbn [ps_conf ps_hist ps_phase]. split.
      * destruct (lossy_accepts_granted conf c d' _ LI pk HS A) as [X|(a & pt & port & G & X)]; [auto|].
        right. exists a, pt, port. split; [eapply granted_requested; exact G|exact X].
      * intros PH. destruct (lossy_accepts conf c d' _ LI PH pk HS A) as [X|(a & pt & port & G & X)]; [auto|].
        right. exists a, pt, port. split; [eapply live_requested; exact G|exact X].
    + exact (lossy_never_dead conf c d' _ LI).
Qed.

Lemma start_exact : forall conf k exe ok k' d, configured_chain conf c -> fw_start conf k exe ok = (k', Ok d) ->
  forall pk, chain_accepts (d_kernel d) c pk <-> traverses c pk /\ to_control_port conf pk.
Proof.
  intros conf k exe ok k' d CC ST pk.
  apply (inv_start conf c CC) in ST. destruct ST as (I & _ & PH & L & _).
  pose proof (i_phase _ _ _ _ I) as IP. unfold phase_inv in IP. rewrite PH in IP. destruct IP as [_ P].
  rewrite accepts_contents. apply and_iff_compat_l. rewrite <- control_accepts. split; intros (w & J & A); exists w.
  - split; [|exact A]. apply (Permutation_in w P) in J. unfold leases in J. rewrite L in J. simpl in J.
    rewrite app_nil_r in J. exact J.
  - split; [|exact A]. apply (Permutation_in w (Permutation_sym P)). apply in_or_app. auto.
Qed.

(** An orderly end. *)
Lemma shutdown_empties : forall conf d h ok d' reply, linv conf c d h -> configured_chain conf c ->
  fw_step conf d (FwShutdown ok) = Some (d', reply) ->
  d_phase d' = PhDown
  /\ ((rules_of c (d_kernel d') = [] /\ rules_elsewhere c (d_kernel d') = rules_elsewhere c (d_kernel d))
      \/ (d_kernel d' = d_kernel d /\ (ok = false \/ has_chain (d_kernel d) c = false))).
Proof.
  intros conf d h ok d' reply I CC ST.
  unfold fw_step, fw_shutdown_op in ST. pose proof (li_phase _ _ _ _ I) as IP. unfold loss_inv in IP.
  assert (fw_shutdown (d_fw d) = false) as SD by (destruct (d_phase d); try discriminate; apply IP).
  rewrite SD in ST.
  destruct (full_rebuild conf (d_kernel d) (Firewall [] true) (fun l => l) ok) as [k1 r1] eqn:RB.
  assert (d' = Daemon k1 (Firewall [] true) (next_phase r1 PhDown PhDown)) as ->
      by (destruct (d_phase d); try discriminate; injection ST as <- <-; reflexivity).
  apply (rebuild_shutdown conf c CC) in RB. cbn [d_phase d_kernel].
  destruct RB as [(-> & E1 & E2 & _)|(-> & (e & ->) & W)]; simpl; auto 6.
Qed.

End Host.
