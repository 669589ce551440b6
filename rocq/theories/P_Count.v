(** Proofs about the number of rules. *)

From Coq Require Import String NArith List Bool ZArith Lia ZifyBool ZifyNat ZifyN Permutation.
From Verif Require Import M_Base M_IpAddr M_FwProto M_ConfTypes M_Server M_Text M_Firewall
  M_IpParse S_Wire S_Ip S_Firewall S_Count P_Base P_FwProto P_Firewall P_Fwd P_FwdProps.
Import ListNotations.
Local Open Scope nat_scope.

(** The grant that a lease comes from. *)
Definition grant_of (l : lease) : grant :=
  match l_port l with
  | LpTcp p => (l_addr l, PtTcp, p)
  | LpUdp p => (l_addr l, PtUdp, p)
  | LpTcpUdp p => (l_addr l, PtTcpUdp, p)
  end.

Lemma grant_of_inj : forall l l', grant_of l = grant_of l' -> (l_addr l, l_port l) = (l_addr l', l_port l').
Proof. intros [a [p|p|p] t] [a' [p'|p'|p'] t']; unfold grant_of; simpl; congruence. Qed.

Lemma lease_contents_count : forall l, length (lease_contents l) = grant_rule_count (grant_of l).
Proof. intros l. rewrite lease_contents_want, map_length. destruct l as [a [p|p|p] t]; reflexivity. Qed.

Lemma leases_contents_count : forall ls,
  length (flat_map lease_contents ls) = list_sum (map grant_rule_count (map grant_of ls)).
Proof.
  induction ls as [|l ls IH]; [reflexivity|]. simpl. rewrite app_length, IH, lease_contents_count. reflexivity.
Qed.

Lemma control_contents_count : forall conf, length (control_contents conf) = control_rule_count conf.
Proof.
  intros conf. rewrite control_contents_want, map_length. unfold ctrl_ports, control_rule_count.
  destruct (cp_tcp _), (cp_udp _); reflexivity.
Qed.

Lemma list_sum_perm : forall l l', Permutation l l' -> list_sum l = list_sum l'.
Proof. induction 1; simpl; lia. Qed.

Lemma list_sum_incl : forall (A : Type) (f : A -> nat) l m, NoDup l -> incl l m ->
  list_sum (map f l) <= list_sum (map f m).
Proof.
  intros A f l. induction l as [|x l IH]; intros m ND IN; [simpl; lia|].
  inversion ND as [|? ? NI ND']; subst.
  destruct (in_split x m (IN x (or_introl eq_refl))) as (m1 & m2 & ->).
  assert (incl l (m1 ++ m2)) as IN'.
  { intros y Y. assert (In y (m1 ++ x :: m2)) as J by (apply IN; right; exact Y).
    apply in_app_or in J. apply in_or_app. destruct J as [J|[J|J]]; auto. subst y. contradiction. }
  specialize (IH _ ND' IN'). rewrite map_app, list_sum_app in IH.
  rewrite map_app, list_sum_app. simpl. lia.
Qed.

Section Count.
Variable conf : config.
Variable c : chain_name.

Lemma grants_nodup : forall d h, history conf c d h -> NoDup (map grant_of (leases d)).
Proof.
  intros d h H. pose proof (history_configured conf c d h H) as CC.
  pose proof (lease_keys_nodup conf c d h H) as ND.
  pose proof (i_lease _ _ _ _ (history_inv conf c CC d h H)) as IL.
  unfold leases. induction (fw_leases (d_fw d)) as [|[id l] m IH]; [constructor|].
  simpl in ND |- *. inversion ND as [|? ? NI ND']; subst. constructor.
  - intros J. apply in_map_iff in J. destruct J as (l' & E & J). apply in_map_iff in J.
    destruct J as ([id' l''] & E' & J). simpl in E'. subst l''.
    apply NI. apply in_map_iff. exists (id', l'). split; [|exact J]. simpl.
    destruct (IL id' l' (or_intror J)) as (-> & _). destruct (IL id l (or_introl eq_refl)) as (-> & _).
    apply grant_of_inj. exact E.
  - apply IH; [exact ND'|]. intros id' l' J. apply IL. right. exact J.
Qed.

Lemma grants_live : forall d h, history conf c d h -> clock_monotone h -> serving d ->
  forall a pt port, In (a, pt, port) (map grant_of (leases d)) <-> live_grant conf h a pt port.
Proof.
  intros d h H CM SV a pt port. rewrite <- (lease_iff_live conf c d h H CM SV a pt port).
  rewrite in_map_iff. split.
  - intros ([a' [p|p|p] t] & E & J); unfold grant_of in E; simpl in E; injection E as <- <- <-;
      eexists; (split; [exact J|]); split; reflexivity.
  - intros ([a' q t] & J & E & P). simpl in E, P. subst a' q.
    exists (Lease a (match pt with PtTcp => LpTcp port | PtUdp => LpUdp port | PtTcpUdp => LpTcpUdp port end) t).
    split; [|exact J]. destruct pt; reflexivity.
Qed.

Lemma lease_rule_count : forall d h, history conf c d h -> d_phase d = PhRun ->
  length (rules_of c (d_kernel d))
  = control_rule_count conf + list_sum (map grant_rule_count (map grant_of (leases d))).
Proof.
  intros d h H PH. pose proof (history_configured conf c d h H) as CC.
  pose proof (i_phase _ _ _ _ (history_inv conf c CC d h H)) as IP. unfold phase_inv in IP.
  rewrite PH in IP. assert (mirrors conf c d) as MI by apply IP.
  apply Permutation_length in MI. rewrite map_length, app_length in MI.
  rewrite MI, control_contents_count, leases_contents_count. reflexivity.
Qed.

Lemma rule_count_exact : forall d h, history conf c d h -> clock_monotone h -> d_phase d = PhRun ->
  forall gs, NoDup gs -> (forall a pt port, In (a, pt, port) gs <-> live_grant conf h a pt port) ->
  length (rules_of c (d_kernel d)) = control_rule_count conf + list_sum (map grant_rule_count gs).
Proof.
  intros d h H CM PH gs ND GS. rewrite (lease_rule_count d h H PH). f_equal.
  apply list_sum_perm. apply Permutation_map. apply NoDup_Permutation.
  - eapply grants_nodup. exact H.
  - exact ND.
  - intros [[a pt] port]. rewrite GS. apply grants_live; [exact H|exact CM|left; exact PH].
Qed.

(** Everything that can be granted to the hosts. *)
Definition all_grants (hosts : list ip) (ports : list N) : list grant :=
  flat_map (fun a => flat_map (fun p => [(a, PtTcp, p); (a, PtUdp, p); (a, PtTcpUdp, p)] : list grant) ports) hosts.

Lemma all_grants_count : forall hosts ports,
  list_sum (map grant_rule_count (all_grants hosts ports)) = 4 * (length hosts * length ports).
Proof.
  intros hosts ports. unfold all_grants.
  assert (forall a, list_sum (map grant_rule_count
     (flat_map (fun p => [(a, PtTcp, p); (a, PtUdp, p); (a, PtTcpUdp, p)] : list grant) ports)) = 4 * length ports) as ONE.
  { intros a. induction ports as [|p ps IH]; [reflexivity|].
    cbn [flat_map]. rewrite map_app, list_sum_app, IH. cbn. lia. }
  induction hosts as [|a hs IH]; [reflexivity|].
  cbn [flat_map length]. rewrite map_app, list_sum_app, IH, ONE. lia.
Qed.

Lemma live_permitted : forall d h, history conf c d h -> clock_monotone h -> serving d ->
  forall a pt port, live_grant conf h a pt port -> permitted_port conf port.
Proof.
  intros d h H CM SV a pt port L. pose proof (history_configured conf c d h H) as CC.
  apply (lease_iff_live conf c d h H CM SV a pt port) in L. destruct L as (l & J & _ & P).
  unfold leases in J. apply in_map_iff in J. destruct J as ([id l'] & E & J). simpl in E. subst l'.
  destruct (i_lease _ _ _ _ (history_inv conf c CC d h H) id l J)
    as (_ & _ & _ & pre & x & post & t & pt' & port' & _ & _ & P' & _ & PP & _).
  rewrite P in P'. assert (port = port') as -> by (destruct pt, pt'; simpl in P'; congruence). exact PP.
Qed.

Lemma rule_count_bounded : forall d h, history conf c d h -> clock_monotone h -> d_phase d = PhRun ->
  forall hosts, (forall a pt port, live_grant conf h a pt port -> In a hosts) ->
  length (rules_of c (d_kernel d)) <= 2 + 4 * (length hosts * length (c_resources conf)).
Proof.
  intros d h H CM PH hosts HS. rewrite (lease_rule_count d h H PH).
  assert (control_rule_count conf <= 2) as C2
    by (unfold control_rule_count; destruct (cp_tcp _), (cp_udp _); lia).
  pose proof (list_sum_incl _ grant_rule_count (map grant_of (leases d))
    (all_grants hosts (map (fun x => rs_port (snd x)) (c_resources conf))) (grants_nodup d h H)) as B.
  rewrite all_grants_count, map_length in B.
  assert (incl (map grant_of (leases d))
    (all_grants hosts (map (fun x => rs_port (snd x)) (c_resources conf)))) as IN.
  { intros [[a pt] port] J. apply (grants_live d h H CM (or_introl PH)) in J.
    destruct (live_permitted d h H CM (or_introl PH) _ _ _ J) as (_ & id & r & R & E).
    unfold all_grants. apply in_flat_map. exists a. split; [eapply HS; exact J|].
    apply in_flat_map. exists port. split.
    - apply in_map_iff. exists (id, r). split; [exact E|exact R].
    - destruct pt; simpl; auto. }
  specialize (B IN). lia.
Qed.

End Count.
