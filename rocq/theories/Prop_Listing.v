(** C86, C87: the firewall daemon while other programs act between its calls of nft. *)

From Coq Require Import String NArith List Bool Lia Permutation.
From Verif Require Import M_Base M_IpAddr M_FwProto M_ConfTypes M_Server M_Text M_Firewall M_Listing M_IpParse
  S_Wire S_Ip S_Firewall S_Loss S_Listing P_Base P_FwProto P_Text P_IpParse P_Firewall P_Fwd P_FwdProps P_Loss
  P_Listing Prop_Firewall Prop_Loss.
Import ListNotations.
Local Open Scope N_scope.

(** *** C86: what others take out between listing and deletion opens nothing *)

(** While the daemon runs normally, the chain accepts a packet only if it goes to the
    control port or if a request for its source, port and transport was acknowledged
    whose lease time was not over at any maintenance run since.  Others may take rules
    away at any time, also between the calls of nft in one maintenance run. *)
Theorem C86_only_live_grants_are_open :
  forall conf c d h, racy_history conf c d h -> d_phase d = PhRun ->
  forall pk, ip_address (pk_src pk) -> chain_accepts (d_kernel d) c pk ->
  to_control_port conf pk
  \/ exists a pt port, live_grant conf h a pt port /\ permitted_port conf port
     /\ same_host a (pk_src pk) /\ port_covers pt port pk.
Proof.
  intros conf c d h H. exact (lossy_accepts conf c d h (racy_inv conf c (racy_configured conf c d h H) d h H)).
Qed.
Print Assumptions C86_only_live_grants_are_open.

(** In every phase only what was granted at some time is open. *)
Theorem C86_only_granted_is_open :
  forall conf c d h, racy_history conf c d h ->
  forall pk, ip_address (pk_src pk) -> chain_accepts (d_kernel d) c pk ->
  to_control_port conf pk
  \/ exists a pt port, granted h a pt port /\ permitted_port conf port
     /\ same_host a (pk_src pk) /\ port_covers pt port pk.
Proof.
  intros conf c d h H.
  exact (lossy_accepts_granted conf c d h (racy_inv conf c (racy_configured conf c d h H) d h H)).
Qed.
Print Assumptions C86_only_granted_is_open.

(** The daemon never panics. *)
Theorem C86_no_panic :
  forall conf c d h, racy_history conf c d h -> d_phase d <> PhDead.
Proof.
  intros conf c d h H. exact (lossy_never_dead conf c d h (racy_inv conf c (racy_configured conf c d h H) d h H)).
Qed.
Print Assumptions C86_no_panic.

(** The handle found in a listing is that of the first rule of the chain with the
    comment of this address, port and transport, however the listing is arranged; it
    is an error if there is none. *)
Theorem C86_listing_finds_the_rule :
  forall objs k, shows objs k -> forall c a p,
  (forall hd, find_listed objs c a p = Ok hd <->
     exists before r after, rules_of c k = before ++ r :: after
       /\ r_comment r = Some (rule_comment (Some a) p) /\ r_handle r = hd
       /\ forall x, In x before -> r_comment x <> Some (rule_comment (Some a) p))
  /\ ((exists e, find_listed objs c a p = Err e) <->
      forall r, In r (rules_of c k) -> r_comment r <> Some (rule_comment (Some a) p))
  /\ find_listed objs c a p <> Panic.
Proof.
  intros objs k SH c a p. rewrite (find_listed_shows objs k SH), find_handle_filter.
  set (f := fun r => match r_comment r with Some x => list_eqb x (rule_comment (Some a) p) | None => false end).
  assert (forall r, f r = true <-> r_comment r = Some (rule_comment (Some a) p)) as F.
  { intros r. unfold f. destruct (r_comment r) as [x|]; [|split; discriminate].
    rewrite list_eqb_spec. split; congruence. }
  induction (rules_of c k) as [|r rs (IH1 & IH2 & IH3)].
  - cbn [find]. split; [|split; [|discriminate]].
    + intros hd. split; [discriminate|]. intros ([|y b] & r & t & E & _); discriminate.
    + split; [intros _ r []|eauto].
  - cbn [find]. destruct (f r) eqn:E.
    + apply F in E. split; [|split; [|discriminate]].
      * intros hd. split.
        -- intros [= <-]. exists [], r, rs. repeat split; auto.
        -- intros ([|y b] & r' & t & EQ & C & HD & N); injection EQ; intros; subst; [reflexivity|].
           exfalso. apply (N y); [left; reflexivity|exact E].
      * split; [intros (e & [=])|]. intros N. exfalso. apply (N r); [left; reflexivity|exact E].
    + assert (r_comment r <> Some (rule_comment (Some a) p)) as NE by (rewrite <- F; congruence).
      split; [|split; [|exact IH3]].
      * intros hd. rewrite IH1. split.
        -- intros (b & r' & t & EQ & C & HD & N). exists (r :: b), r', t. rewrite EQ. repeat split; auto.
           intros x [<-|J]; auto.
        -- intros ([|y b] & r' & t & EQ & C & HD & N); injection EQ; intros; subst; [contradiction|].
           exists b, r', t. repeat split; auto. intros x J. apply N. right. exact J.
      * rewrite IH2. split; [intros N x [<-|J]; auto|intros N x J; apply N; right; exact J].
Qed.
Print Assumptions C86_listing_finds_the_rule.

(** A maintenance run that nobody interrupts is the single step of the other
    properties of the firewall daemon, ... *)
Theorem C86_uninterrupted_run :
  forall conf listing k fw now o1 o2 dok rok, listing_of listing k ->
  maintain_listed conf listing k k fw now o1 o2 dok rok
  = maintain conf k fw now o1 o2 (listed_ok listing) dok rok.
Proof. exact maintain_listed_atomic. Qed.
Print Assumptions C86_uninterrupted_run.

(** ... and it is, too, if others only change other chains in between. *)
Theorem C86_changes_elsewhere_do_not_matter :
  forall conf c listing k0 k fw now o1 o2 dok rok,
  configured_chain conf c -> listing_of listing k0 -> foreign c k0 k ->
  maintain_listed conf listing k k fw now o1 o2 dok rok
  = maintain conf k fw now o1 o2 (listed_ok listing) dok rok.
Proof. exact maintain_listed_foreign. Qed.
Print Assumptions C86_changes_elsewhere_do_not_matter.

Theorem C86_covers_histories_with_loss :
  forall conf c d h, lossy_history conf c d h -> racy_history conf c d h.
Proof. intros conf c d h H. induction H; econstructor; eassumption. Qed.
Print Assumptions C86_covers_histories_with_loss.

(** Example: the two leases of C84.  Maintenance at 1700 lists the ruleset; then
    somebody takes away the rule of a's lease, which is over; the deletion fails; then
    somebody takes away the rules of b's lease; the rebuild restores them. *)
Definition full_listing (k : kernel) : list listed := LsOther :: map entry (k_rules k) ++ [LsOther].
Definition without (hs : list N) (k : kernel) : kernel :=
  Kernel (k_chains k) (filter (fun r => negb (existsb (N.eqb (r_handle r)) hs)) (k_rules k)) (k_next k).

Lemma family_text_inj : forall f g, family_text f = family_text g -> f = g.
Proof. intros [] [] E; try reflexivity; vm_compute in E; discriminate E. Qed.

Lemma full_listing_shows : forall k, shows (full_listing k) k.
Proof.
  intros k c. unfold full_listing, rules_of. cbn [filter of_chain]. rewrite filter_app. cbn [filter of_chain].
  rewrite app_nil_r. induction (k_rules k) as [|r rs IH]; [reflexivity|]. cbn [map filter].
  assert (of_chain c (entry r) = chain_eqb (r_chain r) c) as E.
  { apply eq_true_iff_eq. rewrite chain_eqb_spec. unfold of_chain, entry.
    rewrite !andb_true_iff, !list_eqb_spec. split.
    - intros [[A B] C]. apply family_text_inj in A. destruct (r_chain r), c; simpl in *; congruence.
    - intros ->. auto. }
  rewrite E. destruct (chain_eqb (r_chain r) c); cbn [map]; rewrite IH; reflexivity.
Qed.

Lemma without_removes : forall c hs k, removes_only c k (without hs k).
Proof.
  intros c hs k. split; [|left; simpl; lia]. unfold rules_of, without. cbn [k_rules].
  exists (filter (fun r => chain_eqb (r_chain r) c)
                 (filter (fun r => existsb (N.eqb (r_handle r)) hs) (k_rules k))).
  induction (k_rules k) as [|r rs IH]; [reflexivity|]. cbn [filter].
  destruct (existsb (N.eqb (r_handle r)) hs); cbn [negb filter]; destruct (chain_eqb (r_chain r) c);
    [|exact IH| |exact IH].
  - rewrite <- Permutation_middle. constructor. exact IH.
  - simpl. constructor. exact IH.
Qed.

Definition race_k0 : kernel := d_kernel (fst (ex_run 2)).
Definition race_result : kernel * firewall * res unit :=
  maintain_listed ex_conf (Some (full_listing race_k0)) (without [7] race_k0) (without [8; 9] (without [7] race_k0))
    (d_fw (fst (ex_run 2))) 1700 same same true true.

Example C86_witness :
  racy_history ex_conf ex_chain (fst (ex_run 2)) (ex_hist 2)
  /\ d_phase (fst (ex_run 2)) = PhRun
  /\ shows (full_listing race_k0) race_k0
  /\ map r_handle (rules_of ex_chain race_k0) = [5; 6; 7; 8; 9]
  /\ removes_only ex_chain race_k0 (without [7] race_k0)
  /\ removes_only ex_chain (without [7] race_k0) (without [8; 9] (without [7] race_k0))
  /\ map r_handle (rules_of ex_chain (without [8; 9] (without [7] race_k0))) = [5; 6]
  /\ snd race_result = Ok tt
  /\ length (rules_of ex_chain (fst (fst race_result))) = 4%nat
  /\ racy_history ex_conf ex_chain
       (Daemon (fst (fst race_result)) (snd (fst race_result)) (next_phase (snd race_result) PhRun PhFatal))
       (ex_hist 2 ++ [(FwMaintain 1700 same same true true true, None)]).
Proof.
  assert (racy_history ex_conf ex_chain (fst (ex_run 2)) (ex_hist 2)) as H.
  { apply C86_covers_histories_with_loss. apply history_lossy. apply ex_history2. }
  split; [exact H|]. split; [vm_compute; reflexivity|]. split; [apply full_listing_shows|].
  split; [vm_compute; reflexivity|]. split; [apply without_removes|]. split; [apply without_removes|].
  split; [vm_compute; reflexivity|]. split; [vm_compute; reflexivity|]. split; [vm_compute; reflexivity|].
  apply (racy_maintain ex_conf ex_chain (fst (ex_run 2)) (ex_hist 2) (Some (full_listing race_k0))
           (without [7] race_k0) (without [8; 9] (without [7] race_k0)) 1700 same same true true).
  - exact H.
  - vm_compute. reflexivity.
  - apply full_listing_shows.
  - apply without_removes.
  - apply without_removes.
  - exact same_perm.
  - exact same_perm.
  - change (race_result = (fst (fst race_result), snd (fst race_result), snd race_result)).
    destruct race_result as [[? ?] ?]. reflexivity.
Qed.

(** *** C87: is a reload of the ruleset between listing and deletion noticed? *)

(** The same rules in the same order, in all chains, with other handles (a saved
    ruleset is loaded again). *)
Definition reloaded (k k' : kernel) : Prop :=
  k_chains k' = k_chains k
  /\ map (fun r => (r_chain r, content r)) (k_rules k') = map (fun r => (r_chain r, content r)) (k_rules k)
  /\ NoDup (map r_handle (k_rules k')) /\ (forall r, In r (k_rules k') -> r_handle r < k_next k').

Definition renumbered (k : kernel) : kernel :=
  Kernel (k_chains k)
         (map (fun r => if chain_eqb (r_chain r) ex_chain
                        then Rule (r_chain r) (r_handle r - 1) (r_comment r) (r_expr r) else r) (k_rules k))
         (k_next k - 1).

Lemma race_asks : asks open_b53 host_b PtTcpUdp 53.
Proof.
  exists (FwMsg FwOpen PtTcpUdp 53 AtIpv6 [32;1;13;184;0;0;0;0;0;0;0;0;0;0;0;1]).
  repeat split; try reflexivity. apply bytes_ok_spec. reflexivity.
Qed.

Definition reload_result : kernel * firewall * res unit :=
  maintain_listed ex_conf (Some (full_listing race_k0)) (renumbered race_k0) (renumbered race_k0)
    (d_fw (fst (ex_run 2))) 1700 (fun l => l) (fun l => l) true true.

Lemma reload_ok : snd reload_result = Ok tt.
Proof. vm_compute. reflexivity. Qed.

Lemma reload_keeps_a : In (Rule ex_chain 6 (Some (rule_comment (Some host_a) (SpTcp 22)))
    [MatchSaddr false (fmt_ipv4 [192; 168; 0; 7]); MatchDport (SpTcp 22); Accept]) (k_rules (fst (fst reload_result))).
Proof. vm_compute. tauto. Qed.

Lemma reload_drops_b : map r_expr (rules_of ex_chain (fst (fst reload_result))) =
  [[MatchDport (SpTcp 5800); Accept]; [MatchDport (SpUdp 5800); Accept];
   [MatchSaddr false (fmt_ipv4 [192; 168; 0; 7]); MatchDport (SpTcp 22); Accept];
   [MatchSaddr true (lit "2001:db8::1"); MatchDport (SpUdp 53); Accept]].
Proof. vm_compute. reflexivity. Qed.

(** No: the handles of the listing may be those of other rules then.  In the example
    the rules of a and b are open when the ruleset is listed; the reload numbers the
    rules anew; a's lease is over, but b's rule is deleted.  Maintenance reports
    success, a's port stays open and b's port is closed although b's lease is alive. *)
Theorem C87_reload_is_noticed_refuted :
  exists conf c d h listing k now k' fw' pk pk' a pt port,
    history conf c d h /\ d_phase d = PhRun
    /\ listing_of listing (d_kernel d) /\ listed_ok listing = true /\ reloaded (d_kernel d) k
    /\ maintain_listed conf listing k k (d_fw d) now (fun l => l) (fun l => l) true true = (k', fw', Ok tt)
    /\ (let h' := h ++ [(FwMaintain now (fun l => l) (fun l => l) true true true, None)] in
        ip_address (pk_src pk) /\ chain_accepts k' c pk /\ ~ to_control_port conf pk
        /\ (forall a pt port, live_grant conf h' a pt port -> ~ same_host a (pk_src pk))
        /\ ip_address (pk_src pk') /\ live_grant conf h' a pt port /\ same_host a (pk_src pk')
        /\ port_covers pt port pk' /\ traverses c pk' /\ ~ chain_accepts k' c pk').
Proof.
  pose (m := FwMaintain 1700 (fun l : list lease => l) (fun l => l) true true true).
  exists ex_conf, ex_chain, (fst (ex_run 2)), (ex_hist 2), (Some (full_listing race_k0)), (renumbered race_k0), 1700,
    (fst (fst reload_result)), (snd (fst reload_result)), (Packet host_a Tcp 22), (Packet host_b Tcp 53),
    host_b, PtTcpUdp, 53.
  split; [exact ex_history2|]. split; [vm_compute; reflexivity|]. split; [apply full_listing_shows|].
  split; [reflexivity|]. split.
  { split; [reflexivity|]. split; [vm_compute; reflexivity|]. split.
    - vm_compute. repeat constructor; simpl; intros J; repeat destruct J as [J|J]; try discriminate J; exact J.
    - intros r J. vm_compute in J. repeat destruct J as [<-|J]; try contradiction; vm_compute; reflexivity. }
  split.
  { change (reload_result = (fst (fst reload_result), snd (fst reload_result), Ok tt)).
    rewrite <- reload_ok. destruct reload_result as [[? ?] ?]. reflexivity. }
  cbv zeta. fold m.
  split; [split; [reflexivity|apply bytes_ok_spec; vm_compute; reflexivity]|].
  split.
  { split; [exact Logic.I|]. eexists. split; [exact reload_keeps_a|]. split; [reflexivity|].
    cbn [r_expr expr_accepts matches pk_src pk_transport pk_dport host_a]. split; [|repeat split; reflexivity].
    exists [192; 168; 0; 7]. split; [reflexivity|].
    apply ipv4_unique; [reflexivity|apply bytes_ok_spec; vm_compute; reflexivity|reflexivity]. }
  split; [intros [E _]; discriminate E|].
  assert (forall pre x post, ex_hist 2 ++ [(m, None)] = pre ++ x :: post ->
    (x = (FwMessage (FwRxBuf open_a22) 1000 true true, Some fw_new_ack) /\ In (m, None) post)
    \/ x = (FwMessage (FwRxBuf open_b53) 1500 true true, Some fw_new_ack) \/ x = (m, None)) as CASES.
  { intros pre x post E.
    change (ex_hist 2 ++ [(m, None)]) with
      [(FwMessage (FwRxBuf open_a22) 1000 true true, Some fw_new_ack);
       (FwMessage (FwRxBuf open_b53) 1500 true true, Some fw_new_ack); (m, None)] in E.
    destruct pre as [|y [|z [|w pre]]]; simpl in E; injection E; intros; subst; auto.
    - left. split; [reflexivity|]. right. left. reflexivity.
    - destruct pre; discriminate. }
  split.
  { intros a pt port (pre & x & post & t & E & (b & ok & sok & EX & AK) & F) SH.
    destruct (CASES pre x post E) as [(X & J)|[X|X]]; rewrite X in EX.
    - injection EX as <- <- <- <-.
      assert (1700 < 1000 + c_nft_timeout ex_conf) as L by (eapply F; exact J).
      vm_compute in L. discriminate L.
    - injection EX as <- <- <- <-.
      assert (all_bytes open_b53) as AB by (apply bytes_ok_spec; vm_compute; reflexivity).
      destruct (asks_decode _ _ _ _ AB AK) as (mm & D & _ & A & _). vm_compute in D. injection D as <-.
      vm_compute in A. injection A as <-. destruct SH as [(o & _ & SH & _)|(SH & _)]; discriminate SH.
    - discriminate EX. }
  split; [split; [reflexivity|apply bytes_ok_spec; vm_compute; reflexivity]|].
  split.
  { exists [(FwMessage (FwRxBuf open_a22) 1000 true true, Some fw_new_ack)],
      (FwMessage (FwRxBuf open_b53) 1500 true true, Some fw_new_ack), [(m, None)], 1500.
    split; [reflexivity|]. split; [exists open_b53, true, true; split; [reflexivity|exact race_asks]|].
    intros now o1 o2 b1 b2 b3 reply [[= <- _ _ _ _ _ _]|[]]. vm_compute. reflexivity. }
  split.
  { right. split; [reflexivity|]. intros o _ E. vm_compute in E. discriminate E. }
  split; [split; [reflexivity|exact Logic.I]|]. split; [exact Logic.I|].
  intros [_ (r & R & C & A)].
  assert (In (r_expr r) (map r_expr (rules_of ex_chain (fst (fst reload_result))))) as J.
  { apply in_map. apply filter_In. split; [exact R|]. apply chain_eqb_spec. exact C. }
  rewrite reload_drops_b in J.
  destruct J as [J|[J|[J|[J|[]]]]]; rewrite <- J in A; cbn [expr_accepts matches pk_src pk_transport pk_dport] in A.
  - destruct A as [[_ X] _]. discriminate X.
  - destruct A as [[X _] _]. discriminate X.
  - destruct A as [(o & X & _) _]. discriminate X.
  - destruct A as [_ [[X _] _]]. discriminate X.
Qed.
Print Assumptions C87_reload_is_noticed_refuted.

(** What remains: if the reload gives every rule of the chain a handle that no rule
    had in the listing, then an expired lease makes the deletion fail, and the
    rebuild of the chain, whatever it contains by then, puts everything right or
    is reported as failed. *)
Theorem C87_fresh_handles_are_noticed_partial :
  forall conf c d h, racy_history conf c d h -> d_phase d = PhRun ->
  forall listing k k2 now o1 o2 dok rok k' fw' r,
  listing_of listing (d_kernel d) ->
  (forall x y, In x (rules_of c k) -> In y (rules_of c (d_kernel d)) -> r_handle x <> r_handle y) ->
  (forall l, Permutation (o1 l) l) -> (forall l, Permutation (o2 l) l) ->
  (exists l, In l (leases d) /\ l_timeout l <= now) ->
  maintain_listed conf listing k k2 (d_fw d) now o1 o2 dok rok = (k', fw', r) ->
  (r = Ok tt /\ mirrors conf c (Daemon k' fw' PhRun)
   /\ forall pk, ip_address (pk_src pk) -> chain_accepts k' c pk ->
      to_control_port conf pk
      \/ exists a pt port,
         live_grant conf (h ++ [(FwMaintain now o1 o2 (listed_ok listing) dok rok, None)]) a pt port
         /\ permitted_port conf port /\ same_host a (pk_src pk) /\ port_covers pt port pk)
  \/ (k' = k2 /\ exists e, r = Err e).
Proof.
  intros conf c d h H PH listing k k2 now o1 o2 dok rok k' fw' r SH NEW O1 O2 EX MT.
  pose proof (racy_configured conf c d h H) as CC.
  destruct (stale_handles_rebuild conf c CC d h listing k k2 now o1 o2 dok rok k' fw' r
              (racy_inv conf c CC d h H) PH SH NEW O1 O2 EX MT) as (_ & [(A & B & I)|R]); [left|right; exact R].
  split; [exact A|]. split; [exact B|]. exact (lossy_accepts conf c _ _ I eq_refl).
Qed.
Print Assumptions C87_fresh_handles_are_noticed_partial.

(** Example: a reload that goes on counting. *)
Definition recounted (k : kernel) : kernel :=
  Kernel (k_chains k) (map (fun r => Rule (r_chain r) (r_handle r + 10) (r_comment r) (r_expr r)) (k_rules k)) 30.
Definition recount_result : kernel * firewall * res unit :=
  maintain_listed ex_conf (Some (full_listing race_k0)) (recounted race_k0) (recounted race_k0)
    (d_fw (fst (ex_run 2))) 1700 same same true true.
Example C87_witness :
  racy_history ex_conf ex_chain (fst (ex_run 2)) (ex_hist 2) /\ d_phase (fst (ex_run 2)) = PhRun
  /\ listing_of (Some (full_listing race_k0)) (d_kernel (fst (ex_run 2)))
  /\ reloaded race_k0 (recounted race_k0)
  /\ (forall x y, In x (rules_of ex_chain (recounted race_k0)) -> In y (rules_of ex_chain race_k0) ->
       r_handle x <> r_handle y)
  /\ (exists l, In l (leases (fst (ex_run 2))) /\ l_timeout l <= 1700)
  /\ snd recount_result = Ok tt
  /\ map r_handle (rules_of ex_chain (fst (fst recount_result))) = [30; 31; 32; 33].
Proof.
  split; [apply C86_witness|]. split; [vm_compute; reflexivity|]. split; [apply full_listing_shows|].
  split.
  { split; [reflexivity|]. split; [vm_compute; reflexivity|]. split.
    - vm_compute. repeat constructor; simpl; intros J; repeat destruct J as [J|J]; try discriminate J; exact J.
    - intros r J. vm_compute in J. repeat destruct J as [<-|J]; try contradiction; vm_compute; reflexivity. }
  split.
  { intros x y X Y E. apply (in_map r_handle) in X. apply (in_map r_handle) in Y. rewrite E in X.
    assert (map r_handle (rules_of ex_chain (recounted race_k0)) = [15; 16; 17; 18; 19]) as EX by (vm_compute; reflexivity).
    assert (map r_handle (rules_of ex_chain race_k0) = [5; 6; 7; 8; 9]) as EY by (vm_compute; reflexivity).
    rewrite EX in X. rewrite EY in Y. simpl in X, Y. lia. }
  split; [|split; vm_compute; reflexivity].
  exists (nth 1 (leases (fst (ex_run 2))) (Lease host_a (LpTcp 0) 0)).
  split; [vm_compute; auto|vm_compute; discriminate].
Qed.
