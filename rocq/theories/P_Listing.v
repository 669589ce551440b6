(** Proofs about listings and maintenance runs that others interrupt (C86, C87). *)

From Coq Require Import String ZArith NArith List Bool Lia Permutation ZifyBool ZifyNat ZifyN.
From Verif Require Import M_Base M_IpAddr M_FwProto M_ConfTypes M_Server M_Text M_Firewall M_Listing
  S_Wire S_Ip S_Firewall S_Loss S_Listing P_Base P_Text P_Firewall P_Fwd P_FwdProps P_Loss.
Import ListNotations.
Local Open Scope N_scope.

(** *** Looking up a rule *)

Lemma find_listed_filter : forall objs c a p,
  find_listed objs c a p = find_listed (filter (of_chain c) objs) c a p.
Proof.
  induction objs as [|x objs IH]; intros c a p; [reflexivity|].
  destruct x as [f t n hd co|]; cbn [find_listed filter of_chain]; [|apply IH].
  destruct (list_eqb f (family_text (cn_family c)) && list_eqb t (cn_table c) && list_eqb n (cn_chain c)) eqn:E.
  - destruct hd as [hd|]; [|cbn [find_listed]; apply IH].
    destruct co as [co|]; [|cbn [find_listed]; apply IH].
    cbn [find_listed]. rewrite E. cbn [andb]. destruct (list_eqb co _); [reflexivity|apply IH].
  - destruct hd as [hd|]; [|apply IH]. destruct co as [co|]; [|apply IH].
    cbn [andb]. apply IH.
Qed.

Lemma find_handle_filter : forall k c a p,
  find_handle k c a p =
  match find (fun r => match r_comment r with
                       | Some x => list_eqb x (rule_comment (Some a) p)
                       | None => false
                       end) (rules_of c k) with
  | Some r => Ok (r_handle r)
  | None => Err "Nftables 'handle' not found in the kernel ruleset."
  end.
Proof.
  intros k c a p. unfold find_handle, rules_of.
  assert (forall rs, find (fun r => chain_eqb (r_chain r) c
             && match r_comment r with Some x => list_eqb x (rule_comment (Some a) p) | None => false end) rs
          = find (fun r => match r_comment r with Some x => list_eqb x (rule_comment (Some a) p) | None => false end)
                 (filter (fun r => chain_eqb (r_chain r) c) rs)) as E.
  { induction rs as [|r rs IH]; [reflexivity|]. cbn [find filter].
    destruct (chain_eqb (r_chain r) c) eqn:C; cbn [andb].
    - cbn [find]. destruct (match r_comment r with Some x => _ | None => false end); [reflexivity|exact IH].
    - exact IH. }
  rewrite E. reflexivity.
Qed.

Lemma find_listed_shows : forall objs k, shows objs k -> forall c a p,
  find_listed objs c a p = find_handle k c a p.
Proof.
  intros objs k SH c a p. rewrite find_listed_filter, find_handle_filter, (SH c).
  assert (forall r, In r (rules_of c k) -> r_chain r = c) as RC.
  { intros r J. apply filter_In in J. apply chain_eqb_spec. apply J. }
  revert RC. induction (rules_of c k) as [|r rs IH]; intros RC; [reflexivity|].
  cbn [map find]. unfold entry at 1. rewrite (RC r (or_introl eq_refl)). cbn [find_listed].
  destruct (r_comment r) as [co|] eqn:CO.
  - rewrite !(proj2 (list_eqb_spec _ _) eq_refl). cbn [andb].
    destruct (list_eqb co _); [reflexivity|]. apply IH. intros r' J. apply RC. right. exact J.
  - apply IH. intros r' J. apply RC. right. exact J.
Qed.

Lemma collect_ext : forall {A B} (f g : A -> res B), (forall x, f x = g x) ->
  forall l, collect f l = collect g l.
Proof.
  intros A B f g E. induction l as [|x l IH]; [reflexivity|]. cbn [collect]. rewrite E, IH. reflexivity.
Qed.

Lemma delete_listed_shows : forall objs k, shows objs k -> forall conf l,
  delete_listed objs conf l = gen_delete_cmds k conf l.
Proof.
  intros objs k SH conf l. unfold delete_listed, gen_delete_cmds.
  destruct (nft_names conf) as [c| |]; [|reflexivity|reflexivity]. cbn [bind].
  apply collect_ext. intros p. rewrite (find_listed_shows objs k SH). reflexivity.
Qed.

(** Without changes in between it is the maintenance run of M_Firewall.v. *)
Lemma maintain_listed_atomic : forall conf listing k fw now o1 o2 dok rok,
  listing_of listing k ->
  maintain_listed conf listing k k fw now o1 o2 dok rok
  = maintain conf k fw now o1 o2 (listed_ok listing) dok rok.
Proof.
  intros conf listing k fw now o1 o2 dok rok SH. unfold maintain_listed, maintain.
  destruct (fw_shutdown fw); [reflexivity|]. destruct (prune (fw_leases fw) now) as [pr rest].
  destruct (o1 pr) as [|l ls]; [reflexivity|].
  assert (remove_listed conf listing k (l :: ls) dok = remove_leases conf k (l :: ls) (listed_ok listing) dok) as E.
  { unfold remove_listed, remove_leases. destruct listing as [objs|]; cbn [listed_ok]; [|reflexivity].
    rewrite (collect_ext _ _ (delete_listed_shows objs k SH conf)). reflexivity. }
  rewrite E. unfold remove_leases. destruct (listed_ok listing); [|reflexivity].
  destruct (collect (gen_delete_cmds k conf) (l :: ls)) as [cmds|e|]; [|reflexivity|reflexivity].
  unfold apply_batch. destruct dok; [|reflexivity]. destruct (run_cmds k (concat cmds)); reflexivity.
Qed.

(** Changes elsewhere do not matter either. *)
Lemma find_handle_foreign : forall c k0 k, foreign c k0 k -> forall a p, find_handle k0 c a p = find_handle k c a p.
Proof. intros c k0 k [E _] a p. rewrite !find_handle_filter, E. reflexivity. Qed.

Lemma gen_delete_foreign : forall conf c k0 k, configured_chain conf c -> foreign c k0 k ->
  forall l, gen_delete_cmds k0 conf l = gen_delete_cmds k conf l.
Proof.
  intros conf c k0 k CC F l. unfold gen_delete_cmds. rewrite (names_ok conf c CC). cbn [bind].
  apply collect_ext. intros p. rewrite (find_handle_foreign c k0 k F). reflexivity.
Qed.

Lemma maintain_listed_foreign : forall conf c listing k0 k fw now o1 o2 dok rok,
  configured_chain conf c -> listing_of listing k0 -> foreign c k0 k ->
  maintain_listed conf listing k k fw now o1 o2 dok rok
  = maintain conf k fw now o1 o2 (listed_ok listing) dok rok.
Proof.
  intros conf c listing k0 k fw now o1 o2 dok rok CC SH F. unfold maintain_listed, maintain.
  destruct (fw_shutdown fw); [reflexivity|]. destruct (prune (fw_leases fw) now) as [pr rest].
  destruct (o1 pr) as [|l ls]; [reflexivity|].
  assert (remove_listed conf listing k (l :: ls) dok = remove_leases conf k (l :: ls) (listed_ok listing) dok) as E.
  { unfold remove_listed, remove_leases. destruct listing as [objs|]; cbn [listed_ok]; [|reflexivity].
    rewrite (collect_ext _ _ (delete_listed_shows objs k0 SH conf)),
            (collect_ext _ _ (gen_delete_foreign conf c k0 k CC F)). reflexivity. }
  rewrite E. unfold remove_leases. destruct (listed_ok listing); [|reflexivity].
  destruct (collect (gen_delete_cmds k conf) (l :: ls)) as [cmds|e|]; [|reflexivity|reflexivity].
  unfold apply_batch. destruct dok; [|reflexivity]. destruct (run_cmds k (concat cmds)); reflexivity.
Qed.

Section Race.

Variable conf : config.
Variable c : chain_name.
Hypothesis CC : configured_chain conf c.

Lemma linv_loses : forall d h k, linv conf c d h -> removes_only c (d_kernel d) k ->
  linv conf c (Daemon k (d_fw d) (d_phase d)) h.
Proof.
  intros d h k I [[gone ER] EN].
  assert (Permutation (contents c (d_kernel d)) (contents c k ++ map content gone)) as EC.
  { unfold contents. rewrite <- map_app. apply Permutation_map. exact ER. }
  split; cbn [d_fw d_kernel].
  - apply (li_lease _ _ _ _ I).
  - destruct EN as [EN|EN]; [|apply handles_ok_empty; exact EN].
    destruct (li_handles _ _ _ _ I) as [ND LT]. split.
    + apply (Permutation_map r_handle) in ER. apply (Permutation_NoDup ER) in ND.
      rewrite map_app in ND. clear - ND. induction (map r_handle (rules_of c k)) as [|x l IH]; [constructor|].
      simpl in ND. inversion ND; subst. constructor; [|auto]. intros J. apply H1. apply in_or_app. auto.
    + intros r J. assert (In r (rules_of c (d_kernel d))) as J'.
      { symmetry in ER. apply (Permutation_in r ER). apply in_or_app. auto. }
      apply LT in J'. lia.
  - intros w J. apply (li_only _ _ _ _ I). symmetry in EC. apply (Permutation_in w EC).
    apply in_or_app. auto.
  - pose proof (li_phase _ _ _ _ I) as IP. unfold loss_inv, leases in *. cbn [d_phase d_fw d_kernel].
    destruct (d_phase d); try exact IP. destruct IP as [SD (miss & IP)]. split; [exact SD|].
    exists (map content gone ++ miss). rewrite app_assoc, <- EC. exact IP.
Qed.

(** Removal with handles that were looked up earlier. *)
Lemma remove_listed_cases : forall listing k0 k ls ok k' r,
  listing_of listing k0 -> known (contents c k0) -> NoDup (map r_handle (rules_of c k0)) ->
  (forall x, In x (rules_of c k) -> In x (rules_of c k0)) -> handles_ok c k ->
  (forall l, In l ls -> ip_address (l_addr l)) ->
  remove_listed conf listing k ls ok = (k', r) ->
  (r = Ok tt /\ handles_ok c k'
   /\ Permutation (contents c k) (flat_map lease_contents ls ++ contents c k'))
  \/ (k' = k /\ exists e, r = Err e).
Proof.
  intros listing k0 k ls ok k' r SH KN ND SUB HK HA H. unfold remove_listed in H.
  destruct ls as [|l ls].
  { injection H as <- <-. left. simpl. auto. }
  set (ls' := l :: ls) in *. destruct listing as [objs|]; [|injection H as <- <-; right; eauto].
  rewrite (collect_ext _ _ (delete_listed_shows objs k0 SH conf)) in H.
  destruct (collect (gen_delete_cmds k0 conf) ls') as [cmds|e|] eqn:C.
  - apply (collect_deletes conf c CC) in C; auto. destruct C as (hw & E1 & E2 & E3).
    rewrite E1 in H. apply apply_batch_cases in H. destruct H as [(-> & R & _)|(-> & X & _)].
    + left. split; [reflexivity|].
      apply (run_deletes c k0 hw k k') in R; auto. rewrite E2 in R. tauto.
    + right. auto.
  - injection H as <- <-. right. eauto.
  - exfalso. eapply (collect_deletes_no_panic conf c CC). exact C.
Qed.

(** The rules after a maintenance run, given what happened to the chain. *)
Lemma linv_maintained : forall d h now o1 o2 lok dok rok k' r,
  linv conf c d h -> d_phase d = PhRun -> handles_ok c k' ->
  let rest := filter (fun x => negb (is_timed_out (snd x) now)) (fw_leases (d_fw d)) in
  ((r = Ok tt /\ Permutation (contents c k') (control_contents conf ++ flat_map lease_contents (map snd rest)))
   \/ (r = Ok tt /\ Permutation (contents c (d_kernel d))
         (flat_map lease_contents (map snd (filter (fun x => is_timed_out (snd x) now) (fw_leases (d_fw d))))
          ++ contents c k'))
   \/ ((exists e, r = Err e) /\ k' = d_kernel d)) ->
  linv conf c (Daemon k' (Firewall rest false) (next_phase r PhRun PhFatal))
       (h ++ [(FwMaintain now o1 o2 lok dok rok, None)]).
Proof.
  intros d h now o1 o2 lok dok rok k' r I PH HK rest R.
  set (ev := FwMaintain now o1 o2 lok dok rok).
  assert (forall ws, only_granted conf c h ws -> only_granted conf c (h ++ [(ev, None)]) ws) as OG.
  { intros ws O w J. destruct (O w J) as [?|G]; [auto|]. right. apply granted_content_snoc. exact G. }
  pose proof (li_phase _ _ _ _ I) as IP. unfold loss_inv in IP. rewrite PH in IP. destruct IP as [SD (miss & MI)].
  assert (forall id l, In (id, l) rest -> lease_ok conf c (h ++ [(ev, None)]) id l) as LK.
  { intros id l J. apply filter_In in J. destruct J as [J TO]. simpl in TO.
    apply lease_ok_snoc; [apply (li_lease _ _ _ _ I); exact J|].
    intros now' o1' o2' b1 b2 b3 rp [= <- <- <- <- <- <- <-]. unfold is_timed_out in TO. lia. }
  split; cbn [d_fw d_kernel fw_leases].
  - exact LK.
  - exact HK.
  - destruct R as [(_ & P)|[(_ & P)|(_ & ->)]].
    + intros w J. apply (Permutation_in w P) in J. apply in_app_or in J. destruct J as [J|J]; [auto|].
      right. apply in_flat_map in J. destruct J as (l & J1 & J2). apply in_map_iff in J1.
      destruct J1 as ([id l'] & E & J1). simpl in E. subst l'.
      eapply lease_granted; [|exact J2]. apply LK. exact J1.
    + intros w J. apply (OG _ (li_only _ _ _ _ I)). symmetry in P. apply (Permutation_in w P).
      apply in_or_app. right. exact J.
    + apply OG. apply I.
  - unfold loss_inv, leases. cbn [d_phase d_fw d_kernel fw_leases fw_shutdown].
    destruct R as [(-> & P)|[(-> & P)|((e & ->) & ->)]]; cbn [next_phase]; [| |reflexivity];
      (split; [reflexivity|]).
    + exists []. rewrite app_nil_r. exact P.
    + exists miss. unfold leases in MI. rewrite (partition_leases (fw_leases (d_fw d)) now), P in MI.
      apply (drop_common _ _ _ _ _ _ MI).
Qed.

Lemma linv_race : forall d h listing k k2 now o1 o2 dok rok k' fw' r,
  linv conf c d h -> d_phase d = PhRun ->
  listing_of listing (d_kernel d) -> removes_only c (d_kernel d) k -> removes_only c k k2 ->
  (forall l, Permutation (o1 l) l) -> (forall l, Permutation (o2 l) l) ->
  maintain_listed conf listing k k2 (d_fw d) now o1 o2 dok rok = (k', fw', r) ->
  linv conf c (Daemon k' fw' (next_phase r PhRun PhFatal))
       (h ++ [(FwMaintain now o1 o2 (listed_ok listing) dok rok, None)]).
Proof.
  intros d h listing k k2 now o1 o2 dok rok k' fw' r I PH SH L1 L2 ORD1 ORD2 H.
  pose proof (linv_loses d h k I L1) as I1. rewrite PH in I1.
  pose proof (linv_loses _ h k2 I1 L2) as I2. cbn [d_fw d_phase] in I2.
  pose proof (li_phase _ _ _ _ I) as IP. unfold loss_inv in IP. rewrite PH in IP.
  destruct IP as [SD _]. unfold maintain_listed in H. rewrite SD in H. unfold prune in H.
  set (m := fw_leases (d_fw d)) in *.
  set (rest := filter (fun x => negb (is_timed_out (snd x) now)) m) in *.
  set (out := map snd (filter (fun x => is_timed_out (snd x) now) m)) in *.
  assert (Permutation (flat_map lease_contents out) (flat_map lease_contents (o1 out))) as SPL
    by (rewrite (Permutation_flat_map lease_contents (ORD1 out)); reflexivity).
  assert (forall l, In l (o1 out) -> exists id, In (id, l) m) as INM.
  { intros l J. apply (Permutation_in l (ORD1 out)) in J. apply in_map_iff in J.
    destruct J as ([id l'] & E & J). simpl in E. subst l'. apply filter_In in J. exists id. apply J. }
  destruct (o1 out) as [|l0 ls0] eqn:EO.
  - injection H as <- <- <-.
    apply (linv_maintained (Daemon k (d_fw d) PhRun) h now o1 o2 (listed_ok listing) dok rok k (Ok tt)); auto.
    + apply I1.
    + right. left. split; [reflexivity|]. cbn [d_fw d_kernel]. fold m. fold out. rewrite SPL. reflexivity.
  - set (ls := l0 :: ls0) in *.
    destruct (remove_listed conf listing k ls dok) as [k1 r1] eqn:RM.
    apply (remove_listed_cases listing (d_kernel d)) in RM; auto.
    + destruct RM as [(-> & A1 & A2)|(-> & (e & ->))].
      * injection H as <- <- <-.
        apply (linv_maintained (Daemon k (d_fw d) PhRun) h now o1 o2 (listed_ok listing) dok rok k1 (Ok tt)); auto.
        right. left. split; [reflexivity|]. cbn [d_fw d_kernel]. fold m. fold out. rewrite SPL. exact A2.
      * destruct (full_rebuild conf k2 (Firewall rest false) o2 rok) as [k3 r3] eqn:RB.
        injection H as <- <- <-.
        apply (rebuild_running conf c CC) in RB.
        -- destruct RB as [(-> & B1 & B2 & B3 & B4)|(-> & E & W)].
           ++ apply (linv_maintained (Daemon k2 (d_fw d) PhRun) h now o1 o2 (listed_ok listing) dok rok k3 (Ok tt)); auto.
           ++ apply (linv_maintained (Daemon k2 (d_fw d) PhRun) h now o1 o2 (listed_ok listing) dok rok k2 r3); auto.
              apply I2.
        -- intros l J. apply in_map_iff in J. destruct J as ([id l'] & E & J). simpl in E. subst l'.
           apply filter_In in J. destruct J as [J _].
           destruct (li_lease _ _ _ _ I id l J) as (_ & _ & SU & _). exact SU.
        -- exact ORD2.
    + eapply only_known. apply (li_only _ _ _ _ I).
    + apply (li_handles _ _ _ _ I).
    + intros x J. destruct L1 as [[gone ER] _]. symmetry in ER. apply (Permutation_in x ER). apply in_or_app. auto.
    + apply (li_handles _ _ _ _ I1).
    + intros l J. destruct (INM l J) as [id J']. destruct (li_lease _ _ _ _ I id l J') as (_ & IA & _). exact IA.
Qed.

Lemma racy_inv : forall d h, racy_history conf c d h -> linv conf c d h.
Proof.
  intros d h H. induction H as [k exe ok k' d _ ST|d h ev d' reply H IH EV ST|
    d h listing k k2 now o1 o2 dok rok k' fw' r H IH PH SH L1 L2 O1 O2 MT].
  - eapply (linv_start conf c CC). exact ST.
  - eapply (linv_step conf c CC); eassumption.
  - eapply linv_race; eassumption.
Qed.

(** Handles that are not in the ruleset any more: the chain is rebuilt. *)
Lemma stale_handles_rebuild : forall d h listing k k2 now o1 o2 dok rok k' fw' r,
  linv conf c d h -> d_phase d = PhRun -> listing_of listing (d_kernel d) ->
  (forall x y, In x (rules_of c k) -> In y (rules_of c (d_kernel d)) -> r_handle x <> r_handle y) ->
  (forall l, Permutation (o1 l) l) -> (forall l, Permutation (o2 l) l) ->
  (exists l, In l (leases d) /\ l_timeout l <= now) ->
  maintain_listed conf listing k k2 (d_fw d) now o1 o2 dok rok = (k', fw', r) ->
  fw' = Firewall (filter (fun x => negb (is_timed_out (snd x) now)) (fw_leases (d_fw d))) false
  /\ ((r = Ok tt /\ mirrors conf c (Daemon k' fw' PhRun)
       /\ linv conf c (Daemon k' fw' PhRun) (h ++ [(FwMaintain now o1 o2 (listed_ok listing) dok rok, None)]))
      \/ (k' = k2 /\ exists e, r = Err e)).
Proof.
  intros d h listing k k2 now o1 o2 dok rok k' fw' r I PH SH NEW ORD1 ORD2 (l & J & TO) H.
  pose proof (li_phase _ _ _ _ I) as IP. unfold loss_inv in IP. rewrite PH in IP.
  destruct IP as [SD _]. unfold maintain_listed in H. rewrite SD in H. unfold prune in H.
  set (m := fw_leases (d_fw d)) in *.
  set (rest := filter (fun x => negb (is_timed_out (snd x) now)) m) in *.
  set (out := map snd (filter (fun x => is_timed_out (snd x) now) m)) in *.
  assert (In l (o1 out)) as JO.
  { apply (Permutation_in l (Permutation_sym (ORD1 out))). unfold leases in J. apply in_map_iff in J.
    destruct J as ([id l'] & E & J). simpl in E. subst l'. apply in_map_iff. exists (id, l). split; [reflexivity|].
    apply filter_In. split; [exact J|]. unfold is_timed_out. cbn [snd]. lia. }
  assert (forall l, In l (o1 out) -> exists id, In (id, l) m) as INM.
  { clear l J TO JO. intros l J. apply (Permutation_in l (ORD1 out)) in J. apply in_map_iff in J.
    destruct J as ([id l'] & E & J). simpl in E. subst l'. apply filter_In in J. exists id. apply J. }
  destruct (o1 out) as [|l0 ls0] eqn:EO; [destruct JO|].
  set (ls := l0 :: ls0) in *.
  destruct (remove_listed conf listing k ls dok) as [k1 r1] eqn:RM.
  assert (exists e, r1 = Err e) as (e & ->).
  { unfold remove_listed in RM. unfold ls in RM. destruct listing as [objs|]; [|injection RM as <- <-; eauto].
    rewrite (collect_ext _ _ (delete_listed_shows objs (d_kernel d) SH conf)) in RM.
    destruct (collect (gen_delete_cmds (d_kernel d) conf) (l0 :: ls0)) as [cmds|e|] eqn:C.
    - apply (collect_deletes conf c CC) in C.
      + destruct C as (hw & E1 & E2 & E3). rewrite E1 in RM. apply apply_batch_cases in RM.
        destruct RM as [(-> & R & _)|(-> & X & _)]; [|exact X]. exfalso.
        destruct hw as [|[hd w] hw].
        { simpl in E2. destruct l0 as [a0 [p0|p0|p0] t0]; discriminate E2. }
        cbn [map run_cmds] in R. destruct (E3 hd w (or_introl eq_refl)) as (x & X1 & X2 & X3).
        unfold run_cmd in R. cbn [fst] in R.
        destruct (existsb _ (k_rules k)) eqn:EX in R; [|discriminate R].
        apply existsb_exists in EX. destruct EX as (y & Y1 & Y2).
        apply andb_true_iff in Y2. destruct Y2 as [Y2 Y3].
        apply (NEW y x); [apply filter_In; split; assumption|exact X1|].
        rewrite X2. lia.
      + eapply only_known. apply (li_only _ _ _ _ I).
      + intros l1 J1. destruct (INM l1 J1) as [id J']. destruct (li_lease _ _ _ _ I id l1 J') as (_ & IA & _). exact IA.
    - injection RM as <- <-. eauto.
    - exfalso. eapply (collect_deletes_no_panic conf c CC). exact C. }
  destruct (full_rebuild conf k2 (Firewall rest false) o2 rok) as [k3 r3] eqn:RB.
  injection H as <- <- <-. split; [reflexivity|].
  apply (rebuild_running conf c CC) in RB.
  - destruct RB as [(-> & B1 & B2 & B3 & B4)|(-> & E & W)]; [left|right; auto].
    split; [reflexivity|]. split; [exact B2|].
    apply (linv_maintained d h now o1 o2 (listed_ok listing) dok rok k3 (Ok tt)); auto.
  - intros l1 J1. apply in_map_iff in J1. destruct J1 as ([id l'] & E & J1). simpl in E. subst l'.
    apply filter_In in J1. destruct J1 as [J1 _].
    destruct (li_lease _ _ _ _ I id l1 J1) as (_ & _ & SU & _). exact SU.
  - exact ORD2.
Qed.

End Race.

Lemma racy_configured : forall conf c d h, racy_history conf c d h -> configured_chain conf c.
Proof. induction 1; assumption. Qed.
