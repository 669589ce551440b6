(** The firewall daemon while others take rules out of its chain. *)

From Coq Require Import String ZArith NArith List Bool Lia ZifyBool ZifyNat ZifyN Permutation.
From Verif Require Import M_Base M_IpAddr M_FwProto M_ConfTypes M_Server M_Text M_Firewall
  S_Wire S_Ip S_Firewall S_Loss P_Base P_FwProto P_Text P_IpParse P_IpFmt P_Firewall P_Fwd P_FwdProps.
Import ListNotations.
Local Open Scope N_scope.

Section Daemon.
Variable conf : config.
Variable c : chain_name.

Lemma lossy_configured : forall d h, lossy_history conf c d h -> configured_chain conf c.
Proof. intros d h H. induction H; auto. Qed.

(** Others that leave the chain alone are a special case. *)
Lemma foreign_removes_only : forall k k', foreign c k k' -> removes_only c k k'.
Proof.
  intros k k' [E N]. split; [|left; exact N]. exists []. rewrite app_nil_r, E. reflexivity.
Qed.

Lemma history_lossy : forall d h, history conf c d h -> lossy_history conf c d h.
Proof.
  intros d h H. induction H as [k exe ok k' d CC ST|d h ev d' reply H IH EV ST].
  - econstructor; eassumption.
  - econstructor; [exact IH| |exact ST]. destruct ev; try exact EV.
    apply foreign_removes_only. exact EV.
Qed.

Hypothesis CC : configured_chain conf c.

(** [miss]: the rules that others took away; [extra]: the rules that a failed
    maintenance left behind. *)
Definition loss_inv (d : daemon) : Prop :=
  match d_phase d with
  | PhRun => fw_shutdown (d_fw d) = false
      /\ exists miss, Permutation (contents c (d_kernel d) ++ miss)
                        (control_contents conf ++ flat_map lease_contents (leases d))
  | PhFatal => fw_shutdown (d_fw d) = false
  | PhDown => fw_shutdown (d_fw d) = true /\ fw_leases (d_fw d) = []
  | PhDead => False
  end.

Record linv (d : daemon) (h : hist) : Prop := {
  li_lease : forall id l, In (id, l) (fw_leases (d_fw d)) -> lease_ok conf c h id l;
  li_handles : handles_ok c (d_kernel d);
  li_only : only_granted conf c h (contents c (d_kernel d));
  li_phase : loss_inv d
}.

Lemma lossy_maintain_cases : forall d h now o1 o2 lok dok rok k' fw' r,
  linv d h -> d_phase d = PhRun ->
  (forall l, Permutation (o1 l) l) -> (forall l, Permutation (o2 l) l) ->
  maintain conf (d_kernel d) (d_fw d) now o1 o2 lok dok rok = (k', fw', r) ->
  fw' = Firewall (filter (fun x => negb (is_timed_out (snd x) now)) (fw_leases (d_fw d))) false
  /\ handles_ok c k'
  /\ ((r = Ok tt
       /\ Permutation (contents c k') (control_contents conf ++ flat_map lease_contents (map snd (fw_leases fw'))))
      \/ (r = Ok tt /\ Permutation (contents c (d_kernel d))
            (flat_map lease_contents (map snd (filter (fun x => is_timed_out (snd x) now) (fw_leases (d_fw d))))
             ++ contents c k'))
      \/ ((exists e, r = Err e) /\ k' = d_kernel d
          /\ (rok = false \/ has_chain (d_kernel d) c = false))).
Proof.
  intros d h now o1 o2 lok dok rok k' fw' r I PH ORD1 ORD2 H.
  pose proof (li_phase _ _ I) as IP. unfold loss_inv in IP. rewrite PH in IP.
  destruct IP as [SD _]. unfold maintain in H. rewrite SD in H. unfold prune in H.
  set (m := fw_leases (d_fw d)) in *. set (k := d_kernel d) in *.
  set (rest := filter (fun x => negb (is_timed_out (snd x) now)) m) in *.
  set (out := map snd (filter (fun x => is_timed_out (snd x) now) m)) in *.
  assert (Permutation (flat_map lease_contents out) (flat_map lease_contents (o1 out))) as SPL
    by (rewrite (Permutation_flat_map lease_contents (ORD1 out)); reflexivity).
  assert (forall l, In l (o1 out) -> exists id, In (id, l) m) as INM.
  { intros l J. apply (Permutation_in l (ORD1 out)) in J. apply in_map_iff in J.
    destruct J as ([id l'] & E & J). simpl in E. subst l'. apply filter_In in J. exists id. apply J. }
  destruct (o1 out) as [|l0 ls0] eqn:EO.
  - injection H as <- <- <-. split; [reflexivity|]. split; [apply I|].
    right. left. split; [reflexivity|]. rewrite SPL. reflexivity.
  - set (ls := l0 :: ls0) in *.
    destruct (remove_leases conf k ls lok dok) as [k1 r1] eqn:RM.
    apply (remove_leases_cases conf c CC) in RM.
    + destruct RM as [(-> & A1 & A2 & A3 & A4)|(-> & (e & ->))].
      * injection H as <- <- <-. split; [reflexivity|]. split; [exact A1|].
        right. left. split; [reflexivity|]. rewrite SPL. exact A2.
      * destruct (full_rebuild conf k (Firewall rest false) o2 rok) as [k2 r2] eqn:RB.
        injection H as <- <- <-.
        apply (rebuild_running conf c CC) in RB.
        -- destruct RB as [(-> & B1 & B2 & B3 & B4)|(-> & E & W)].
           ++ split; [reflexivity|]. split; [exact B1|]. left. split; [reflexivity|exact B2].
           ++ split; [reflexivity|]. split; [apply I|]. right. right. auto.
        -- intros l J. apply in_map_iff in J. destruct J as ([id l'] & E & J). simpl in E. subst l'.
           apply filter_In in J. destruct J as [J _].
           destruct (li_lease _ _ I id l J) as (_ & _ & SU & _). exact SU.
        -- exact ORD2.
    + eapply only_known. apply I.
    + apply I.
    + intros l J. destruct (INM l J) as [id J']. apply (li_lease _ _ I id l J').
Qed.

Lemma partition_leases : forall m now,
  Permutation (flat_map lease_contents (map snd m))
    (flat_map lease_contents (map snd (filter (fun x : lease_id * lease => is_timed_out (snd x) now) m))
     ++ flat_map lease_contents (map snd (filter (fun x => negb (is_timed_out (snd x) now)) m))).
Proof.
  intros m now. rewrite <- flat_map_app. apply Permutation_flat_map. rewrite <- map_app.
  apply Permutation_map. apply partition_perm.
Qed.

Lemma drop_common : forall (A : Type) (out k miss ctrl rest : list A),
  Permutation ((out ++ k) ++ miss) (ctrl ++ out ++ rest) -> Permutation (k ++ miss) (ctrl ++ rest).
Proof.
  intros A out k miss ctrl rest H. rewrite <- app_assoc in H.
  apply (Permutation_app_inv_l out). rewrite H, !app_assoc.
  apply Permutation_app_tail. apply Permutation_app_comm.
Qed.

Lemma linv_start : forall k exe ok k' d, fw_start conf k exe ok = (k', Ok d) -> linv d [].
Proof.
  intros k exe ok k' d H. apply (inv_start conf c CC) in H. destruct H as (I & _ & PH & _).
  split; try apply I. unfold loss_inv. pose proof (i_phase _ _ _ _ I) as IP. unfold phase_inv in IP.
  rewrite PH in *. destruct IP as [SD P]. split; [exact SD|]. exists []. rewrite app_nil_r. exact P.
Qed.

Lemma message_step : forall d r now ok sok d' reply,
  loss_inv d -> fw_step conf d (FwMessage r now ok sok) = Some (d', reply) ->
  (d_phase d = PhRun \/ d_phase d = PhFatal) /\ fw_shutdown (d_fw d) = false
  /\ exists k1 fw1 res, handle_message conf (d_kernel d) (d_fw d) r now ok sok = (k1, fw1, reply, res)
     /\ d' = Daemon k1 fw1 (next_phase res (d_phase d) (d_phase d)).
Proof.
  intros d r now ok sok d' reply I ST. unfold loss_inv in I. unfold fw_step in ST.
  destruct (d_phase d) eqn:EP; try discriminate;
    destruct (handle_message conf (d_kernel d) (d_fw d) r now ok sok) as [[[k1 fw1] reply1] res1] eqn:HM;
    injection ST as <- <-; (split; [auto|]); (split; [apply I|]); exists k1, fw1, res1; auto.
Qed.

Lemma linv_step : forall d h ev d' reply, linv d h -> lossy_event c d ev ->
  fw_step conf d ev = Some (d', reply) -> linv d' (h ++ [(ev, reply)]).
Proof.
  intros d h ev d' reply I EV ST.
  assert (forall ws, only_granted conf c h ws -> only_granted conf c (h ++ [(ev, reply)]) ws) as OG.
  { intros ws O w J. destruct (O w J) as [?|G]; [auto|]. right. apply granted_content_snoc. exact G. }
  assert ((forall now o1 o2 b1 b2 b3, ev <> FwMaintain now o1 o2 b1 b2 b3) ->
          forall id l, lease_ok conf c h id l -> lease_ok conf c (h ++ [(ev, reply)]) id l) as LS.
  { intros NM id l L. apply lease_ok_snoc; [exact L|]. intros n2 q1 q2 b1 b2 b3 rp E.
    exfalso. injection E as E _. exact (NM _ _ _ _ _ _ E). }
  destruct ev as [r now ok sok|now o1 o2 lok dok rok|ok|k].
  - (* message *)
    assert (forall now2 o1 o2 b1 b2 b3, FwMessage r now ok sok <> FwMaintain now2 o1 o2 b1 b2 b3) as NM
      by (intros; discriminate).
    destruct (message_step _ _ _ _ _ _ _ (li_phase _ _ I) ST) as (PH & SD & k1 & fw1 & res & HM & ED).
    clear ST. pose proof HM as MC. apply (message_cases conf c CC) in MC; auto.
    2:{ apply I. }
    2:{ intros b ->. exact EV. }
    destruct MC as [(-> & -> & _ & NP & _)|(b & a & t & port & -> & AK & IA & PL & PP & OP & -> & NP)].
    + assert (next_phase res (d_phase d) (d_phase d) = d_phase d) as EP by (destruct res; simpl; congruence).
      rewrite ED, EP. split; cbn [d_fw d_kernel].
      * intros id l J. apply LS; [exact NM|]. apply (li_lease _ _ I). exact J.
      * apply I.
      * apply OG. apply I.
      * pose proof (li_phase _ _ I) as IP. unfold loss_inv, leases in *. cbn [d_phase d_fw d_kernel]. exact IP.
    + assert (next_phase res (d_phase d) (d_phase d) = d_phase d) as EP by (destruct res; simpl; congruence).
      rewrite EP in ED.
      assert (acked (FwMessage (FwRxBuf b) now ok sok, Some fw_new_ack) now a t port) as ACK
        by (exists b, ok, sok; auto).
      assert (forall l, supported c a -> l = Lease a (lease_port_of t port) (now + c_nft_timeout conf) ->
              lease_ok conf c (h ++ [(FwMessage (FwRxBuf b) now ok sok, Some fw_new_ack)])
                       (a, lease_port_of t port) l) as NEW.
      { intros l SU ->. split; [reflexivity|]. split; [exact IA|]. split; [exact SU|].
        eexists h, _, [], now, t, port. split; [reflexivity|]. split; [exact ACK|].
        split; [reflexivity|]. split; [reflexivity|]. split; [exact PP|]. intros ? ? ? ? ? ? ? []. }
      apply (open_port_cases conf c CC) in OP; [|exact SD|apply I|rewrite lp_number_of; apply PP].
      destruct OP as [(_ & -> & m & -> & U)|[(_ & NI & -> & SU & HK & CO & _ & _)|(_ & _ & (e & E) & _)]];
        [| |discriminate].
      * pose proof (map_update_some _ _ _ _ U) as (_ & U2 & _).
        pose proof (map_update_contents _ _ _ _ _ U) as UC. subst d'.
        split; cbn [d_fw d_kernel fw_leases].
        -- intros id l J. destruct (U2 _ _ J) as [J'|(-> & l0 & J' & ->)].
           ++ apply LS; [exact NM|]. apply (li_lease _ _ I). exact J'.
           ++ destruct (li_lease _ _ I _ _ J') as (E & _ & SU & _). injection E as E1 E2.
              apply NEW; [rewrite E1; exact SU|]. unfold refresh_timeout. congruence.
        -- apply I.
        -- apply OG. apply I.
        -- pose proof (li_phase _ _ I) as IP. unfold loss_inv, leases in *. cbn [d_phase d_fw d_kernel fw_leases fw_shutdown].
           rewrite UC. destruct PH as [PH|PH]; rewrite PH in *; [|reflexivity]. split; [reflexivity|apply IP].
      * subst d'. split; cbn [d_fw d_kernel fw_leases].
        -- intros id l [[= <- <-]|J].
           ++ apply NEW; [exact SU|reflexivity].
           ++ apply LS; [exact NM|]. apply (li_lease _ _ I). exact J.
        -- exact HK.
        -- rewrite CO. intros w J. apply in_app_or in J. destruct J as [J|J].
           ++ apply OG in J; [exact J|apply I].
           ++ right. eapply lease_granted; [|exact J]. apply NEW; [exact SU|reflexivity].
        -- pose proof (li_phase _ _ I) as IP. unfold loss_inv, leases in *. cbn [d_phase d_fw d_kernel fw_leases fw_shutdown map snd flat_map].
           destruct PH as [PH|PH]; rewrite PH in *; [|reflexivity]. split; [reflexivity|].
           destruct IP as [_ (miss & IP)]. exists miss. rewrite CO, <- app_assoc.
           rewrite (Permutation_app_comm (lease_contents _) miss), app_assoc, IP, <- app_assoc.
           apply Permutation_app_head. apply Permutation_app_comm.
  - (* maintenance *)
    unfold fw_step in ST. destruct (d_phase d) eqn:PH; try discriminate.
    destruct (maintain conf (d_kernel d) (d_fw d) now o1 o2 lok dok rok) as [[k1 fw1] r1] eqn:MT.
    injection ST as <- <-. destruct EV as [ORD1 ORD2].
    pose proof MT as MC. apply (lossy_maintain_cases d h) in MC; auto.
    destruct MC as (-> & HK & R).
    pose proof (li_phase _ _ I) as IP. unfold loss_inv in IP. rewrite PH in IP. destruct IP as [SD (miss & MI)].
    assert (forall id l, In (id, l) (filter (fun x => negb (is_timed_out (snd x) now)) (fw_leases (d_fw d))) ->
            lease_ok conf c (h ++ [(FwMaintain now o1 o2 lok dok rok, None)]) id l) as LK.
    { intros id l J. apply filter_In in J. destruct J as [J TO]. simpl in TO.
      apply lease_ok_snoc; [apply (li_lease _ _ I); exact J|].
      intros now' o1' o2' b1 b2 b3 rp [= <- <- <- <- <- <- <-]. unfold is_timed_out in TO. lia. }
    split; cbn [d_fw d_kernel fw_leases].
    + exact LK.
    + exact HK.
    + destruct R as [(_ & P)|[(_ & P)|(_ & -> & _)]].
      * intros w J. apply (Permutation_in w P) in J. apply in_app_or in J. destruct J as [J|J]; [auto|].
        right. apply in_flat_map in J. destruct J as (l & J1 & J2). apply in_map_iff in J1.
        destruct J1 as ([id l'] & E & J1). simpl in E. subst l'.
        eapply lease_granted; [|exact J2]. apply LK. exact J1.
      * intros w J. apply (OG _ (li_only _ _ I)). symmetry in P. apply (Permutation_in w P).
        apply in_or_app. right. exact J.
      * apply OG. apply I.
    + unfold loss_inv, leases. cbn [d_phase d_fw d_kernel fw_leases fw_shutdown].
      destruct R as [(-> & P)|[(-> & P)|((e & ->) & -> & _)]]; cbn [next_phase]; [| |reflexivity];
        (split; [reflexivity|]).
      * exists []. rewrite app_nil_r. exact P.
      * exists miss. unfold leases in MI. rewrite (partition_leases (fw_leases (d_fw d)) now), P in MI.
        apply (drop_common _ _ _ _ _ _ MI).
  - (* shutdown *)
    unfold fw_step in ST.
    assert (fw_shutdown (d_fw d) = false /\ exists k1 fw1 res, fw_shutdown_op conf (d_kernel d) (d_fw d) ok = (k1, fw1, res)
            /\ d' = Daemon k1 fw1 (next_phase res PhDown PhDown)) as (SD & k1 & fw1 & res & SO & ED).
    { pose proof (li_phase _ _ I) as IP. unfold loss_inv in IP.
      destruct (d_phase d) eqn:EP; try discriminate;
        destruct (fw_shutdown_op conf (d_kernel d) (d_fw d) ok) as [[k1 fw1] res1] eqn:SO;
        injection ST as <- <-; (split; [apply IP|]); exists k1, fw1, res1; auto. }
    unfold fw_shutdown_op in SO. rewrite SD in SO.
    destruct (full_rebuild conf (d_kernel d) (Firewall [] true) (fun l => l) ok) as [k2 r2] eqn:RB.
    injection SO as <- <- <-. apply (rebuild_shutdown conf c CC) in RB.
    assert (next_phase r2 PhDown PhDown = PhDown) as EP.
    { destruct RB as [(-> & _)|(_ & (e & ->) & _)]; reflexivity. }
    rewrite EP in ED. subst d'. split; cbn [d_fw d_kernel fw_leases].
    + contradiction.
    + destruct RB as [(_ & R & _)|(-> & _)]; [apply handles_ok_empty; exact R|apply I].
    + destruct RB as [(_ & R & _)|(-> & _)]; [|apply OG; apply I].
      unfold contents. rewrite R. intros w [].
    + unfold loss_inv. simpl. auto.
  - (* other programs *)
    injection ST as <- <-. destruct EV as [[gone ER] EN].
    assert (Permutation (contents c (d_kernel d)) (contents c k ++ map content gone)) as EC.
    { unfold contents. rewrite <- map_app. apply Permutation_map. exact ER. }
    split; cbn [d_fw d_kernel].
    + intros id l J. apply LS; [intros; discriminate|]. apply (li_lease _ _ I). exact J.
    + destruct EN as [EN|EN]; [|apply handles_ok_empty; exact EN].
      destruct (li_handles _ _ I) as [ND LT]. split.
      * apply (Permutation_map r_handle) in ER. apply (Permutation_NoDup ER) in ND.
        rewrite map_app in ND. clear - ND. induction (map r_handle (rules_of c k)) as [|x l IH]; [constructor|].
        simpl in ND. inversion ND; subst. constructor; [|auto]. intros J. apply H1. apply in_or_app. auto.
      * intros r J. assert (In r (rules_of c (d_kernel d))) as J'.
        { symmetry in ER. apply (Permutation_in r ER). apply in_or_app. auto. }
        apply LT in J'. lia.
    + intros w J. apply (OG _ (li_only _ _ I)). symmetry in EC. apply (Permutation_in w EC).
      apply in_or_app. auto.
    + pose proof (li_phase _ _ I) as IP. unfold loss_inv, leases in *. cbn [d_phase d_fw d_kernel].
      destruct (d_phase d); try exact IP. destruct IP as [SD (miss & IP)]. split; [exact SD|].
      exists (map content gone ++ miss). rewrite app_assoc, <- EC. exact IP.
Qed.

Lemma lossy_inv : forall d h, lossy_history conf c d h -> linv d h.
Proof.
  intros d h H. induction H as [k exe ok k' d _ ST|d h ev d' reply H IH EV ST].
  - eapply linv_start. exact ST.
  - eapply linv_step; eassumption.
Qed.

(** ** Consequences *)

Lemma lease_live : forall d h, linv d h -> forall l, In l (leases d) ->
  ip_address (l_addr l) /\ supported c (l_addr l) /\ exists pt port, l_port l = lease_port_of pt port
    /\ live_grant conf h (l_addr l) pt port /\ permitted_port conf port.
Proof.
  intros d h I l J. apply in_map_iff in J. destruct J as ([id l'] & E & J). simpl in E. subst l'.
  destruct (li_lease _ _ I _ _ J) as (_ & IP & SU & pre & x & post & t & pt & port & EH & AK & LP & _ & PP & F).
  split; [exact IP|]. split; [exact SU|]. exists pt, port. split; [exact LP|].
  split; [|exact PP]. exists pre, x, post, t. auto.
Qed.

Lemma lossy_accepts : forall d h, linv d h -> d_phase d = PhRun ->
  forall pk, ip_address (pk_src pk) -> chain_accepts (d_kernel d) c pk ->
  to_control_port conf pk
  \/ exists a pt port, live_grant conf h a pt port /\ permitted_port conf port
     /\ same_host a (pk_src pk) /\ port_covers pt port pk.
Proof.
  intros d h I PH pk HS A. apply accepts_contents in A. destruct A as (TR & w & J & A).
  pose proof (li_phase _ _ I) as IP. unfold loss_inv in IP. rewrite PH in IP. destruct IP as [_ (miss & IP)].
  assert (In w (control_contents conf ++ flat_map lease_contents (leases d))) as K.
  { apply (Permutation_in w IP). apply in_or_app. auto. }
  apply in_app_or in K. destruct K as [K|K].
  - left. apply control_accepts. eauto.
  - right. apply in_flat_map in K. destruct K as (l & J1 & J2).
    destruct (lease_live d h I l J1) as (HA & _ & pt & port & LP & LG & PP).
    destruct (proj1 (lease_accepts pk l HA HS)) as (SH & PM); [eauto|].
    exists (l_addr l), pt, port. split; [exact LG|]. split; [exact PP|]. split; [exact SH|].
    apply single_ports_cover. rewrite <- LP. exact PM.
Qed.

Lemma lossy_accepts_granted : forall d h, linv d h ->
  forall pk, ip_address (pk_src pk) -> chain_accepts (d_kernel d) c pk ->
  to_control_port conf pk
  \/ exists a pt port, granted h a pt port /\ permitted_port conf port
     /\ same_host a (pk_src pk) /\ port_covers pt port pk.
Proof.
  intros d h I pk HS A. apply accepts_contents in A. destruct A as (_ & w & J & A).
  destruct (li_only _ _ I w J) as [C|(a & pt & port & p & G & IA & SU & PP & IP & ->)].
  - left. apply control_accepts. eauto.
  - right. apply want_some_accepts in A; auto. destruct A as [SH SM].
    exists a, pt, port. split; [exact G|]. split; [exact PP|]. split; [exact SH|].
    apply single_ports_cover. eauto.
Qed.

(** A maintenance run that finds a rule of an expired lease missing repairs the chain. *)
Lemma lossy_repair : forall d h, linv d h ->
  forall now o1 o2 lok dok rok d' reply,
  lossy_event c d (FwMaintain now o1 o2 lok dok rok) ->
  fw_step conf d (FwMaintain now o1 o2 lok dok rok) = Some (d', reply) -> d_phase d' = PhRun ->
  forall l w, In l (leases d) -> l_timeout l <= now -> In w (lease_contents l) ->
  ~ In w (contents c (d_kernel d)) -> mirrors conf c d'.
Proof.
  intros d h I now o1 o2 lok dok rok d' reply EV ST PH' l w J TO K NI.
  unfold fw_step in ST. destruct (d_phase d) eqn:PH; try discriminate.
  destruct (maintain conf (d_kernel d) (d_fw d) now o1 o2 lok dok rok) as [[k1 fw1] r1] eqn:MT.
  injection ST as <- <-. destruct EV as [ORD1 ORD2].
  apply (lossy_maintain_cases d h) in MT; auto. destruct MT as (-> & HK & R).
  destruct R as [(_ & P)|[(_ & P)|((e & ->) & _)]]; [exact P| |discriminate PH'].
  exfalso. apply NI. symmetry in P. apply (Permutation_in w P). apply in_or_app. left.
  apply in_flat_map. exists l. split; [|exact K]. apply in_map_iff in J.
  destruct J as ([id l'] & E & J). simpl in E. subst l'. apply in_map_iff. exists (id, l).
  split; [reflexivity|]. apply filter_In. split; [exact J|]. simpl. unfold is_timed_out. lia.
Qed.

(** A maintenance run never adds anything but the rules of leases and the control port,
    and does not take the rules of another lease away. *)
Lemma lossy_maintain_keeps : forall d h, linv d h ->
  forall now o1 o2 lok dok rok d' reply,
  lossy_event c d (FwMaintain now o1 o2 lok dok rok) ->
  fw_step conf d (FwMaintain now o1 o2 lok dok rok) = Some (d', reply) -> d_phase d' = PhRun ->
  mirrors conf c d -> mirrors conf c d'.
Proof.
  intros d h I now o1 o2 lok dok rok d' reply EV ST PH' MI.
  unfold fw_step in ST. destruct (d_phase d) eqn:PH; try discriminate.
  destruct (maintain conf (d_kernel d) (d_fw d) now o1 o2 lok dok rok) as [[k1 fw1] r1] eqn:MT.
  injection ST as <- <-. destruct EV as [ORD1 ORD2].
  apply (lossy_maintain_cases d h) in MT; auto. destruct MT as (-> & HK & R).
  destruct R as [(_ & P)|[(_ & P)|((e & ->) & _)]]; [exact P| |discriminate PH'].
  unfold mirrors, leases in *. fold (contents c (d_kernel d)) in MI.
  cbn [d_kernel d_fw fw_leases]. change (map content (rules_of c k1)) with (contents c k1).
  rewrite (partition_leases (fw_leases (d_fw d)) now), P in MI.
  rewrite <- (app_nil_r (contents c k1)). apply (drop_common _ _ _ _ _ _ (eq_rect _ (fun x => Permutation x _) MI _ (eq_sym (app_nil_r _)))).
Qed.

(** An acknowledged request. *)
Lemma lossy_ack : forall d h, linv d h -> forall ev d' reply t a pt port,
  lossy_event c d ev -> fw_step conf d ev = Some (d', reply) -> acked (ev, reply) t a pt port ->
  (live_grant conf h a pt port /\ d_kernel d' = d_kernel d)
  \/ (supported c a /\ ip_address a /\ contents c (d_kernel d')
      = contents c (d_kernel d) ++ lease_contents (Lease a (lease_port_of pt port) (t + c_nft_timeout conf))).
Proof.
  intros d h I ev d' reply t a pt port EV ST AK.
  destruct AK as (b & ok & sok & [= -> ->] & AK).
  destruct (message_step _ _ _ _ _ _ _ (li_phase _ _ I) ST) as (PH & SD & k1 & fw1 & res & HM & ED).
  apply (message_cases conf c CC) in HM; auto.
  2:{ apply I. }
  2:{ intros b' [= <-]. exact EV. }
  destruct HM as [(_ & _ & NA & _)|(b' & a' & t' & port' & [= <-] & AK' & IA & PL & PP & OP & _ & _)]; [congruence|].
  assert (a' = a /\ t' = pt /\ port' = port) as (-> & -> & ->).
  { pose proof (asks_decode _ _ _ _ EV AK) as (m & D1 & _ & A1 & P1).
    pose proof (asks_decode _ _ _ _ EV AK') as (m' & D2 & _ & A2 & P2).
    rewrite D1 in D2. injection D2 as <-. rewrite A1 in A2. rewrite P1 in P2.
    injection A2 as <-. injection P2 as <- <-. auto. }
  apply (open_port_cases conf c CC) in OP; [|exact SD|apply I|rewrite lp_number_of; apply PP].
  destruct OP as [(_ & -> & m & -> & U)|[(_ & NI & -> & SU & HK & CO & _)|(_ & _ & (e & E) & _)]]; [| |discriminate].
  - left. split; [|rewrite ED; reflexivity].
    pose proof (map_update_some _ _ _ _ U) as ((l0 & J) & _).
    destruct (li_lease _ _ I _ _ J) as (E & _). injection E as E1 E2.
    destruct (lease_live d h I l0) as (_ & _ & pt' & port' & LP & LG & _).
    { apply in_map_iff. exists ((a, lease_port_of pt port), l0). auto. }
    rewrite LP in E2. apply lp_of_inj in E2. destruct E2 as [-> ->]. rewrite E1. exact LG.
  - right. rewrite ED. auto.
Qed.

(** Every live grant has a lease. *)
Lemma lossy_live_lease : forall d h, lossy_history conf c d h -> clock_monotone h -> serving d ->
  forall pre x post t a pt port, h = pre ++ x :: post -> acked x t a pt port -> fresh conf t post ->
  exists l, In ((a, lease_port_of pt port), l) (fw_leases (d_fw d)) /\ t + c_nft_timeout conf <= l_timeout l.
Proof.
  intros d h H.
  induction H as [k exe ok k' d _ ST|d h ev d' reply H IH EV ST]; intros MONO SV pre x post t a pt port E A F.
  - destruct pre; discriminate.
  - pose proof (lossy_inv d h H) as I.
    apply snoc_split in E. destruct E as [(-> & -> & ->)|(post' & -> & EH)].
    + destruct A as (b & ok & sok & [= -> ->] & AK).
      assert (exists k1 fw1 res, handle_message conf (d_kernel d) (d_fw d) (FwRxBuf b) t ok sok
                = (k1, fw1, Some fw_new_ack, res)
               /\ d_fw d' = fw1 /\ fw_shutdown (d_fw d) = false) as (k1 & fw1 & res & HM & ED & SD).
      { pose proof (li_phase _ _ I) as IP. unfold loss_inv in IP. unfold fw_step in ST.
        destruct (d_phase d) eqn:EP; try discriminate;
          destruct (handle_message conf (d_kernel d) (d_fw d) (FwRxBuf b) t ok sok) as [[[k1 fw1] rp1] res1] eqn:HM;
          injection ST as <- ->; exists k1, fw1, res1; (split; [reflexivity|]); (split; [reflexivity|apply IP]). }
      pose proof HM as MC. apply (message_cases conf c CC) in MC; auto.
      2:{ apply I. }
      2:{ intros b' [= <-]. exact EV. }
      destruct MC as [(_ & _ & NA & _)|(b' & a' & t' & port' & [= <-] & AK' & IA & PL & PP & OP & _ & _)]; [congruence|].
      assert (a' = a /\ t' = pt /\ port' = port) as (-> & -> & ->).
      { pose proof (asks_decode _ _ _ _ EV AK) as (m & D1 & _ & A1 & P1).
        pose proof (asks_decode _ _ _ _ EV AK') as (m' & D2 & _ & A2 & P2).
        rewrite D1 in D2. injection D2 as <-. rewrite A1 in A2. rewrite P1 in P2.
        injection A2 as <-. injection P2 as <- <-. auto. }
      apply (open_port_cases conf c CC) in OP; [|exact SD|apply I|rewrite lp_number_of; apply PP].
      rewrite ED. destruct OP as [(_ & _ & m & -> & U)|[(_ & _ & -> & _)|(_ & _ & (e & E) & _)]]; [| |discriminate].
      * pose proof (map_update_some _ _ _ _ U) as ((l0 & J) & _ & U3).
        destruct (li_lease _ _ I _ _ J) as (EI & _).
        destruct (U3 _ _ J) as [J'|(_ & J')].
        -- (* the first match was refreshed, so some refreshed lease is there *)
           clear U3. exists (refresh_timeout conf t l0). cbn [fw_leases].
           assert (forall m0 m1, map_update m0 (a, lease_port_of pt port) (refresh_timeout conf t) = Some m1 ->
                   exists l2, In ((a, lease_port_of pt port), refresh_timeout conf t l2) m1
                              /\ In ((a, lease_port_of pt port), l2) m0) as R.
           { induction m0 as [|[i l] m0 IHm]; intros m1 X; simpl in X; [discriminate|].
             destruct (id_eqb i (a, lease_port_of pt port)) eqn:Q.
             - apply id_eqb_spec in Q. subst i. injection X as <-. exists l. split; left; reflexivity.
             - destruct (map_update m0 (a, lease_port_of pt port) (refresh_timeout conf t)) as [m2|]; [|discriminate].
               injection X as <-. destruct (IHm m2 eq_refl) as (l2 & R1 & R2). exists l2. split; right; assumption. }
           destruct (R _ _ U) as (l2 & R1 & R2).
           destruct (li_lease _ _ I _ _ R2) as (EI2 & _).
           replace (refresh_timeout conf t l0) with (refresh_timeout conf t l2).
           ++ split; [exact R1|]. simpl. lia.
           ++ unfold refresh_timeout. congruence.
        -- exists (refresh_timeout conf t l0). split; [exact J'|]. simpl. lia.
      * eexists. split; [left; reflexivity|]. simpl. lia.
    + assert (serving d) as SV'.
      { unfold serving in *. unfold fw_step in ST. destruct ev; destruct (d_phase d); auto; try discriminate ST.
        injection ST as <- <-. simpl in SV. exact SV. injection ST as <- <-. simpl in SV. exact SV. }
      destruct (IH (monotone_prefix _ _ MONO) SV' pre x post' t a pt port EH A) as (l & J & LT).
      { intros n q1 q2 b1 b2 b3 rp X. eapply F. apply in_or_app. left. exact X. }
      unfold fw_step in ST. destruct ev as [r now ok sok|now o1 o2 lok dok rok|ok|k].
      * assert (exists k1 fw1 res, handle_message conf (d_kernel d) (d_fw d) r now ok sok = (k1, fw1, reply, res)
                /\ d_fw d' = fw1 /\ fw_shutdown (d_fw d) = false) as (k1 & fw1 & res & HM & ED & SD).
        { pose proof (li_phase _ _ I) as IP. unfold loss_inv in IP.
          destruct (d_phase d) eqn:EP; try discriminate;
            destruct (handle_message conf (d_kernel d) (d_fw d) r now ok sok) as [[[k1 fw1] rp1] res1] eqn:HM;
            injection ST as <- <-; exists k1, fw1, res1; (split; [reflexivity|]); (split; [reflexivity|apply IP]). }
        rewrite ED. apply (message_cases conf c CC) in HM; auto.
        2:{ apply I. }
        2:{ intros b' ->. exact EV. }
        destruct HM as [(_ & -> & _)|(b' & a' & t' & port' & _ & AK' & IA & PL & PP & OP & _ & _)]; [eauto|].
        apply (open_port_cases conf c CC) in OP; [|exact SD|apply I|rewrite lp_number_of; apply PP].
        destruct OP as [(_ & _ & m & -> & U)|[(_ & _ & -> & _)|(_ & _ & (e & E) & _)]]; [| |discriminate].
        -- pose proof (map_update_some _ _ _ _ U) as (_ & _ & U3).
           destruct (U3 _ _ J) as [J'|(EI & J')]; [eauto|].
           exists (refresh_timeout conf now l). rewrite EI. split; [exact J'|]. simpl.
           destruct A as (b & ok0 & sok0 & EX & _).
           assert (t <= now); [|lia].
           apply (MONO pre x post' (FwMessage r now ok sok, reply) []).
           ++ rewrite EH, <- app_assoc. reflexivity.
           ++ rewrite EX. reflexivity.
           ++ reflexivity.
        -- exists l. split; [right; exact J|exact LT].
      * destruct (d_phase d) eqn:PH; try discriminate.
        destruct (maintain conf (d_kernel d) (d_fw d) now o1 o2 lok dok rok) as [[k1 fw1] r1] eqn:MT.
        injection ST as <- <-. destruct EV as [ORD1 ORD2].
        apply (lossy_maintain_cases d h) in MT; auto. destruct MT as (-> & _).
        exists l. split; [|exact LT]. cbn [d_fw fw_leases]. apply filter_In. split; [exact J|]. simpl.
        assert (now < t + c_nft_timeout conf).
        { eapply F. apply in_or_app. right. left. reflexivity. }
        unfold is_timed_out. lia.
      * exfalso. unfold serving in *. destruct SV' as [PH|PH]; rewrite PH in ST;
          destruct (fw_shutdown_op conf (d_kernel d) (d_fw d) ok) as [[k1 fw1] res1];
          injection ST as <- <-; simpl in SV; destruct res1; destruct SV; discriminate.
      * injection ST as <- <-. simpl. eauto.
Qed.

(** A chain that has all its rules accepts exactly what it should. *)
Lemma lossy_mirrors_accepts : forall d h, lossy_history conf c d h -> clock_monotone h ->
  d_phase d = PhRun -> mirrors conf c d -> forall pk, ip_address (pk_src pk) ->
  (chain_accepts (d_kernel d) c pk <->
   traverses c pk
   /\ (to_control_port conf pk
       \/ exists a pt port, live_grant conf h a pt port /\ same_host a (pk_src pk)
          /\ port_covers pt port pk)).
Proof.
  intros d h H MONO PH MI pk HS. pose proof (lossy_inv d h H) as I. split.
  - intros A. split; [apply A|].
    destruct (lossy_accepts d h I PH pk HS A) as [CP|(a & pt & port & LG & _ & R)]; [auto|]. right. eauto.
  - intros (TR & Q). apply accepts_contents. split; [exact TR|]. unfold mirrors in MI.
    change (map content (rules_of c (d_kernel d))) with (contents c (d_kernel d)) in MI. symmetry in MI.
    destruct Q as [Q|(a & pt & port & (pre & x & post & t & EH & AK & F) & SH & PC)].
    + apply control_accepts in Q. destruct Q as (w & J & A). exists w. split; [|exact A].
      apply (Permutation_in w MI). apply in_or_app. left. exact J.
    + destruct (lossy_live_lease d h H MONO (or_introl PH) pre x post t a pt port EH AK F) as (l & J & _).
      destruct (li_lease _ _ I _ _ J) as (E & HA & _). injection E as E1 E2.
      destruct (proj2 (lease_accepts pk l HA HS)) as (w & K & A).
      { rewrite <- E1, <- E2. split; [exact SH|]. apply single_ports_cover. exact PC. }
      exists w. split; [|exact A]. apply (Permutation_in w MI). apply in_or_app. right.
      apply in_flat_map. exists l. split; [|exact K]. apply in_map_iff. eexists. split; [|exact J]. reflexivity.
Qed.

Lemma lossy_never_dead : forall d h, linv d h -> d_phase d <> PhDead.
Proof.
  intros d h I E. pose proof (li_phase _ _ I) as IP. unfold loss_inv in IP. rewrite E in IP. exact IP.
Qed.

(** A maintenance run without an expired lease changes nothing. *)
Lemma idle_maintenance : forall d h, linv d h ->
  forall now o1 o2 lok dok rok d' reply,
  lossy_event c d (FwMaintain now o1 o2 lok dok rok) ->
  fw_step conf d (FwMaintain now o1 o2 lok dok rok) = Some (d', reply) ->
  (forall l, In l (leases d) -> now < l_timeout l) -> d' = d.
Proof.
  intros d h I now o1 o2 lok dok rok d' reply [ORD1 _] ST NE.
  assert (d_phase d = PhRun) as PH by (unfold fw_step in ST; destruct (d_phase d); congruence).
  pose proof (li_phase _ _ I) as IP. unfold loss_inv in IP. rewrite PH in IP. destruct IP as [SD _].
  unfold fw_step in ST. rewrite PH in ST. unfold maintain in ST. rewrite SD in ST. unfold prune in ST.
  assert (forall m : list (lease_id * lease), (forall x, In x m -> now < l_timeout (snd x)) ->
    filter (fun x => is_timed_out (snd x) now) m = []
    /\ filter (fun x => negb (is_timed_out (snd x) now)) m = m) as F.
  { induction m as [|x m IH]; intros A; [auto|]. destruct IH as [E1 E2]; [intros y Y; apply A; right; exact Y|].
    pose proof (A x (or_introl eq_refl)) as L. 
    assert (is_timed_out (snd x) now = false) as T by (unfold is_timed_out; lia).
    cbn [filter]. rewrite T. cbn [negb]. rewrite E1, E2. auto. }
  destruct (F (fw_leases (d_fw d))) as [E1 E2].
  { intros x X. apply NE. apply in_map. exact X. }
  rewrite E1, E2 in ST. cbn [map] in ST.
  assert (o1 [] = []) as EO by (apply Permutation_nil; symmetry; apply ORD1).
  rewrite EO in ST. cbn [next_phase] in ST. injection ST as <- <-.
  destruct d as [k [m s] p]. simpl in *. congruence.
Qed.

End Daemon.
