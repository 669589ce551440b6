(** Proofs about what one host can do to another one (C96). *)

From Coq Require Import String ZArith NArith List Bool Lia ZifyBool ZifyNat ZifyN Permutation.
From Verif Require Import M_Base M_IpAddr M_FwProto M_ConfTypes M_Server M_Text M_Firewall
  S_Wire S_Ip S_Firewall S_Apart P_Base P_FwProto P_Firewall P_Fwd P_FwdProps.
Import ListNotations.
Local Open Scope N_scope.

Section Apart.
Variable conf : config.
Variable c : chain_name.

Lemma history_last : forall d h x, history conf c d (h ++ [x]) ->
  exists d0, history conf c d0 h /\ event_ok c d0 (fst x) /\ fw_step conf d0 (fst x) = Some (d, snd x).
Proof.
  intros d h x H. remember (h ++ [x]) as g eqn:E. destruct H as [k exe ok k' d CC ST|d0 h0 ev d' reply H EV ST].
  - destruct h; discriminate E.
  - apply app_inj_tail in E. destruct E as [<- <-]. eauto.
Qed.

Lemma running_before : forall d0 h ev d reply, history conf c d0 h -> event_ok c d0 ev ->
  fw_step conf d0 ev = Some (d, reply) -> d_phase d = PhRun -> d_phase d0 = PhRun.
Proof.
  intros d0 h ev d reply H EV ST PH.
  pose proof (never_dead conf c _ _ H) as ND.
  destruct ev as [r now ok sok|now o1 o2 lok dok rok|ok|k].
  - destruct (message_step conf c d0 h H r now ok sok d reply EV ST)
      as [(-> & _)|(b & a & t & pt & -> & AK & _ & PL & PP & PH' & ->)]; congruence.
  - unfold fw_step in ST. destruct (d_phase d0); congruence.
  - destruct (shutdown_step conf c d0 h H ok d reply ST) as (X & _). congruence.
  - unfold fw_step in ST. injection ST as <- _. exact PH.
Qed.

Definition now_open (now : N) (id : lease_id) (m m' : list (lease_id * lease)) : Prop :=
  forall i l, In (i, l) m' <->
    (i = id /\ l = Lease (fst id) (snd id) (now + c_nft_timeout conf)) \/ (i <> id /\ In (i, l) m).

Lemma in_unique : forall (m : list (lease_id * lease)) i l l', NoDup (map fst m) ->
  In (i, l) m -> In (i, l') m -> l = l'.
Proof.
  induction m as [|[j x] m IH]; intros i l l' ND A B; [destruct A|].
  inversion ND; subst. destruct A as [A|A], B as [B|B].
  - congruence.
  - injection A as -> ->. exfalso. apply H1. apply in_map_iff. exists (i, l'). auto.
  - injection B as -> ->. exfalso. apply H1. apply in_map_iff. exists (i, l). auto.
  - eapply IH; eauto.
Qed.

(** The result of a request depends on the lease for its key only. *)
Lemma open_result : configured_chain conf c ->
  forall k fw now a p ok k' fw' r, fw_shutdown fw = false -> handles_ok c k ->
  lp_number p <> cp_port (c_port conf) -> has_chain k c = true ->
  NoDup (map fst (fw_leases fw)) -> (forall l, In ((a, p), l) (fw_leases fw) -> l_addr l = a /\ l_port l = p) ->
  open_port conf k fw now a p ok = (k', fw', r) ->
  (((exists l, In ((a, p), l) (fw_leases fw)) \/ (ok = true /\ supported c a))
    /\ r = Ok tt /\ now_open now (a, p) (fw_leases fw) (fw_leases fw'))
  \/ ((forall l, ~ In ((a, p), l) (fw_leases fw)) /\ ~ (ok = true /\ supported c a)
      /\ (exists e, r = Err e) /\ fw' = fw).
Proof.
  intros CC k fw now a p ok k' fw' r SD HK NP HC ND LO H. pose proof H as H0.
  apply (open_port_cases conf c CC) in H; auto.
  destruct H as [(-> & -> & m & -> & U)|[(-> & NI & -> & SU & _)|(-> & -> & (e & ->) & W)]].
  - left. pose proof (map_update_some _ _ _ _ U) as ((l0 & I0) & A & B).
    split; [left; eauto|]. split; [reflexivity|]. unfold now_open. cbn [fw_leases fst snd].
    destruct (LO _ I0) as [L1 L2].
    assert (refresh_timeout conf now l0 = Lease a p (now + c_nft_timeout conf)) as RT
      by (unfold refresh_timeout; rewrite L1, L2; reflexivity).
    assert (NoDup (map fst m)) as ND' by (rewrite (map_update_keys _ _ _ _ U); exact ND).
    assert (In ((a, p), Lease a p (now + c_nft_timeout conf)) m) as IN.
    { clear - U LO. revert m U LO.
      induction (fw_leases fw) as [|[i l] ms IH]; intros m U LO; [discriminate U|].
      cbn [map_update] in U. destruct (id_eqb i (a, p)) eqn:E.
      - apply id_eqb_spec in E. subst i. injection U as <-. left. f_equal.
        unfold refresh_timeout. destruct (LO l (or_introl eq_refl)) as [-> ->]. reflexivity.
      - destruct (map_update ms (a, p) (refresh_timeout conf now)) as [m1|] eqn:E1; [|discriminate U].
        injection U as <-. right. apply (IH m1 eq_refl). intros l' I'. apply LO. right. exact I'. }
    intros i l. split.
    + intros I. destruct (A _ _ I) as [J|(-> & l1 & J & ->)].
      * destruct (id_eqb i (a, p)) eqn:E.
        -- apply id_eqb_spec in E. subst i. left. split; [reflexivity|]. eapply in_unique; eauto.
        -- right. split; [|exact J]. intros ->.
           assert (id_eqb (a, p) (a, p) = true) by (apply id_eqb_spec; reflexivity). congruence.
      * left. split; [reflexivity|]. rewrite <- RT. f_equal. exact (in_unique _ _ _ _ ND J I0).
    + intros [(-> & ->)|(N0 & J)]; [exact IN|]. destruct (B _ _ J) as [?|(-> & _)]; [assumption|congruence].
  - left. split.
    + right. split; [|exact SU]. destruct ok; [reflexivity|]. exfalso.
      unfold open_port in H0. rewrite SD in H0.
      destruct (map_update (fw_leases fw) (a, p) (refresh_timeout conf now)) as [m|] eqn:U.
      * destruct (map_update_some _ _ _ _ U) as ((l & I) & _). exact (NI l I).
      * unfold lease_new in H0. replace (cp_port (c_port conf) =? lp_number p) with false in H0 by lia.
        cbn [negb assert_] in H0. unfold add_lease in H0.
        destruct (gen_add_cmds conf (Lease a p (now + c_nft_timeout conf))); cbn in H0; discriminate H0.
    + split; [reflexivity|]. unfold now_open. cbn [fw_leases fst snd]. intros i l. split.
      * intros [[= <- <-]|I]; [left; auto|right]. split; [intros ->; exact (NI l I)|exact I].
      * intros [(-> & ->)|(_ & I)]; [left; reflexivity|right; exact I].
  - right. split.
    + intros l I. unfold open_port in H0. rewrite SD in H0.
      destruct (map_update (fw_leases fw) (a, p) (refresh_timeout conf now)) as [m|] eqn:U; [discriminate H0|].
      exact (map_update_none _ _ _ U l I).
    + split; [|split; [eauto|reflexivity]]. intros (-> & SU). destruct W as [W|[W|W]]; [discriminate W|congruence|tauto].
Qed.

Lemma asks_unique : forall b a t p a' t' p', all_bytes b -> asks b a t p -> asks b a' t' p' ->
  a' = a /\ t' = t /\ p' = p /\ ip_address a.
Proof.
  intros b a t p a' t' p' HB A A'. apply asks_decode in A; [|exact HB]. apply asks_decode in A'; [|exact HB].
  destruct A as (m & D & O & FA & FP). destruct A' as (m' & D' & _ & FA' & FP').
  destruct (decode_asks b m a t p HB D O FA FP) as [_ IP].
  rewrite D in D'. injection D' as <-. rewrite FA in FA'. rewrite FP in FP'. injection FA' as <-. injection FP' as <- <-. auto.
Qed.

Lemma handle_open : forall b a t port k fw now ok sok, all_bytes b -> asks b a t port ->
  plausible_address a -> permitted_port conf port ->
  exists res, handle_message conf k fw (FwRxBuf b) now ok sok =
    let '(k', fw', r) := open_port conf k fw now a (lease_port_of t port) ok in
    (k', fw', match r with Ok _ => Some fw_new_ack | Err _ => Some fw_new_nack | Panic => None end, res).
Proof.
  intros b a t port k fw now ok sok HB AK PL PP.
  destruct (asks_unique _ _ _ _ _ _ _ HB AK AK) as (_ & _ & _ & IP).
  apply asks_decode in AK; [|exact HB]. destruct AK as (m & D & O & FA & FP).
  unfold handle_message. rewrite D, O, FA, FP.
  rewrite (proj2 (addr_check_plausible a IP) PL). cbn [negb].
  destruct PP as [PP1 PP2]. apply res_id_by_port_none in PP2. destruct PP2 as (id & E).
  unfold resource_id_by_port. rewrite E. replace (port =? cp_port (c_port conf)) with false by lia.
  destruct (open_port conf k fw now a (lease_port_of t port) ok) as [[k' fw'] [[]|e|]]; eexists; reflexivity.
Qed.

Lemma plausible_dec : forall a, ip_address a -> plausible_address a \/ ~ plausible_address a.
Proof.
  intros a IA. pose proof (addr_check_plausible a IA) as P. destruct (addr_check a); [left|right].
  - apply P. reflexivity.
  - intros X. apply P in X. discriminate X.
Qed.

Lemma permitted_dec : forall port, permitted_port conf port \/ ~ permitted_port conf port.
Proof.
  intros port. pose proof (res_id_by_port_none (c_resources conf) port) as P.
  destruct (N.eq_dec port (cp_port (c_port conf))) as [E|E]; [right; intros [X _]; contradiction|].
  destruct (res_id_by_port (c_resources conf) port None) as [id|].
  - left. split; [exact E|]. apply P. eauto.
  - right. intros [_ X]. apply P in X. destruct X as (? & X). discriminate X.
Qed.

(** What a message does to the leases. *)
Lemma message_leases : forall d h rx now ok sok d' reply, history conf c d h -> d_phase d = PhRun ->
  has_chain (d_kernel d) c = true -> event_ok c d (FwMessage rx now ok sok) ->
  fw_step conf d (FwMessage rx now ok sok) = Some (d', reply) ->
  (fw_leases (d_fw d') = fw_leases (d_fw d) /\ reply <> Some fw_new_ack
   /\ forall b a t port, rx = FwRxBuf b -> asks b a t port -> reply = Some fw_new_nack
      /\ ((~ plausible_address a \/ ~ permitted_port conf port)
          \/ (forall l, ~ In ((a, lease_port_of t port), l) (fw_leases (d_fw d))) /\ ~ (ok = true /\ supported c a)))
  \/ (exists b a t port, rx = FwRxBuf b /\ asks b a t port /\ reply = Some fw_new_ack
      /\ plausible_address a /\ permitted_port conf port
      /\ ((exists l, In ((a, lease_port_of t port), l) (fw_leases (d_fw d))) \/ (ok = true /\ supported c a))
      /\ now_open now (a, lease_port_of t port) (fw_leases (d_fw d)) (fw_leases (d_fw d'))).
Proof.
  intros d h rx now ok sok d' reply H PH HC EV ST. pose proof (history_configured _ _ _ _ H) as CC.
  pose proof (history_inv conf c CC d h H) as I. pose proof (i_phase _ _ _ _ I) as IP.
  unfold phase_inv in IP. rewrite PH in IP. destruct IP as [SD _].
  unfold fw_step in ST. rewrite PH in ST.
  destruct (handle_message conf (d_kernel d) (d_fw d) rx now ok sok) as [[[k1 fw1] rp1] res1] eqn:HM.
  injection ST as <- <-. cbn [d_fw]. pose proof HM as HM0.
  apply (message_cases conf c CC) in HM; [|exact SD|apply I|intros b ->; exact EV].
  destruct HM as [(-> & -> & NA & _ & R)|(b & a & t & port & -> & AK & IA & PL & PP & OP & -> & _)].
  - left. split; [reflexivity|]. split; [exact NA|]. intros b a t port -> AK.
    destruct (R _ _ _ _ eq_refl AK) as [E W]. split; [exact E|].
    destruct (asks_unique _ _ _ _ _ _ _ EV AK AK) as (_ & _ & _ & IA).
    destruct (plausible_dec a IA) as [PL|PL]; [|left; left; exact PL].
    destruct (permitted_dec port) as [PP|PP]; [|left; right; exact PP].
    right. destruct (handle_open b a t port (d_kernel d) (d_fw d) now ok sok EV AK PL PP) as (res & HO).
    rewrite HM0 in HO.
    destruct (open_port conf (d_kernel d) (d_fw d) now a (lease_port_of t port) ok) as [[k2 fw2] r2] eqn:OP.
    injection HO as _ _ E2 _.
    apply (open_result CC) in OP; auto.
    + destruct OP as [(_ & -> & _)|(NI & NS & _)]; [|auto]. rewrite E in E2. discriminate E2.
    + apply I.
    + rewrite lp_number_of. apply PP.
    + apply (lease_keys_nodup conf c d h H).
    + intros l J. destruct (i_lease _ _ _ _ I _ _ J) as [K _]. injection K as -> ->. auto.
  - right. exists b, a, t, port. split; [reflexivity|]. split; [exact AK|]. split; [reflexivity|].
    split; [exact PL|]. split; [exact PP|].
    apply (open_result CC) in OP; auto.
    + destruct OP as [(A & _ & B)|(_ & _ & (e & X) & _)]; [auto|discriminate X].
    + apply I.
    + rewrite lp_number_of. apply PP.
    + apply (lease_keys_nodup conf c d h H).
    + intros l J. destruct (i_lease _ _ _ _ I _ _ J) as [K _]. injection K as -> ->. auto.
Qed.

Lemma maintain_leases : forall d h now o1 o2 lok dok rok d' reply, history conf c d h -> d_phase d = PhRun ->
  event_ok c d (FwMaintain now o1 o2 lok dok rok) ->
  fw_step conf d (FwMaintain now o1 o2 lok dok rok) = Some (d', reply) ->
  fw_leases (d_fw d') = filter (fun x => negb (is_timed_out (snd x) now)) (fw_leases (d_fw d))
  /\ k_chains (d_kernel d') = k_chains (d_kernel d).
Proof.
  intros d h now o1 o2 lok dok rok d' reply H PH [O1 O2] ST.
  pose proof (history_configured _ _ _ _ H) as CC. pose proof (history_inv conf c CC d h H) as I.
  unfold fw_step in ST. rewrite PH in ST.
  destruct (maintain conf (d_kernel d) (d_fw d) now o1 o2 lok dok rok) as [[k1 fw1] r1] eqn:MT.
  apply (maintain_cases conf c CC d h) in MT; auto. destruct MT as (-> & _ & _ & CH & _).
  injection ST as <- _. auto.
Qed.

Lemma start_chain : forall k exe ok k' d, configured_chain conf c -> fw_start conf k exe ok = (k', Ok d) ->
  fw_leases (d_fw d) = [] /\ has_chain (d_kernel d) c = true.
Proof.
  intros k exe ok k' d CC H.
  destruct (inv_start conf c CC _ _ _ _ _ H) as (_ & E & _ & L & _). split; [exact L|].
  pose proof (start_cases conf k exe ok k' (Ok d) H) as SC.
  destruct SC as [(d' & c' & [= <-] & CC' & HC & _)|(_ & (e & X) & _)]; [|discriminate X].
  assert (c' = c) as ->.
  { pose proof (names_ok conf c CC) as X1. pose proof (names_ok conf c' CC') as X2. congruence. }
  rewrite E.
  unfold fw_start, fw_new in H. destruct exe; [|discriminate H].
  destruct (full_rebuild conf k (Firewall [] false) (fun l => l) ok) as [k1 r] eqn:RB.
  apply (rebuild_running conf c CC) in RB; [|contradiction|reflexivity].
  destruct RB as [(-> & _ & _ & _ & CH)|(_ & (e & ->) & _)]; [|discriminate H].
  injection H as -> _. unfold has_chain. rewrite CH. exact HC.
Qed.

Definition keeps_chain (h : hist) : Prop :=
  forall k r, In (FwExternal k, r) h -> has_chain k c = true.

Lemma message_chain : forall d h rx now ok sok d' reply, history conf c d h -> d_phase d = PhRun ->
  event_ok c d (FwMessage rx now ok sok) ->
  fw_step conf d (FwMessage rx now ok sok) = Some (d', reply) ->
  k_chains (d_kernel d') = k_chains (d_kernel d).
Proof.
  intros d h rx now ok sok d' reply H PH EV ST.
  pose proof (history_configured _ _ _ _ H) as CC. pose proof (history_inv conf c CC d h H) as I.
  pose proof (i_phase _ _ _ _ I) as IP. unfold phase_inv in IP. rewrite PH in IP.
  unfold fw_step in ST. rewrite PH in ST.
  destruct (handle_message conf (d_kernel d) (d_fw d) rx now ok sok) as [[[k1 fw1] rp1] res1] eqn:HM.
  injection ST as <- _. cbn [d_kernel].
  apply (message_cases conf c CC) in HM; [|apply IP|apply I|intros b ->; exact EV].
  destruct HM as [(-> & _)|(b' & a' & t' & port' & _ & _ & _ & _ & PP' & OP & _ & _)]; [reflexivity|].
  apply (open_port_cases conf c CC) in OP; [|apply IP|apply I|rewrite lp_number_of; apply PP'].
  destruct OP as [(_ & -> & _)|[(_ & _ & _ & _ & _ & _ & _ & CH)|(-> & _)]]; auto.
Qed.

Lemma chain_there : forall d h, history conf c d h -> d_phase d = PhRun -> keeps_chain h ->
  has_chain (d_kernel d) c = true.
Proof.
  intros d h H. induction H as [k exe ok k' d CC ST|d h ev d' reply H IH EV ST]; intros PH KC.
  - apply (start_chain _ _ _ _ _ CC ST).
  - pose proof (running_before _ _ _ _ _ H EV ST PH) as PH0.
    assert (has_chain (d_kernel d) c = true) as HC.
    { apply IH; [exact PH0|]. intros k r J. apply (KC k r). apply in_or_app. left. exact J. }
    destruct ev as [r now ok sok|now o1 o2 lok dok rok|ok|k].
    + unfold has_chain. rewrite (message_chain _ _ _ _ _ _ _ _ H PH0 EV ST). exact HC.
    + unfold has_chain. rewrite (proj2 (maintain_leases _ _ _ _ _ _ _ _ _ _ H PH0 EV ST)). exact HC.
    + destruct (shutdown_step conf c d h H ok d' reply ST) as (X & _). congruence.
    + unfold fw_step in ST. injection ST as <- E. cbn [d_kernel]. apply (KC k reply).
      apply in_or_app. right. left. reflexivity.
Qed.

Lemma differ_keeps : forall src h1 h2, differ_elsewhere c src h1 h2 -> keeps_chain h1 /\ keeps_chain h2.
Proof.
  assert (forall h x, keeps_chain h -> match fst x with FwExternal k => has_chain k c = true | _ => True end ->
          keeps_chain (h ++ [x])) as S.
  { intros h x K X k r J. apply in_app_or in J. destruct J as [J|[->|[]]]; [exact (K k r J)|exact X]. }
  intros src h1 h2 D. induction D as [|h1 h2 ev r D IH E|h1 h2 ev r D IH E|h1 h2 rx t ok s1 s2 r1 r2 D IH
      |h1 h2 now o1 o2 a1 a2 a3 p1 p2 b1 b2 b3 r1 r2 D IH]; try destruct IH as [K1 K2].
  - split; intros k r [].
  - split; [apply S; [exact K1|]|exact K2]. destruct ev; cbn [fst]; auto.
  - split; [exact K1|apply S; [exact K2|]]. destruct ev; cbn [fst]; auto.
  - split; apply S; cbn [fst]; auto.
  - split; apply S; cbn [fst]; auto.
Qed.

(** The leases of a host. *)
Definition own (src : ip) (d : daemon) (i : lease_id) (l : lease) : Prop :=
  same_host (fst i) src /\ In (i, l) (fw_leases (d_fw d)).

Lemma elsewhere_own : forall src d h ev d' reply, history conf c d h -> d_phase d = PhRun ->
  has_chain (d_kernel d) c = true -> event_ok c d ev -> elsewhere c src ev ->
  fw_step conf d ev = Some (d', reply) -> forall i l, own src d' i l <-> own src d i l.
Proof.
  intros src d h ev d' reply H PH HC EV EL ST i l. destruct ev as [rx now ok sok|now o1 o2 lok dok rok|ok|k].
  - destruct (message_leases _ _ _ _ _ _ _ _ H PH HC EV ST)
      as [(E & _)|(b & a & t & port & -> & AK & _ & _ & _ & _ & NO)]; unfold own.
    + rewrite E. tauto.
    + cbn in EL. specialize (EL _ _ _ AK). rewrite (NO i l). cbn [fst snd]. split.
      * intros (S & [(-> & _)|(_ & J)]); [contradiction|auto].
      * intros (S & J). split; [exact S|]. right. split; [|exact J]. intros ->. exact (EL S).
  - destruct EL.
  - destruct EL.
  - unfold fw_step in ST. injection ST as <- _. unfold own. cbn [d_fw]. tauto.
Qed.

Lemma own_agree : forall src h1 h2, differ_elsewhere c src h1 h2 ->
  forall d1 d2, history conf c d1 h1 -> history conf c d2 h2 -> d_phase d1 = PhRun -> d_phase d2 = PhRun ->
  forall i l, own src d1 i l <-> own src d2 i l.
Proof.
  intros src h1 h2 D. induction D as [|h1 h2 ev r D IH E|h1 h2 ev r D IH E|h1 h2 rx t ok s1 s2 r1 r2 D IH
      |h1 h2 now o1 o2 a1 a2 a3 p1 p2 b1 b2 b3 r1 r2 D IH]; intros d1 d2 H1 H2 PH1 PH2 i l.
  - assert (forall d, history conf c d [] -> fw_leases (d_fw d) = []) as Z.
    { intros d H. remember [] as g eqn:G. destruct H as [k exe ok k' d CC ST|d0 h0 ev d' reply H EV ST].
      - apply (start_chain _ _ _ _ _ CC ST).
      - destruct h0; discriminate G. }
    unfold own. rewrite (Z _ H1), (Z _ H2). tauto.
  - apply history_last in H1. destruct H1 as (d0 & H1 & EV & ST). cbn [fst snd] in *.
    pose proof (running_before _ _ _ _ _ H1 EV ST PH1) as P0. destruct (differ_keeps _ _ _ D) as [K1 _].
    rewrite (elsewhere_own src _ _ _ _ _ H1 P0 (chain_there _ _ H1 P0 K1) EV E ST). apply IH; auto.
  - apply history_last in H2. destruct H2 as (d0 & H2 & EV & ST). cbn [fst snd] in *.
    pose proof (running_before _ _ _ _ _ H2 EV ST PH2) as P0. destruct (differ_keeps _ _ _ D) as [_ K2].
    rewrite (elsewhere_own src _ _ _ _ _ H2 P0 (chain_there _ _ H2 P0 K2) EV E ST). apply IH; auto.
  - apply history_last in H1. destruct H1 as (e1 & H1 & EV1 & ST1).
    apply history_last in H2. destruct H2 as (e2 & H2 & EV2 & ST2). cbn [fst snd] in *.
    pose proof (running_before _ _ _ _ _ H1 EV1 ST1 PH1) as P1.
    pose proof (running_before _ _ _ _ _ H2 EV2 ST2 PH2) as P2. destruct (differ_keeps _ _ _ D) as [K1 K2].
    specialize (IH _ _ H1 H2 P1 P2).
    pose proof (chain_there _ _ H1 P1 K1) as C1. pose proof (chain_there _ _ H2 P2 K2) as C2.
    assert (forall da ha db hb sa sb da' db' ra rb, history conf c da ha -> history conf c db hb ->
      d_phase da = PhRun -> d_phase db = PhRun -> has_chain (d_kernel da) c = true -> has_chain (d_kernel db) c = true ->
      event_ok c da (FwMessage rx t ok sa) -> event_ok c db (FwMessage rx t ok sb) ->
      fw_step conf da (FwMessage rx t ok sa) = Some (da', ra) ->
      fw_step conf db (FwMessage rx t ok sb) = Some (db', rb) ->
      (forall i l, own src da i l <-> own src db i l) -> own src da' i l -> own src db' i l) as STEP.
    { clear. intros da ha db hb sa sb da' db' ra rb Ha Hb Pa Pb Ca Cb Ea Eb Sa Sb AG [S J].
      destruct (message_leases _ _ _ _ _ _ _ _ Ha Pa Ca Ea Sa)
        as [(La & _ & Ra)|(b & a & pt & port & -> & AK & _ & PL & PP & W & NO)].
      - rewrite La in J. destruct (proj1 (AG i l) (conj S J)) as [_ J'].
        destruct (message_leases _ _ _ _ _ _ _ _ Hb Pb Cb Eb Sb)
          as [(Lb & _)|(b & a & pt & port & -> & AK & _ & PL & PP & W & NO)].
        + split; [exact S|]. rewrite Lb. exact J'.
        + split; [exact S|]. apply NO. right. split; [|exact J']. intros ->.
          destruct (Ra _ _ _ _ eq_refl AK) as [_ [[X|X]|[X _]]]; try contradiction. exact (X l J).
      - destruct (message_leases _ _ _ _ _ _ _ _ Hb Pb Cb Eb Sb)
          as [(Lb & _ & Rb)|(b' & a' & pt' & port' & X & AK' & _ & _ & _ & W' & NO')].
        + destruct (Rb _ _ _ _ eq_refl AK) as [_ [[X|X]|[X Y]]]; try contradiction.
          apply NO in J. destruct J as [(-> & ->)|(NE & J)].
          * exfalso. destruct W as [(l0 & J0)|W]; [|exact (Y W)].
            destruct (proj1 (AG _ _) (conj S J0)) as [_ J1]. exact (X _ J1).
          * destruct (proj1 (AG i l) (conj S J)) as [_ J']. split; [exact S|]. rewrite Lb. exact J'.
        + injection X as <-. destruct (asks_unique _ _ _ _ _ _ _ Ea AK AK') as (-> & -> & -> & _).
          split; [exact S|]. apply NO'. apply NO in J. destruct J as [J|(NE & J)]; [left; exact J|].
          right. split; [exact NE|]. apply (proj1 (AG i l) (conj S J)). }
    split.
    + exact (STEP _ _ _ _ _ _ _ _ _ _ H1 H2 P1 P2 C1 C2 EV1 EV2 ST1 ST2 IH).
    + apply (STEP _ _ _ _ _ _ _ _ _ _ H2 H1 P2 P1 C2 C1 EV2 EV1 ST2 ST1).
      intros i0 l0. symmetry. apply IH.
  - apply history_last in H1. destruct H1 as (e1 & H1 & EV1 & ST1).
    apply history_last in H2. destruct H2 as (e2 & H2 & EV2 & ST2). cbn [fst snd] in *.
    pose proof (running_before _ _ _ _ _ H1 EV1 ST1 PH1) as P1.
    pose proof (running_before _ _ _ _ _ H2 EV2 ST2 PH2) as P2.
    specialize (IH _ _ H1 H2 P1 P2 i l). unfold own in *.
    rewrite (proj1 (maintain_leases _ _ _ _ _ _ _ _ _ _ H1 P1 EV1 ST1)).
    rewrite (proj1 (maintain_leases _ _ _ _ _ _ _ _ _ _ H2 P2 EV2 ST2)).
    rewrite !filter_In. tauto.
Qed.

(** While the daemon runs, the chain lets in what the leases say. *)
Lemma accepts_own : forall d h, history conf c d h -> d_phase d = PhRun ->
  forall pk, ip_address (pk_src pk) ->
  (chain_accepts (d_kernel d) c pk <->
   traverses c pk /\ (to_control_port conf pk
     \/ exists i l, own (pk_src pk) d i l /\ exists p, In p (single_ports (snd i)) /\ sp_matches pk p)).
Proof.
  intros d h H PH pk HS. pose proof (history_configured _ _ _ _ H) as CC.
  pose proof (history_inv conf c CC d h H) as I. pose proof (i_phase _ _ _ _ I) as IP.
  unfold phase_inv in IP. rewrite PH in IP. destruct IP as [_ PM].
  assert (forall i l, In (i, l) (fw_leases (d_fw d)) -> i = (l_addr l, l_port l) /\ ip_address (l_addr l)) as LK.
  { intros i l J. destruct (i_lease _ _ _ _ I _ _ J) as (A & B & _). auto. }
  split.
  - intros A. apply accepts_contents in A. destruct A as (T & w & W & X). split; [exact T|].
    apply (Permutation_in w PM) in W. apply in_app_or in W. destruct W as [W|W].
    + left. apply control_accepts. eauto.
    + right. apply in_flat_map in W. destruct W as (l & L & W). unfold leases in L.
      apply in_map_iff in L. destruct L as ([i l'] & E & J). cbn [snd] in E. subst l'.
      destruct (LK i l J) as [-> IA]. exists (l_addr l, l_port l), l.
      destruct (proj1 (lease_accepts pk l IA HS)) as [S P]; [eauto|]. split; [split; [exact S|exact J]|exact P].
  - intros (T & A). apply (accepts_leases conf c d h H (or_introl PH) pk HS T).
    destruct A as [A|(i & l & [S J] & P)]; [left; exact A|right].
    destruct (LK i l J) as [-> _]. exists l. split; [|split; [exact S|exact P]].
    unfold leases. apply in_map_iff. exists ((l_addr l, l_port l), l). auto.
Qed.

Theorem access_apart : forall src h1 h2 d1 d2, differ_elsewhere c src h1 h2 ->
  history conf c d1 h1 -> history conf c d2 h2 -> d_phase d1 = PhRun -> d_phase d2 = PhRun ->
  forall pk, pk_src pk = src -> ip_address src ->
  (chain_accepts (d_kernel d1) c pk <-> chain_accepts (d_kernel d2) c pk).
Proof.
  intros src h1 h2 d1 d2 D H1 H2 P1 P2 pk <- IA.
  rewrite (accepts_own _ _ H1 P1 pk IA), (accepts_own _ _ H2 P2 pk IA).
  pose proof (own_agree _ _ _ D _ _ H1 H2 P1 P2) as AG.
  assert (forall i l, own (pk_src pk) d1 i l <-> own (pk_src pk) d2 i l) as AG' by exact AG.
  split; intros (T & [A|(i & l & O & P)]); (split; [exact T|]); auto; right; exists i, l; (split; [|exact P]);
    apply AG'; exact O.
Qed.

Theorem reply_apart : forall src h1 h2 d1 d2, differ_elsewhere c src h1 h2 ->
  forall b a pt port t ok s1 s2 r1 r2, asks b a pt port -> same_host a src ->
  history conf c d1 (h1 ++ [(FwMessage (FwRxBuf b) t ok s1, r1)]) ->
  history conf c d2 (h2 ++ [(FwMessage (FwRxBuf b) t ok s2, r2)]) ->
  d_phase d1 = PhRun -> d_phase d2 = PhRun -> r1 = r2.
Proof.
  intros src h1 h2 d1 d2 D b a pt port t ok s1 s2 r1 r2 AK SH H1 H2 PH1 PH2.
  apply history_last in H1. destruct H1 as (e1 & H1 & EV1 & ST1).
  apply history_last in H2. destruct H2 as (e2 & H2 & EV2 & ST2). cbn [fst snd] in *.
  pose proof (running_before _ _ _ _ _ H1 EV1 ST1 PH1) as P1.
  pose proof (running_before _ _ _ _ _ H2 EV2 ST2 PH2) as P2. destruct (differ_keeps _ _ _ D) as [K1 K2].
  pose proof (own_agree _ _ _ D _ _ H1 H2 P1 P2) as AG.
  pose proof (chain_there _ _ H1 P1 K1) as C1. pose proof (chain_there _ _ H2 P2 K2) as C2.
  destruct (message_leases _ _ _ _ _ _ _ _ H1 P1 C1 EV1 ST1)
    as [(_ & _ & R1)|(b1 & a1 & pt1 & port1 & E1 & AK1 & -> & PL1 & PP1 & W1 & _)];
  destruct (message_leases _ _ _ _ _ _ _ _ H2 P2 C2 EV2 ST2)
    as [(_ & _ & R2)|(b2 & a2 & pt2 & port2 & E2 & AK2 & -> & PL2 & PP2 & W2 & _)].
  - destruct (R1 _ _ _ _ eq_refl AK) as [-> _]. destruct (R2 _ _ _ _ eq_refl AK) as [-> _]. reflexivity.
  - exfalso. injection E2 as <-. destruct (asks_unique _ _ _ _ _ _ _ EV1 AK AK2) as (-> & -> & -> & _).
    destruct (R1 _ _ _ _ eq_refl AK) as [_ [[X|X]|[X Y]]]; try contradiction.
    destruct W2 as [(l & J)|W]; [|exact (Y W)].
    apply (X l). apply (proj2 (AG (a, lease_port_of pt port) l)). split; [exact SH|exact J].
  - exfalso. injection E1 as <-. destruct (asks_unique _ _ _ _ _ _ _ EV1 AK AK1) as (-> & -> & -> & _).
    destruct (R2 _ _ _ _ eq_refl AK) as [_ [[X|X]|[X Y]]]; try contradiction.
    destruct W1 as [(l & J)|W]; [|exact (Y W)].
    apply (X l). apply (proj1 (AG (a, lease_port_of pt port) l)). split; [exact SH|exact J].
  - reflexivity.
Qed.

End Apart.
