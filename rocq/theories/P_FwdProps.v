(** Consequences of the firewall daemon's invariant. *)

From Coq Require Import String ZArith NArith List Bool Lia ZifyBool ZifyNat ZifyN Permutation.
From Verif Require Import M_Base M_IpAddr M_FwProto M_ConfTypes M_Server M_Text M_Firewall
  S_Wire S_Ip S_Firewall P_Base P_FwProto P_Text P_IpParse P_IpFmt P_Firewall P_Fwd.
Import ListNotations.
Local Open Scope N_scope.

(** ** Meaning of rules *)

Lemma mapped_none : forall o v, to_ipv4_mapped o = None -> length v = 4%nat ->
  V6 o <> V6 (mapped_prefix ++ v).
Proof.
  intros o v M L E. assert (o = mapped_prefix ++ v) as EO by (inversion E; reflexivity).
  rewrite EO in M. unfold mapped_prefix in M. rewrite (mapped_of v L) in M. discriminate.
Qed.

Lemma ipv4_unique : forall o o', length o = 4%nat -> all_bytes o -> ipv4_text (fmt_ipv4 o) o' <-> o' = o.
Proof.
  intros o o' L B. assert (D : address_text (fmt_ipv4 o) (V4 o)) by (apply (fmt_ip_denotes (V4 o)); split; auto).
  split; [|intros ->; exact D]. intros H. assert (V4 o = V4 o') as E by exact (address_text_fun _ (V4 o) (V4 o') D H). congruence.
Qed.
Lemma ipv6_unique : forall o o', length o = 16%nat -> all_bytes o -> ipv6_text (fmt_ipv6 o) o' <-> o' = o.
Proof.
  intros o o' L B. assert (D : address_text (fmt_ipv6 o) (V6 o)) by (apply (fmt_ip_denotes (V6 o)); split; auto).
  split; [|intros ->; exact D]. intros H. assert (V6 o = V6 o') as E by exact (address_text_fun _ (V6 o) (V6 o') D H). congruence.
Qed.

Lemma source_matches : forall a pk, ip_address a -> ip_address (pk_src pk) ->
  (matches pk (source_match a) <-> same_host a (pk_src pk)).
Proof.
  intros [o|o] pk [HL HB] HS.
  - cbn [source_match matches]. split.
    + intros (o' & E & F). apply ipv4_unique in F; auto. subst o'. right. split; [exact E|discriminate].
    + intros [(v & _ & [=] & _)|[E _]]. exists o. split; [exact E|]. apply ipv4_unique; auto.
  - unfold source_match. destruct (to_ipv4_mapped o) as [v|] eqn:M.
    + destruct (mapped_spec _ _ M) as [LV EO]. cbn [matches].
      assert (BV : all_bytes v) by (intros x X; apply HB; rewrite EO; apply in_or_app; right; exact X). split.
      * intros (o' & E & F). apply ipv4_unique in F; auto. subst o'. left. exists v.
        split; [exact LV|]. split; [|exact E]. rewrite EO. reflexivity.
      * intros [(w & LW & E & ES)|[_ NM]].
        -- exists w. split; [exact ES|]. apply ipv4_unique; auto.
           assert (o = mapped_prefix ++ w) as E' by (inversion E; reflexivity). rewrite EO in E'.
           apply app_inv_head in E'. symmetry. exact E'.
        -- exfalso. apply (NM v LV). rewrite EO. reflexivity.
    + cbn [matches]. split.
      * intros (o' & E & F). right. apply ipv6_unique in F; auto. subst o'.
        split; [exact E|]. intros w LW. apply mapped_none; auto.
      * intros [(w & LW & E & _)|[E _]].
        -- exfalso. eapply mapped_none; eauto.
        -- exists o. split; [exact E|]. apply ipv6_unique; auto.
Qed.

Definition sp_matches (pk : packet) (p : single_port) : Prop := matches pk (MatchDport p).

Lemma want_none_accepts : forall pk p, expr_accepts pk (snd (want None p)) <-> sp_matches pk p.
Proof.
  intros pk p. unfold want, sp_matches. simpl snd. cbn [expr_accepts]. tauto.
Qed.

Lemma want_some_accepts : forall pk a p, ip_address a -> ip_address (pk_src pk) ->
  (expr_accepts pk (snd (want (Some a) p)) <-> same_host a (pk_src pk) /\ sp_matches pk p).
Proof.
  intros pk a p HA HS. rewrite <- (source_matches a pk HA HS). unfold want, sp_matches. simpl snd.
  assert (source_match a <> Accept) as NA.
  { destruct a as [o|o]; simpl; [discriminate|]. destruct (to_ipv4_mapped o); discriminate. }
  cbn [expr_accepts]. destruct (source_match a); try congruence; tauto.
Qed.

Lemma single_ports_cover : forall pk t port,
  (exists p, In p (single_ports (lease_port_of t port)) /\ sp_matches pk p) <-> port_covers t port pk.
Proof.
  intros pk t port. unfold port_covers, sp_matches.
  destruct t; simpl; split.
  - intros (p & [<-|[]] & E & F). rewrite E. auto.
  - intros [E F]. destruct (pk_transport pk) eqn:T; [|contradiction]. exists (SpTcp port). simpl. auto.
  - intros (p & [<-|[]] & E & F). rewrite E. auto.
  - intros [E F]. destruct (pk_transport pk) eqn:T; [contradiction|]. exists (SpUdp port). simpl. auto.
  - intros (p & [<-|[<-|[]]] & E & F); auto.
  - intros [E F]. destruct (pk_transport pk) eqn:T.
    + exists (SpTcp port). simpl. auto.
    + exists (SpUdp port). simpl. auto.
Qed.

Lemma ctrl_ports_cover : forall conf pk,
  (exists p, In p (ctrl_ports conf) /\ sp_matches pk p) <-> to_control_port conf pk.
Proof.
  intros conf pk. unfold ctrl_ports, to_control_port, sp_matches. split.
  - intros (p & I & M). apply in_app_or in I. destruct I as [I|I].
    + destruct (cp_tcp (c_port conf)) eqn:T; [|contradiction]. destruct I as [<-|[]].
      simpl in M. destruct M as [-> ->]. auto.
    + destruct (cp_udp (c_port conf)) eqn:T; [|contradiction]. destruct I as [<-|[]].
      simpl in M. destruct M as [-> ->]. auto.
  - intros [P T]. destruct (pk_transport pk) eqn:TR; rewrite T.
    + exists (SpTcp (cp_port (c_port conf))). split; [left; reflexivity|]. simpl. auto.
    + exists (SpUdp (cp_port (c_port conf))). split; [apply in_or_app; right; left; reflexivity|].
      simpl. auto.
Qed.

Lemma accepts_contents : forall c k pk,
  chain_accepts k c pk <->
  traverses c pk /\ exists w, In w (contents c k) /\ expr_accepts pk (snd w).
Proof.
  intros c k pk. unfold chain_accepts, contents. split; intros [T H]; (split; [exact T|]).
  - destruct H as (r & I & E & A). exists (content r). split; [|exact A].
    apply in_map. apply filter_In. split; [exact I|]. apply chain_eqb_spec. exact E.
  - destruct H as (w & I & A). apply in_map_iff in I. destruct I as (r & <- & I).
    apply filter_In in I. destruct I as [I E]. exists r. split; [exact I|].
    split; [apply chain_eqb_spec; exact E|exact A].
Qed.

Lemma control_accepts : forall conf pk,
  (exists w, In w (control_contents conf) /\ expr_accepts pk (snd w)) <-> to_control_port conf pk.
Proof.
  intros conf pk. rewrite <- ctrl_ports_cover, control_contents_want. split.
  - intros (w & I & A). apply in_map_iff in I. destruct I as (p & <- & I).
    exists p. split; [exact I|]. apply (proj1 (want_none_accepts pk p)). exact A.
  - intros (p & I & M). exists (want None p). split; [apply in_map; exact I|].
    apply (proj2 (want_none_accepts pk p)). exact M.
Qed.

Lemma lease_accepts : forall pk l, ip_address (l_addr l) -> ip_address (pk_src pk) ->
  ((exists w, In w (lease_contents l) /\ expr_accepts pk (snd w)) <->
   same_host (l_addr l) (pk_src pk) /\ exists p, In p (single_ports (l_port l)) /\ sp_matches pk p).
Proof.
  intros pk l HA HS. rewrite lease_contents_want. split.
  - intros (w & I & A). apply in_map_iff in I. destruct I as (p & <- & I).
    apply want_some_accepts in A; auto. destruct A as [A B]. split; [exact A|]. eauto.
  - intros (S & p & I & M). exists (want (Some (l_addr l)) p). split; [apply in_map; exact I|].
    apply want_some_accepts; auto.
Qed.

Lemma supported_traverses : forall c a pk, supported c a -> same_host a (pk_src pk) -> traverses c pk.
Proof.
  intros c a pk S [(o & LO & -> & ES)|[ES NM]]; unfold supported, traverses in *.
  - rewrite ES. unfold match_saddr in S. unfold mapped_prefix in S. rewrite (mapped_of o LO) in S. destruct (cn_family c); auto. discriminate.
  - rewrite ES. destruct a as [o|o]; simpl in S.
    + destruct (cn_family c); auto. discriminate.
    + destruct (to_ipv4_mapped o) as [v|] eqn:M.
      * exfalso. destruct (mapped_spec _ _ M) as [LV EO]. apply (NM v LV). rewrite EO. reflexivity.
      * destruct (cn_family c); auto. discriminate.
Qed.

Lemma family_supported : forall c a src, same_host a src ->
  match cn_family c, src with INet, _ => True | FIp, V4 _ => True | FIp6, V6 _ => True | _, _ => False end ->
  supported c a.
Proof.
  intros c a src SH F. unfold supported. destruct a as [o|o]; simpl.
  - destruct SH as [(v & _ & [=] & _)|[-> _]]. destruct (cn_family c); auto. contradiction.
  - destruct (to_ipv4_mapped o) as [v|] eqn:M.
    + destruct (mapped_spec _ _ M) as [LV EO].
      destruct SH as [(w & LW & E & ->)|[_ NM]].
      * destruct (cn_family c); auto. contradiction.
      * exfalso. apply (NM v LV). rewrite EO. reflexivity.
    + destruct SH as [(w & LW & E & ->)|[-> _]].
      * exfalso. eapply mapped_none; eauto.
      * destruct (cn_family c); auto. contradiction.
Qed.

(** ** Leases and grants *)

Section Daemon.
Variable conf : config.
Variable c : chain_name.

Lemma history_configured : forall d h, history conf c d h -> configured_chain conf c.
Proof. intros d h H. induction H; auto. Qed.

Lemma monotone_prefix : forall h x, clock_monotone (h ++ [x]) -> clock_monotone h.
Proof.
  intros h x M p y q z r t u E. eapply (M p y q z (r ++ [x])). rewrite E, <- app_assoc. simpl.
  rewrite <- app_assoc. reflexivity.
Qed.

Lemma lp_of_inj : forall t p t' p', lease_port_of t p = lease_port_of t' p' -> t = t' /\ p = p'.
Proof. intros [] p [] p' E; simpl in E; try discriminate; injection E as ->; auto. Qed.

Lemma snoc_split : forall (A : Type) (h : list A) y pre x post, h ++ [y] = pre ++ x :: post ->
  (post = [] /\ pre = h /\ x = y) \/ exists post', post = post' ++ [y] /\ h = pre ++ x :: post'.
Proof.
  intros A h y pre x post E. destruct post as [|z post _] using rev_ind.
  - left. apply app_inj_tail in E. destruct E. auto.
  - right. exists post. rewrite app_comm_cons, app_assoc in E. apply app_inj_tail in E.
    destruct E as [-> ->]. auto.
Qed.

(** Every live grant has a lease. *)
Lemma live_lease : forall d h, history conf c d h -> clock_monotone h -> serving d ->
  forall pre x post t a pt port, h = pre ++ x :: post -> acked x t a pt port -> fresh conf t post ->
  exists l, In ((a, lease_port_of pt port), l) (fw_leases (d_fw d)) /\ t + c_nft_timeout conf <= l_timeout l.
Proof.
  intros d h H. pose proof (history_configured d h H) as CC.
  induction H as [k exe ok k' d _ ST|d h ev d' reply H IH EV ST]; intros MONO SV pre x post t a pt port E A F.
  - destruct pre; discriminate.
  - pose proof (history_inv conf c CC d h H) as I.
    apply snoc_split in E. destruct E as [(-> & -> & ->)|(post' & -> & EH)].
    + destruct A as (b & ok & sok & [= -> ->] & AK).
      assert (exists k1 fw1 res, handle_message conf (d_kernel d) (d_fw d) (FwRxBuf b) t ok sok
                = (k1, fw1, Some fw_new_ack, res)
               /\ d_fw d' = fw1 /\ fw_shutdown (d_fw d) = false) as (k1 & fw1 & res & HM & ED & SD).
      { pose proof (i_phase _ _ _ _ I) as IP. unfold phase_inv in IP. unfold fw_step in ST.
        destruct (d_phase d) eqn:EP; try discriminate;
          destruct (handle_message conf (d_kernel d) (d_fw d) (FwRxBuf b) t ok sok) as [[[k1 fw1] rp1] res1] eqn:HM;
          injection ST as <- ->; exists k1, fw1, res1; (split; [reflexivity|]); (split; [reflexivity|apply IP]). }
      pose proof HM as MC. apply (message_cases conf c CC) in MC; auto.
      2:{ apply I. }
      2:{ intros b' [= <-]. exact EV. }
      destruct MC as [(_ & _ & NA & _)|(b' & a' & t' & port' & [= <-] & AK' & IA & PL & PP & OP & _ & _)]; [congruence|].
      assert (a' = a /\ t' = pt /\ port' = port) as (-> & -> & ->).
      { pose proof (asks_decode _ _ _ _ EV AK) as (m & D1 & _ & A1 & P1).
        pose proof (asks_decode _ _ _ _ EV AK') as (m' & D2 & _ & A2 & P2).
        rewrite D1 in D2. injection D2 as <-. rewrite A1 in A2. rewrite P1 in P2.
        injection A2 as <-. injection P2 as <- <-. auto. }
      apply (open_port_cases conf c CC) in OP; [|exact SD|apply I|rewrite lp_number_of; apply PP].
      rewrite ED. destruct OP as [(_ & _ & m & -> & U)|[(_ & _ & -> & _)|(_ & _ & (e & E) & _)]]; [| |discriminate].
      * pose proof (map_update_some _ _ _ _ U) as ((l0 & J) & _ & U3).
        destruct (i_lease _ _ _ _ I _ _ J) as (EI & _).
        destruct (U3 _ _ J) as [J'|(_ & J')].
        -- (* the first match was refreshed, so some refreshed lease is there *)
           clear U3. exists (refresh_timeout conf t l0). cbn [fw_leases].
           assert (forall m0 m1, map_update m0 (a, lease_port_of pt port) (refresh_timeout conf t) = Some m1 ->
                   exists l2, In ((a, lease_port_of pt port), refresh_timeout conf t l2) m1
                              /\ In ((a, lease_port_of pt port), l2) m0) as R.
           { induction m0 as [|[i l] m0 IHm]; intros m1 X; simpl in X; [discriminate|].
             destruct (id_eqb i (a, lease_port_of pt port)) eqn:Q.
             - apply id_eqb_spec in Q. subst i. injection X as <-. exists l. split; left; reflexivity.
             - destruct (map_update m0 (a, lease_port_of pt port) (refresh_timeout conf t)) as [m2|]; [|discriminate].
               injection X as <-. destruct (IHm m2 eq_refl) as (l2 & R1 & R2). exists l2. split; right; assumption. }
           destruct (R _ _ U) as (l2 & R1 & R2).
           destruct (i_lease _ _ _ _ I _ _ R2) as (EI2 & _).
           replace (refresh_timeout conf t l0) with (refresh_timeout conf t l2).
           ++ split; [exact R1|]. simpl. lia.
           ++ unfold refresh_timeout. congruence.
        -- exists (refresh_timeout conf t l0). split; [exact J'|]. simpl. lia.
      * eexists. split; [left; reflexivity|]. simpl. lia.
    + assert (serving d) as SV'.
      { unfold serving in *. unfold fw_step in ST. destruct ev; destruct (d_phase d); auto; try discriminate ST.
        injection ST as <- <-. simpl in SV. exact SV. injection ST as <- <-. simpl in SV. exact SV. }
      destruct (IH (monotone_prefix _ _ MONO) SV' pre x post' t a pt port EH A) as (l & J & LT).
      { intros n q1 q2 b1 b2 b3 rp X. eapply F. apply in_or_app. left. exact X. }
      unfold fw_step in ST. destruct ev as [r now ok sok|now o1 o2 lok dok rok|ok|k].
      * assert (exists k1 fw1 res, handle_message conf (d_kernel d) (d_fw d) r now ok sok = (k1, fw1, reply, res)
                /\ d_fw d' = fw1 /\ fw_shutdown (d_fw d) = false) as (k1 & fw1 & res & HM & ED & SD).
        { pose proof (i_phase _ _ _ _ I) as IP. unfold phase_inv in IP.
          destruct (d_phase d) eqn:EP; try discriminate;
            destruct (handle_message conf (d_kernel d) (d_fw d) r now ok sok) as [[[k1 fw1] rp1] res1] eqn:HM;
            injection ST as <- <-; exists k1, fw1, res1; (split; [reflexivity|]); (split; [reflexivity|apply IP]). }
        rewrite ED. apply (message_cases conf c CC) in HM; auto.
        2:{ apply I. }
        2:{ intros b' ->. exact EV. }
        destruct HM as [(_ & -> & _)|(b' & a' & t' & port' & _ & AK' & IA & PL & PP & OP & _ & _)]; [eauto|].
        apply (open_port_cases conf c CC) in OP; [|exact SD|apply I|rewrite lp_number_of; apply PP].
        destruct OP as [(_ & _ & m & -> & U)|[(_ & _ & -> & _)|(_ & _ & (e & E) & _)]]; [| |discriminate].
        -- pose proof (map_update_some _ _ _ _ U) as (_ & _ & U3).
           destruct (U3 _ _ J) as [J'|(EI & J')]; [eauto|].
           exists (refresh_timeout conf now l). rewrite EI. split; [exact J'|]. simpl.
           destruct A as (b & ok0 & sok0 & EX & _).
           assert (t <= now); [|lia].
           apply (MONO pre x post' (FwMessage r now ok sok, reply) []).
           ++ rewrite EH, <- app_assoc. reflexivity.
           ++ rewrite EX. reflexivity.
           ++ reflexivity.
        -- exists l. split; [right; exact J|exact LT].
      * destruct (d_phase d) eqn:PH; try discriminate.
        destruct (maintain conf (d_kernel d) (d_fw d) now o1 o2 lok dok rok) as [[k1 fw1] r1] eqn:MT.
        injection ST as <- <-. destruct EV as [ORD1 ORD2].
        apply (maintain_cases conf c CC d h) in MT; auto. destruct MT as (-> & _).
        exists l. split; [|exact LT]. cbn [d_fw fw_leases]. apply filter_In. split; [exact J|]. simpl.
        assert (now < t + c_nft_timeout conf).
        { eapply F. apply in_or_app. right. left. reflexivity. }
        unfold is_timed_out. lia.
      * exfalso. unfold serving in *. destruct SV' as [PH|PH]; rewrite PH in ST;
          destruct (fw_shutdown_op conf (d_kernel d) (d_fw d) ok) as [[k1 fw1] res1];
          injection ST as <- <-; simpl in SV; destruct res1; destruct SV; discriminate.
      * injection ST as <- <-. simpl. eauto.
Qed.

(** A lease exists exactly for live grants. *)
Lemma lease_iff_live : forall d h, history conf c d h -> clock_monotone h -> serving d ->
  forall a pt port,
  (exists l, In l (leases d) /\ l_addr l = a /\ l_port l = lease_port_of pt port)
  <-> live_grant conf h a pt port.
Proof.
  intros d h H MONO SV a pt port. pose proof (history_configured d h H) as CC.
  pose proof (history_inv conf c CC d h H) as I. split.
  - intros (l & J & EA & EP). apply in_map_iff in J. destruct J as ([id l'] & E & J). simpl in E. subst l'.
    destruct (i_lease _ _ _ _ I _ _ J) as (_ & _ & _ & pre & x & post & t & pt' & port' & EH & AK & LP & _ & _ & F).
    rewrite LP in EP. apply lp_of_inj in EP. destruct EP as [-> ->]. rewrite EA in AK.
    exists pre, x, post, t. auto.
  - intros (pre & x & post & t & EH & AK & F).
    destruct (live_lease d h H MONO SV pre x post t a pt port EH AK F) as (l & J & _).
    exists l. split; [apply in_map_iff; exists ((a, lease_port_of pt port), l); auto|].
    destruct (i_lease _ _ _ _ I _ _ J) as (E & _). injection E as -> ->. auto.
Qed.

Lemma accepts_leases : forall d h, history conf c d h -> serving d ->
  forall pk, ip_address (pk_src pk) -> traverses c pk ->
  (to_control_port conf pk \/ exists l, In l (leases d) /\ same_host (l_addr l) (pk_src pk)
     /\ exists p, In p (single_ports (l_port l)) /\ sp_matches pk p) ->
  chain_accepts (d_kernel d) c pk.
Proof.
  intros d h H SV pk HS TR Q. pose proof (history_configured d h H) as CC.
  pose proof (history_inv conf c CC d h H) as I.
  apply accepts_contents. split; [exact TR|].
  assert (forall w, In w (control_contents conf ++ flat_map lease_contents (leases d)) ->
          In w (contents c (d_kernel d))) as SUB.
  { intros w J. pose proof (i_phase _ _ _ _ I) as IP. unfold phase_inv in IP.
    destruct SV as [PH|PH]; rewrite PH in IP.
    - destruct IP as [_ IP]. symmetry in IP. apply (Permutation_in w IP J).
    - destruct IP as [_ (extra & IP)]. symmetry in IP. apply (Permutation_in w IP).
      apply in_or_app. left. exact J. }
  destruct Q as [Q|(l & J & SH & PM)].
  - apply control_accepts in Q. destruct Q as (w & J & A). exists w. split; [|exact A].
    apply SUB. apply in_or_app. left. exact J.
  - assert (ip_address (l_addr l)) as HA.
    { apply in_map_iff in J. destruct J as ([id l'] & E & J). simpl in E. subst l'.
      apply (i_lease _ _ _ _ I _ _ J). }
    destruct (proj2 (lease_accepts pk l HA HS) (conj SH PM)) as (w & K & A).
    exists w. split; [|exact A]. apply SUB. apply in_or_app. right. apply in_flat_map. eauto.
Qed.

Lemma accepts_exact : forall d h, history conf c d h -> clock_monotone h -> d_phase d = PhRun ->
  forall pk, ip_address (pk_src pk) ->
  (chain_accepts (d_kernel d) c pk <->
   traverses c pk
   /\ (to_control_port conf pk
       \/ exists a pt port, live_grant conf h a pt port /\ same_host a (pk_src pk)
          /\ port_covers pt port pk)).
Proof.
  intros d h H MONO PH pk HS. pose proof (history_configured d h H) as CC.
  pose proof (history_inv conf c CC d h H) as I.
  assert (serving d) as SV by (left; exact PH). split.
  - intros A. apply accepts_contents in A. destruct A as (TR & w & J & A). split; [exact TR|].
    pose proof (i_phase _ _ _ _ I) as IP. unfold phase_inv in IP. rewrite PH in IP. destruct IP as [_ IP].
    apply (Permutation_in w IP) in J. apply in_app_or in J. destruct J as [J|J].
    + left. apply control_accepts. eauto.
    + right. apply in_flat_map in J. destruct J as (l & J1 & J2).
      pose proof J1 as J3. apply in_map_iff in J3. destruct J3 as ([id l'] & E & J3). simpl in E. subst l'.
      destruct (i_lease _ _ _ _ I _ _ J3) as (_ & HA & _ & pre & x & post & t & pt & port & EH & AK & LP & _).
      destruct (proj1 (lease_accepts pk l HA HS)) as (SH & PM); [eauto|].
      exists (l_addr l), pt, port. split; [|split].
      * apply (lease_iff_live d h H MONO SV). exists l. auto.
      * exact SH.
      * apply single_ports_cover. rewrite <- LP. exact PM.
  - intros (TR & Q). apply (accepts_leases d h); auto.
    destruct Q as [Q|(a & pt & port & LG & SH & PC)]; [auto|]. right.
    apply (lease_iff_live d h H MONO SV) in LG. destruct LG as (l & J & EA & EP).
    exists l. split; [exact J|]. rewrite EA, EP. split; [exact SH|]. apply single_ports_cover. exact PC.
Qed.

(** Whatever fails, only granted packets get in. *)
Lemma accepts_granted : forall d h, history conf c d h ->
  forall pk, ip_address (pk_src pk) -> chain_accepts (d_kernel d) c pk ->
  to_control_port conf pk
  \/ exists a pt port, granted h a pt port /\ permitted_port conf port
     /\ same_host a (pk_src pk) /\ port_covers pt port pk.
Proof.
  intros d h H pk HS A. pose proof (history_configured d h H) as CC.
  pose proof (history_inv conf c CC d h H) as I.
  apply accepts_contents in A. destruct A as (_ & w & J & A).
  destruct (i_only _ _ _ _ I w J) as [C|(a & pt & port & p & G & IA & SU & PP & IP & ->)].
  - left. apply control_accepts. eauto.
  - right. apply want_some_accepts in A; auto. destruct A as [SH SM].
    exists a, pt, port. split; [exact G|]. split; [exact PP|]. split; [exact SH|].
    apply single_ports_cover. eauto.
Qed.

(** An acknowledged request takes effect. *)
Lemma ack_effective : forall d h, history conf c d h -> forall ev d' reply t a pt port,
  event_ok c d ev -> fw_step conf d ev = Some (d', reply) -> acked (ev, reply) t a pt port ->
  forall pk, same_host a (pk_src pk) -> ip_address (pk_src pk) -> port_covers pt port pk ->
  chain_accepts (d_kernel d') c pk.
Proof.
  intros d h H ev d' reply t a pt port EV ST AK pk SH HS PC.
  pose proof (history_configured d h H) as CC.
  assert (history conf c d' (h ++ [(ev, reply)])) as H' by (econstructor; eassumption).
  pose proof (history_inv conf c CC d h H) as I0.
  pose proof (history_inv conf c CC d' _ H') as I.
  assert (exists l, In ((a, lease_port_of pt port), l) (fw_leases (d_fw d')) /\ serving d') as (l & J & SV).
  { destruct AK as (b & ok & sok & [= -> ->] & AK). unfold fw_step in ST.
    assert (exists k1 fw1 res, handle_message conf (d_kernel d) (d_fw d) (FwRxBuf b) t ok sok
              = (k1, fw1, Some fw_new_ack, res)
             /\ d_fw d' = fw1 /\ fw_shutdown (d_fw d) = false
             /\ (res <> Panic -> serving d')) as (k1 & fw1 & res & HM & ED & SD & SV).
    { pose proof (i_phase _ _ _ _ I0) as IP. unfold phase_inv in IP. unfold serving.
      destruct (d_phase d) eqn:EP; try discriminate;
        destruct (handle_message conf (d_kernel d) (d_fw d) (FwRxBuf b) t ok sok) as [[[k1 fw1] rp1] res1] eqn:HM;
        injection ST as <- ->; exists k1, fw1, res1; (split; [reflexivity|]);
        (split; [reflexivity|split; [apply IP|]]); intros NP; destruct res1; simpl; auto; congruence. }
    pose proof HM as MC. apply (message_cases conf c CC) in MC; auto.
    2:{ apply I0. }
    2:{ intros b' [= <-]. exact EV. }
    destruct MC as [(_ & _ & NA & _)|(b' & a' & t' & port' & [= <-] & AK' & IA & PL & PP & OP & _ & NP)]; [congruence|].
    assert (a' = a /\ t' = pt /\ port' = port) as (-> & -> & ->).
    { pose proof (asks_decode _ _ _ _ EV AK) as (m & D1 & _ & A1 & P1).
      pose proof (asks_decode _ _ _ _ EV AK') as (m' & D2 & _ & A2 & P2).
      rewrite D1 in D2. injection D2 as <-. rewrite A1 in A2. rewrite P1 in P2.
      injection A2 as <-. injection P2 as <- <-. auto. }
    apply (open_port_cases conf c CC) in OP; [|exact SD|apply I0|rewrite lp_number_of; apply PP].
    rewrite ED. destruct OP as [(_ & _ & m & -> & U)|[(_ & _ & -> & _)|(_ & _ & (e & E) & _)]]; [| |discriminate].
    - pose proof (map_update_some _ _ _ _ U) as ((l0 & J) & _ & U3).
      destruct (U3 _ _ J) as [J'|(_ & J')]; eauto.
    - eexists. split; [left; reflexivity|]. auto. }
  destruct (i_lease _ _ _ _ I _ _ J) as (E & HA & SU & _). injection E as E1 E2.
  apply (accepts_leases d' _ H' SV pk HS).
  - eapply supported_traverses; [exact SU|]. rewrite <- E1. exact SH.
  - right. exists l. split; [apply in_map_iff; exists ((a, lease_port_of pt port), l); auto|].
    rewrite <- E1, <- E2. split; [exact SH|]. apply single_ports_cover. exact PC.
Qed.

(** At most one lease per address and port. *)
Lemma map_update_keys : forall m id f m', map_update m id f = Some m' -> map fst m' = map fst m.
Proof.
  induction m as [|[i l] m IH]; intros id f m' H; simpl in H; [discriminate|].
  destruct (id_eqb i id); [injection H as <-; reflexivity|].
  destruct (map_update m id f) as [m1|] eqn:E; [|discriminate]. injection H as <-.
  simpl. f_equal. eapply IH. exact E.
Qed.

Lemma lease_keys_nodup : forall d h, history conf c d h -> NoDup (map fst (fw_leases (d_fw d))).
Proof.
  intros d h H. pose proof (history_configured d h H) as CC.
  induction H as [k exe ok k' d _ ST|d h ev d' reply H IH EV ST].
  - destruct (inv_start conf c CC _ _ _ _ _ ST) as (_ & _ & _ & E & _). rewrite E. constructor.
  - pose proof (history_inv conf c CC d h H) as I.
    unfold fw_step in ST. destruct ev as [r now ok sok|now o1 o2 lok dok rok|ok|k].
    + assert (exists k1 fw1 res, handle_message conf (d_kernel d) (d_fw d) r now ok sok = (k1, fw1, reply, res)
              /\ d_fw d' = fw1 /\ fw_shutdown (d_fw d) = false) as (k1 & fw1 & res & HM & ED & SD).
      { pose proof (i_phase _ _ _ _ I) as IP. unfold phase_inv in IP.
        destruct (d_phase d) eqn:EP; try discriminate;
          destruct (handle_message conf (d_kernel d) (d_fw d) r now ok sok) as [[[k1 fw1] rp1] res1] eqn:HM;
          injection ST as <- <-; exists k1, fw1, res1; (split; [reflexivity|]); (split; [reflexivity|apply IP]). }
      rewrite ED. apply (message_cases conf c CC) in HM; auto.
      2:{ apply I. }
      2:{ intros b' ->. exact EV. }
      destruct HM as [(_ & -> & _)|(b' & a' & t' & port' & _ & AK' & IA & PL & PP & OP & _ & _)]; [exact IH|].
      apply (open_port_cases conf c CC) in OP; [|exact SD|apply I|rewrite lp_number_of; apply PP].
      destruct OP as [(_ & _ & m & -> & U)|[(_ & NI & -> & _)|(_ & _ & (e & E) & _)]]; [| |discriminate].
      * simpl. rewrite (map_update_keys _ _ _ _ U). exact IH.
      * simpl. constructor; [|exact IH]. intros J. apply in_map_iff in J.
        destruct J as ([i l] & E & J). simpl in E. subst i. eapply NI. exact J.
    + destruct (d_phase d) eqn:PH; try discriminate.
      destruct (maintain conf (d_kernel d) (d_fw d) now o1 o2 lok dok rok) as [[k1 fw1] r1] eqn:MT.
      injection ST as <- <-. destruct EV as [ORD1 ORD2].
      apply (maintain_cases conf c CC d h) in MT; auto. destruct MT as (-> & _). simpl.
      apply NoDup_filter_map. exact IH.
    + assert (d_fw d' = Firewall [] true) as ->; [|constructor].
      pose proof (i_phase _ _ _ _ I) as IP. unfold phase_inv in IP. unfold fw_shutdown_op in ST.
      destruct (d_phase d); try discriminate; destruct IP as [SD _]; rewrite SD in ST;
        destruct (full_rebuild _ _ _ _ _) as [k1 r1]; injection ST as <- <-; reflexivity.
    + injection ST as <- <-. exact IH.
Qed.

(** The daemon never panics. *)
Lemma never_dead : forall d h, history conf c d h -> d_phase d <> PhDead.
Proof.
  intros d h H E. pose proof (history_configured d h H) as CC.
  pose proof (i_phase _ _ _ _ (history_inv conf c CC d h H)) as IP. unfold phase_inv in IP.
  rewrite E in IP. exact IP.
Qed.

(** Own steps never touch other chains. *)
Lemma elsewhere_untouched : forall d h, history conf c d h -> forall ev d' reply,
  event_ok c d ev -> fw_step conf d ev = Some (d', reply) -> (forall k, ev <> FwExternal k) ->
  rules_elsewhere c (d_kernel d') = rules_elsewhere c (d_kernel d).
Proof.
  intros d h H ev d' reply EV ST NE. pose proof (history_configured d h H) as CC.
  pose proof (history_inv conf c CC d h H) as I.
  unfold fw_step in ST. destruct ev as [r now ok sok|now o1 o2 lok dok rok|ok|k].
  - assert (exists k1 fw1 res, handle_message conf (d_kernel d) (d_fw d) r now ok sok = (k1, fw1, reply, res)
            /\ d_kernel d' = k1 /\ fw_shutdown (d_fw d) = false) as (k1 & fw1 & res & HM & ED & SD).
    { pose proof (i_phase _ _ _ _ I) as IP. unfold phase_inv in IP.
      destruct (d_phase d) eqn:EP; try discriminate;
        destruct (handle_message conf (d_kernel d) (d_fw d) r now ok sok) as [[[k1 fw1] rp1] res1] eqn:HM;
        injection ST as <- <-; exists k1, fw1, res1; (split; [reflexivity|]); (split; [reflexivity|apply IP]). }
    rewrite ED. apply (message_cases conf c CC) in HM; auto.
    2:{ apply I. }
    2:{ intros b' ->. exact EV. }
    destruct HM as [(-> & _)|(b' & a' & t' & port' & _ & AK' & IA & PL & PP & OP & _ & _)]; [reflexivity|].
    apply (open_port_cases conf c CC) in OP; [|exact SD|apply I|rewrite lp_number_of; apply PP].
    destruct OP as [(_ & -> & _)|[(_ & _ & _ & _ & _ & _ & E & _)|(-> & _)]]; auto.
  - destruct (d_phase d) eqn:PH; try discriminate.
    destruct (maintain conf (d_kernel d) (d_fw d) now o1 o2 lok dok rok) as [[k1 fw1] r1] eqn:MT.
    injection ST as <- <-. destruct EV as [ORD1 ORD2].
    apply (maintain_cases conf c CC d h) in MT; auto. apply MT.
  - unfold fw_shutdown_op in ST. pose proof (i_phase _ _ _ _ I) as IP. unfold phase_inv in IP.
    assert (fw_shutdown (d_fw d) = false) as SD by (destruct (d_phase d); try discriminate; apply IP).
    rewrite SD in ST.
    destruct (full_rebuild conf (d_kernel d) (Firewall [] true) (fun l => l) ok) as [k1 r1] eqn:RB.
    assert (d_kernel d' = k1) as -> by (destruct (d_phase d); try discriminate; injection ST as <- <-; reflexivity).
    apply (rebuild_shutdown conf c CC) in RB. destruct RB as [(_ & _ & E & _)|(-> & _)]; auto.
  - exfalso. eapply NE. reflexivity.
Qed.

(** What a message does. *)
Lemma message_step : forall d h, history conf c d h -> forall r now ok sok d' reply,
  event_ok c d (FwMessage r now ok sok) ->
  fw_step conf d (FwMessage r now ok sok) = Some (d', reply) ->
  (d' = d /\ reply <> Some fw_new_ack
   /\ forall b a t port, r = FwRxBuf b -> asks b a t port ->
      reply = Some fw_new_nack
      /\ (ok = false \/ has_chain (d_kernel d) c = false \/ ~ supported c a
          \/ ~ plausible_address a \/ ~ permitted_port conf port))
  \/ (exists b a t port, r = FwRxBuf b /\ asks b a t port /\ ip_address a
      /\ plausible_address a /\ permitted_port conf port
      /\ d_phase d' = d_phase d /\ reply = Some fw_new_ack).
Proof.
  intros d h H r now ok sok d' reply EV ST. pose proof (history_configured d h H) as CC.
  pose proof (history_inv conf c CC d h H) as I. unfold fw_step in ST.
  assert (exists k1 fw1 res, handle_message conf (d_kernel d) (d_fw d) r now ok sok = (k1, fw1, reply, res)
          /\ d' = Daemon k1 fw1 (next_phase res (d_phase d) (d_phase d)) /\ fw_shutdown (d_fw d) = false)
    as (k1 & fw1 & res & HM & ED & SD).
  { pose proof (i_phase _ _ _ _ I) as IP. unfold phase_inv in IP.
    destruct (d_phase d) eqn:EP; try discriminate;
      destruct (handle_message conf (d_kernel d) (d_fw d) r now ok sok) as [[[k1 fw1] rp1] res1] eqn:HM;
      injection ST as <- <-; exists k1, fw1, res1; (split; [reflexivity|]); (split; [reflexivity|apply IP]). }
  apply (message_cases conf c CC) in HM; auto.
  2:{ apply I. }
  2:{ intros b' ->. exact EV. }
  destruct HM as [(-> & -> & NA & NP & R)|(b' & a' & t' & port' & EB & AK' & IA & PL & PP & OP & -> & NP)].
  - left. split; [|auto]. rewrite ED. destruct d as [k f p]; destruct res; simpl; congruence.
  - right. exists b', a', t', port'. repeat split; auto; try apply PP; try apply PL.
    rewrite ED. destruct res; simpl; congruence.
Qed.

(** What a maintenance run does. *)
Lemma maintain_step : forall d h, history conf c d h -> forall now o1 o2 lok dok rok d' reply,
  event_ok c d (FwMaintain now o1 o2 lok dok rok) ->
  fw_step conf d (FwMaintain now o1 o2 lok dok rok) = Some (d', reply) ->
  leases d' = filter (fun l => now <? l_timeout l) (leases d)
  /\ ((d_phase d' = PhRun /\ mirrors conf c d')
      \/ (d_phase d' = PhFatal /\ d_kernel d' = d_kernel d
          /\ (rok = false \/ has_chain (d_kernel d) c = false))).
Proof.
  intros d h H now o1 o2 lok dok rok d' reply EV ST. pose proof (history_configured d h H) as CC.
  pose proof (history_inv conf c CC d h H) as I. unfold fw_step in ST.
  destruct (d_phase d) eqn:PH; try discriminate.
  destruct (maintain conf (d_kernel d) (d_fw d) now o1 o2 lok dok rok) as [[k1 fw1] r1] eqn:MT.
  injection ST as <- <-. destruct EV as [ORD1 ORD2].
  apply (maintain_cases conf c CC d h) in MT; auto. destruct MT as (-> & _ & _ & _ & R). split.
  - unfold leases. cbn [d_fw fw_leases]. clear. induction (fw_leases (d_fw d)) as [|[i l] m IH]; [reflexivity|].
    simpl. unfold is_timed_out at 1. rewrite N.leb_antisym, negb_involutive.
    destruct (now <? l_timeout l); simpl; [f_equal|]; exact IH.
  - destruct R as [(-> & P)|((e & ->) & -> & W)]; simpl; [left|right]; auto.
Qed.

(** Shutdown. *)
Lemma shutdown_step : forall d h, history conf c d h -> forall ok d' reply,
  fw_step conf d (FwShutdown ok) = Some (d', reply) ->
  d_phase d' = PhDown /\ leases d' = []
  /\ ((rules_of c (d_kernel d') = []
       /\ rules_elsewhere c (d_kernel d') = rules_elsewhere c (d_kernel d))
      \/ (d_kernel d' = d_kernel d /\ (ok = false \/ has_chain (d_kernel d) c = false))).
Proof.
  intros d h H ok d' reply ST. pose proof (history_configured d h H) as CC.
  pose proof (history_inv conf c CC d h H) as I.
  unfold fw_step, fw_shutdown_op in ST. pose proof (i_phase _ _ _ _ I) as IP. unfold phase_inv in IP.
  assert (fw_shutdown (d_fw d) = false) as SD by (destruct (d_phase d); try discriminate; apply IP).
  rewrite SD in ST.
  destruct (full_rebuild conf (d_kernel d) (Firewall [] true) (fun l => l) ok) as [k1 r1] eqn:RB.
  assert (d' = Daemon k1 (Firewall [] true) (next_phase r1 PhDown PhDown)) as ->
      by (destruct (d_phase d); try discriminate; injection ST as <- <-; reflexivity).
  apply (rebuild_shutdown conf c CC) in RB. cbn [d_phase d_kernel].
  destruct RB as [(-> & E1 & E2 & _)|(-> & (e & ->) & W)]; simpl; auto 6.
Qed.

(** A grant stays effective until its time is over. *)
Lemma grant_effective : forall d h, history conf c d h -> clock_monotone h -> serving d ->
  forall a pt port pk, live_grant conf h a pt port ->
  same_host a (pk_src pk) -> ip_address (pk_src pk) -> port_covers pt port pk ->
  chain_accepts (d_kernel d) c pk.
Proof.
  intros d h H MONO SV a pt port pk LG SH HS PC. pose proof (history_configured d h H) as CC.
  pose proof (history_inv conf c CC d h H) as I.
  apply (lease_iff_live d h H MONO SV) in LG. destruct LG as (l & J & EA & EP).
  apply (accepts_leases d h H SV pk HS).
  - apply in_map_iff in J. destruct J as ([id l'] & E & J). simpl in E. subst l'.
    destruct (i_lease _ _ _ _ I _ _ J) as (_ & _ & SU & _). rewrite EA in SU.
    eapply supported_traverses; eassumption.
  - right. exists l. split; [exact J|]. rewrite EA, EP. split; [exact SH|]. apply single_ports_cover. exact PC.
Qed.

(** No grant, no lease, no packet. *)
Lemma expired_closed : forall d h now o1 o2 lok dok rok reply,
  history conf c d (h ++ [(FwMaintain now o1 o2 lok dok rok, reply)]) ->
  clock_monotone (h ++ [(FwMaintain now o1 o2 lok dok rok, reply)]) -> d_phase d = PhRun ->
  forall pk, ip_address (pk_src pk) -> ~ to_control_port conf pk ->
  (forall x t a pt port, In x h -> acked x t a pt port -> same_host a (pk_src pk) ->
     port_covers pt port pk -> t + c_nft_timeout conf <= now) ->
  ~ chain_accepts (d_kernel d) c pk.
Proof.
  intros d h now o1 o2 lok dok rok reply H MONO PH pk HS NC EXP A.
  apply (accepts_exact d _ H MONO PH pk HS) in A.
  destruct A as (_ & [C|(a & pt & port & (pre & x & post & t & E & AK & F) & SH & PC)]); [tauto|].
  apply snoc_split in E. destruct E as [(-> & -> & ->)|(post' & -> & EH)].
  - destruct AK as (b & ? & ? & [=] & _).
  - assert (t + c_nft_timeout conf <= now).
    { eapply EXP; [rewrite EH; apply in_or_app; right; left; reflexivity|exact AK|exact SH|exact PC]. }
    assert (now < t + c_nft_timeout conf); [|lia].
    eapply F. apply in_or_app. right. left. reflexivity.
Qed.

(** Removal of leases. *)
(** Maintenance does not need the rebuild unless expired leases have common rules. *)
Lemma maintain_no_rebuild : forall d h, history conf c d h -> forall now o1 o2 rok d' reply,
  event_ok c d (FwMaintain now o1 o2 true true rok) ->
  fw_step conf d (FwMaintain now o1 o2 true true rok) = Some (d', reply) ->
  NoDup (flat_map lease_contents (filter (fun l => l_timeout l <=? now) (leases d))) ->
  d_phase d' = PhRun.
Proof.
  intros d h H now o1 o2 rok d' reply EV ST ND. pose proof (history_configured d h H) as CC.
  pose proof (history_inv conf c CC d h H) as I. unfold fw_step in ST.
  destruct (d_phase d) eqn:PH; try discriminate.
  pose proof (i_phase _ _ _ _ I) as IP. unfold phase_inv in IP. rewrite PH in IP. destruct IP as [SD MI].
  destruct EV as [ORD1 ORD2]. unfold maintain in ST. rewrite SD in ST. unfold prune in ST.
  set (out := map snd (filter (fun x => is_timed_out (snd x) now) (fw_leases (d_fw d)))) in *.
  assert (out = filter (fun l => l_timeout l <=? now) (leases d)) as EO.
  { unfold out, leases. clear. induction (fw_leases (d_fw d)) as [|[i l] m IH]; [reflexivity|].
    cbn [filter map snd]. unfold is_timed_out at 1. destruct (l_timeout l <=? now); cbn [map snd]; rewrite IH; reflexivity. }
  assert (forall l, In l (o1 out) -> In l (leases d)) as INL.
  { intros l J. apply (Permutation_in l (ORD1 out)) in J. rewrite EO in J. apply filter_In in J. apply J. }
  destruct (remove_leases_complete conf c CC (d_kernel d) (o1 out)) as (k' & RM).
  - eapply only_known. apply I.
  - apply I.
  - intros l J. apply INL in J. apply in_map_iff in J. destruct J as ([id l'] & E & J). cbn in E. subst l'.
    destruct (i_lease _ _ _ _ I id l J) as (_ & IA & _). exact IA.
  - intros l w J W. apply (Permutation_in w (Permutation_sym MI)). apply in_or_app. right.
    apply in_flat_map. exists l. auto.
  - eapply Permutation_NoDup; [|exact ND]. rewrite <- EO. apply Permutation_flat_map. symmetry. apply ORD1.
  - destruct (o1 out) as [|l0 ls0]; [injection ST as <- <-; reflexivity|].
    rewrite RM in ST. injection ST as <- <-. reflexivity.
Qed.

Lemma removal_exact : forall d h, history conf c d h -> forall ls lok ok k',
  (forall l, In l ls -> ip_address (l_addr l)) ->
  remove_leases conf (d_kernel d) ls lok ok = (k', Ok tt) ->
  Permutation (map content (rules_of c (d_kernel d)))
              (flat_map lease_contents ls ++ map content (rules_of c k'))
  /\ rules_elsewhere c k' = rules_elsewhere c (d_kernel d).
Proof.
  intros d h H ls lok ok k' HA RM. pose proof (history_configured d h H) as CC.
  pose proof (history_inv conf c CC d h H) as I.
  apply (remove_leases_cases conf c CC) in RM; auto.
  - destruct RM as [(_ & _ & P & E & _)|(_ & (e & [=]))]. auto.
  - eapply only_known. apply I.
  - apply I.
Qed.

End Daemon.

(** Start. *)
Lemma names_configured : forall conf c, nft_names conf = Ok c -> configured_chain conf c.
Proof.
  intros conf c H. unfold nft_names in H.
  assert (forall f, (match c_nft_table conf with
    | [] => Err "nftables table not specified."
    | table => match c_nft_chain conf with
               | [] => Err "nftables chain-input not specified."
               | chain => Ok (ChainName f table chain) end end) = Ok c ->
    cn_table c = c_nft_table conf /\ cn_table c <> [] /\ cn_chain c = c_nft_chain conf
    /\ cn_chain c <> [] /\ cn_family c = f) as L.
  { intros f X. destruct (c_nft_table conf); [discriminate|]. destruct (c_nft_chain conf); [discriminate|].
    injection X as <-. repeat split; discriminate. }
  unfold configured_chain.
  destruct (list_eqb (c_nft_family conf) (lit "inet")) eqn:E1; [|
  destruct (list_eqb (c_nft_family conf) (lit "ip")) eqn:E2; [|
  destruct (list_eqb (c_nft_family conf) (lit "ip6")) eqn:E3; [|discriminate]]];
  cbn [bind] in H; apply L in H; destruct H as (A & B & C & D & E); rewrite E;
  (repeat split; auto); apply list_eqb_spec; assumption.
Qed.

Lemma start_cases : forall conf k exe ok k' r, fw_start conf k exe ok = (k', r) ->
  (exists d c, r = Ok d /\ configured_chain conf c /\ has_chain k c = true /\ d_kernel d = k'
     /\ d_phase d = PhRun /\ leases d = []
     /\ Permutation (map content (rules_of c k')) (control_contents conf)
     /\ rules_elsewhere c k' = rules_elsewhere c k)
  \/ (k' = k /\ (exists e, r = Err e)
      /\ (exe = false \/ ok = false \/ forall c, configured_chain conf c -> has_chain k c = false)).
Proof.
  intros conf k exe ok k' r H. pose proof H as H0. unfold fw_start, fw_new in H.
  destruct exe.
  2:{ injection H as <- <-. right. eauto. }
  destruct (nft_names conf) as [c|e|] eqn:NN.
  - apply names_configured in NN as CC.
    destruct (full_rebuild conf k (Firewall [] false) (fun l => l) ok) as [k1 r1] eqn:RB.
    pose proof RB as RB0.
    apply (rebuild_running conf c CC) in RB; [|contradiction|reflexivity].
    destruct RB as [(-> & B1 & B2 & B3 & B4)|(-> & (e & ->) & W)].
    + injection H as <- <-. left. eexists _, c. split; [reflexivity|]. split; [exact CC|].
      split.
      { unfold full_rebuild in RB0. rewrite NN in RB0. cbn [bind fw_shutdown fw_leases] in RB0.
        rewrite (collect_ctrl conf c CC) in RB0. cbn [bind collect map] in RB0.
        apply apply_batch_cases in RB0. destruct RB0 as [(_ & R & _)|(_ & (e & [=]) & _)].
        cbn [run_cmds] in R. destruct (run_cmd k (CmdFlush c)) eqn:F; [|discriminate].
        apply run_flush in F. apply F. }
      repeat split; auto. simpl in B2. rewrite app_nil_r in B2. exact B2.
    + injection H as <- <-. right. split; [reflexivity|]. split; [eauto|].
      destruct W as [->|W]; [auto|]. right. right. intros c' CC'.
      apply names_ok in CC'. rewrite CC' in NN. injection NN as ->. exact W.
  - unfold full_rebuild in H. rewrite NN in H. cbn [bind] in H. injection H as <- <-. right.
    split; [reflexivity|]. split; [eauto|]. right. right. intros c' CC'.
    apply names_ok in CC'. congruence.
  - exfalso. unfold nft_names in NN.
    destruct (list_eqb (c_nft_family conf) (lit "inet")); [|
    destruct (list_eqb (c_nft_family conf) (lit "ip")); [|
    destruct (list_eqb (c_nft_family conf) (lit "ip6")); [|discriminate]]];
    cbn [bind] in NN; destruct (c_nft_table conf); try discriminate;
      destruct (c_nft_chain conf); discriminate.
Qed.
