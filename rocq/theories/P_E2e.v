(** Proof of the end-to-end success of a knock. *)

From Coq Require Import String ZArith NArith List Bool Lia Permutation.
From Verif Require Import M_Base M_Proto M_IpAddr M_FwProto M_ConfTypes M_Server M_Client M_Firewall
  S_Wire S_Session S_Client S_Pair S_Firewall S_E2e
  P_Base P_FwProto P_Server P_Pair P_Firewall P_Fwd P_FwdProps Prop_Firewall.
Import ListNotations.
Local Open Scope N_scope.

(** *** A session uses the firewall socket at most once, request before reply *)

Inductive fwok : nat -> sprog -> Prop :=
| fo_ret : forall n r, n <> 1%nat -> fwok n (SRet r)
| fo_recv : forall n k, n <> 1%nat -> (forall r, fwok n (k r)) -> fwok n (SRecv k)
| fo_ssend : forall n m k, n <> 1%nat -> (forall r, fwok n (k r)) -> fwok n (SSend m k)
| fo_rand : forall n sz k, n <> 1%nat -> (forall r, fwok n (k r)) -> fwok n (SRand sz k)
| fo_conn : forall n k, n <> 1%nat -> (forall r, fwok n (k r)) -> fwok n (SFwConnect k)
| fo_send : forall m k, fwok 1 (k true) -> fwok 2 (k false) -> fwok 0 (SFwSend m k)
| fo_fwrecv : forall k, (forall r, fwok 2 (k r)) -> fwok 1 (SFwRecv k).

Lemma fwok_new_msg : forall n o u r k, n <> 1%nat -> (forall m, fwok n (k m)) -> fwok n (new_msg o u r k).
Proof.
  intros n o u r k L H. unfold new_msg. apply fo_rand; auto. intros os.
  destruct (msg_new o u r os); auto; apply fo_ret; auto.
Qed.

Lemma fwok_send_msg : forall n m k, n <> 1%nat -> (forall r, fwok n (k r)) -> fwok n (send_msg m k).
Proof. intros n m k L H. unfold send_msg. apply fo_ssend; auto. intros []; auto. Qed.

Lemma fwok_reject : forall n conf st e, n <> 1%nat -> fwok n (reject conf st e).
Proof.
  intros n conf st e L. unfold reject, send_go_away.
  destruct (go_away_allowed conf st); [|apply fo_ret; auto].
  apply fwok_new_msg; auto. intros m. apply fwok_send_msg; auto. intros r. apply fo_ret; auto.
Qed.

Lemma fwok_recv_msg : forall n conf st o k, n <> 1%nat -> (forall m, fwok n (k m)) -> fwok n (recv_msg conf st o k).
Proof.
  intros n conf st o k L H. unfold recv_msg. apply fo_recv; auto.
  intros [| | |b]; try (apply fo_ret; auto; fail).
  destruct (decode_rx b) as [msg|e|]; try (apply fo_ret; auto; fail).
  repeat match goal with |- context [if ?x then _ else _] => destruct x end; auto using fwok_reject.
Qed.

Lemma fwok_server : forall mac conf peer, fwok 0 (server_run mac conf peer).
Proof.
  intros mac conf peer. unfold server_run. apply fwok_recv_msg; [discriminate|]. intros knock. cbv zeta.
  destruct (conf_key conf (m_user knock)) as [key|]; [|apply fwok_reject; discriminate].
  destruct (check_auth_ok_no_challenge mac knock key) as [[|]|e|];
    try (apply fwok_reject; discriminate); try (apply fo_ret; discriminate).
  destruct (conf_resource conf (m_resource knock)) as [rs|]; [|apply fwok_reject; discriminate].
  destruct (negb (contains_user rs (m_user knock))); [apply fwok_reject; discriminate|].
  destruct (rs_port rs =? cp_port (c_port conf)); [apply fwok_reject; discriminate|].
  unfold challenge_response. apply fwok_new_msg; [discriminate|]. intros ch0.
  apply fo_rand; [discriminate|]. intros os.
  destruct (generate_challenge ch0 os) as [ch|e|]; try (apply fo_ret; discriminate).
  apply fwok_send_msg; [discriminate|]. intros [u|e|]; try (apply fo_ret; discriminate).
  apply fwok_recv_msg; [discriminate|]. intros resp.
  destruct (check_auth_ok mac resp key ch) as [[|]|e|];
    try (apply fwok_reject; discriminate); try (apply fo_ret; discriminate).
  unfold open_firewall. destruct (port_type_of (rs_tcp rs) (rs_udp rs)) as [pt|]; [|apply fo_ret; discriminate].
  apply fo_conn; [discriminate|]. intros [|]; [|apply fwok_reject; discriminate]. cbn [negb].
  destruct (negb (auth_eqb _ _)); [apply fo_ret; discriminate|].
  assert (forall r : res unit, fwok 2
            match r with
            | Ok _ => send_come_in (m_user knock) (m_resource knock)
            | Err _ => reject conf (PState (Some (m_user knock)) (Some (m_resource knock)) ChallengeResponseAuth)
                         "letmeinfwd firewall open"
            | Panic => SRet Panic
            end) as FIN.
  { intros [u'|e|]; [|apply fwok_reject; discriminate|apply fo_ret; discriminate].
    unfold send_come_in. apply fwok_new_msg; [discriminate|]. intros m.
    apply fwok_send_msg; [discriminate|]. intros [u''|e|]; apply fo_ret; discriminate. }
  unfold fw_open_port. apply fo_send; cbn [negb]; [|apply (FIN (Err EmptyString))].
  apply fo_fwrecv. intros [| |b]; try apply (FIN (Err EmptyString)).
  destruct (fw_deserialize b) as [m|e|]; [|apply (FIN (Err EmptyString))|apply fo_ret; discriminate].
  destruct (f_op m); [apply (FIN (Err EmptyString))|apply (FIN (Ok tt))|apply (FIN (Err EmptyString))].
Qed.

(** *** The pair always gets to its end *)

Lemma pair_steps_snoc : forall n s s1 s2, pair_steps n s s1 -> pair_step s1 s2 -> pair_steps (S n) s s2.
Proof.
  intros n s s1 s2 R. induction R as [s|n s s' s1 ST R IH]; intros T.
  - econstructor; [exact T|constructor].
  - econstructor; [exact ST|auto].
Qed.

Lemma opened_grows : forall s s', pair_step s s' -> exists l, pr_opened s' = pr_opened s ++ l.
Proof. intros s s' ST. inversion ST; subst; simpl; try (exists []; rewrite app_nil_r; reflexivity). eauto. Qed.

Section E2e.
Variable mac : list N -> list N -> list N.
Variable parse_ip : list N -> option ip.
Variables (cc sc cf : config) (c : chain_name).
Variables (host : list N) (ipv4 : bool) (srv : res_srv) (crypt : res_crypt).
Variables (user : N) (key : list N) (res_id port : N) (rs : resource) (peer : ip).
Variables (kport : option N) (tcp udp : bool).

Hypothesis MS : forall x y, length (mac x y) = 32%nat /\ all_bytes (mac x y).
Hypothesis AG : agree cc sc host parse_ip (if ipv4 then RmIpv4 else RmIpv6) srv crypt user key res_id port rs.

Let p0 := Pair (run_knock mac parse_ip cc host
                 (KnockServer (addr_mode_of ipv4 (negb ipv4)) kport tcp udp) port (Some user) srv crypt)
               (server_run mac sc peer) [] [] [].

Hypothesis PLAUS : plausible_address peer.
Hypothesis ADDR : ip_address peer.
Hypothesis PERM : permitted_port cf port.
Hypothesis PORT : port < 2 ^ 16.
Hypothesis FAM : family_fits c peer.

Definition want t := covers_tcp t = rs_tcp rs /\ covers_udp t = rs_udp rs.

Lemma pair_end : forall k n s, pair_steps n p0 s -> (n + k = 19)%nat ->
  exists t l, want t /\ [fw_new_open peer t port] = pr_opened s ++ l.
Proof.
  induction k as [|k IH]; intros n s R E;
    destruct (legit_knock mac parse_ip cc sc host ipv4 srv crypt user key res_id port rs peer kport tcp udp n s MS AG R)
      as (B & [(_ & _ & t & O & T1 & T2)|(s' & ST)]).
  - lia.
  - lia.
  - exists t, []. split; [split; assumption|]. rewrite app_nil_r. auto.
  - destruct (IH (S n) s' (pair_steps_snoc _ _ _ _ R ST)) as (t & l & W & O); [lia|].
    destruct (opened_grows _ _ ST) as (l' & O'). rewrite O', <- app_assoc in O. eauto.
Qed.

Lemma opened_what : forall n s m, pair_steps n p0 s -> pr_opened s = [m] ->
  exists t, want t /\ m = fw_new_open peer t port.
Proof.
  intros n s m R O.
  destruct (legit_knock mac parse_ip cc sc host ipv4 srv crypt user key res_id port rs peer kport tcp udp n s MS AG R)
    as (B & _).
  destruct (pair_end (19 - n) n s R) as (t & l & W & E); [lia|]. rewrite O in E. simpl in E.
  injection E as E _. eauto.
Qed.

Lemma send_what : forall n cl m k up dn op, pair_steps n p0 (Pair cl (SFwSend m k) up dn op) -> op = [] ->
  exists t, want t /\ m = fw_new_open peer t port.
Proof.
  intros n cl m k up dn op R ->.
  eapply (opened_what (S n) (Pair cl (k true) up dn [m])); [|reflexivity].
  eapply pair_steps_snoc; [exact R|]. apply (ps_fwsend cl m k up dn []).
Qed.

Lemma request_bytes : forall t, exists b, fw_serialize (fw_new_open peer t port) = Ok b
  /\ all_bytes b /\ asks b peer t port.
Proof.
  intros t. destruct (fw_open_roundtrip peer t port ADDR PORT) as (b & m & S & D & O & A & P).
  exists b. split; [exact S|].
  assert (all_bytes b) as HB.
  { pose proof (octets_roundtrip peer ADDR) as Ho. unfold fw_new_open in S.
    destruct (addr_to_octets peer) as [ty o] eqn:E. destruct Ho as (HL & HO & _).
    destruct (fw_roundtrip (FwMsg FwOpen t port ty o)) as (b' & S' & L & _).
    { split; [exact PORT|]. split; [exact HL|exact HO]. }
    rewrite S in S'. injection S' as <-. apply L. }
  split; [exact HB|]. eapply decode_asks; eassumption.
Qed.

(** *** The daemon keeps running *)

Lemma chains_kept : forall d h ev d' reply, history cf c d h -> event_ok c d ev -> undisturbed c ev ->
  fw_step cf d ev = Some (d', reply) -> d_phase d = PhRun -> has_chain (d_kernel d) c = true ->
  d_phase d' = PhRun /\ has_chain (d_kernel d') c = true.
Proof.
  intros d h ev d' reply H EV U ST PH HC.
  pose proof (history_configured _ _ _ _ H) as CC. pose proof (history_inv _ _ CC _ _ H) as I.
  destruct ev as [r now ok sok|now o1 o2 lok dok rok|ok|k]; simpl in U.
  - destruct (message_step cf c d h H r now ok sok d' reply EV ST)
      as [(-> & _)|(b & a & t & pt & -> & AK & _ & PL & PP & PH' & ->)]; [auto|]. rewrite PH'. split; [exact PH|].
    unfold fw_step in ST. rewrite PH in ST.
    destruct (handle_message cf (d_kernel d) (d_fw d) (FwRxBuf b) now ok sok) as [[[k1 fw1] rp1] res1] eqn:HM.
    injection ST as <- E. simpl. pose proof (i_phase _ _ _ _ I) as IP. unfold phase_inv in IP. rewrite PH in IP.
    apply (message_cases cf c CC) in HM; auto.
    2:{ apply IP. } 2:{ apply I. } 2:{ intros b' [= <-]. exact EV. }
    destruct HM as [(-> & _)|(b' & a' & t' & port' & _ & AK' & IA & _ & PP' & OP & _ & _)]; [exact HC|].
    apply (open_port_cases cf c CC) in OP; [|apply IP|apply I|rewrite lp_number_of; apply PP'].
    destruct OP as [(_ & -> & _)|[(_ & _ & _ & _ & _ & _ & _ & CH)|(-> & _)]]; auto.
    unfold has_chain. rewrite CH. exact HC.
  - destruct (maintain_step cf c d h H now o1 o2 lok dok rok d' reply EV ST)
      as [_ [[PH' _]|(_ & _ & [X|X])]]; try congruence. split; [exact PH'|].
    unfold fw_step in ST. rewrite PH in ST.
    destruct (maintain cf (d_kernel d) (d_fw d) now o1 o2 lok dok rok) as [[k1 fw1] r1] eqn:MT.
    injection ST as <- <-. destruct EV as [ORD1 ORD2].
    apply (maintain_cases cf c CC d h) in MT; auto. destruct MT as (_ & _ & _ & CH & _). simpl.
    unfold has_chain. rewrite CH. exact HC.
  - contradiction.
  - unfold fw_step in ST. injection ST as <- <-. simpl. auto.
Qed.

(** There is always a next moment. *)
Lemma next_moment : forall h r ok sok reply, clock_monotone h ->
  exists now, clock_monotone (h ++ [(FwMessage r now ok sok, reply)]).
Proof.
  intros h r ok sok reply M.
  assert (exists now, forall x t, In x h -> event_time (fst x) = Some t -> t <= now) as (now & MX).
  { clear M. induction h as [|y h (now & IH)]; [exists 0; contradiction|].
    exists (N.max now match event_time (fst y) with Some t => t | None => 0 end).
    intros x t [-> | J] E; [rewrite E; lia|]. specialize (IH x t J E). lia. }
  exists now. intros p x q y q' t u E T1 T2.
  change (x :: q ++ y :: q') with ((x :: q) ++ y :: q') in E. rewrite app_assoc in E.
  apply (snoc_split (fw_event * option fw_message)) in E. destruct E as [(-> & E & ->)|(post & -> & E)].
  - simpl in T2. injection T2 as <-. apply (MX x t); [|exact T1]. rewrite <- E. apply in_or_app. right. left. reflexivity.
  - apply (M p x q y post t u); auto. rewrite E, <- app_assoc. reflexivity.
Qed.

(** *** The invariant *)

Variables (d0 : daemon) (h0 : hist).
Hypothesis H0 : history cf c d0 h0.
Hypothesis RUN0 : d_phase d0 = PhRun.
Hypothesis CHAIN0 : has_chain (d_kernel d0) c = true.

Definition acked_since (h : hist) (m : fw_message) : Prop :=
  exists t now pre x post, want t /\ m = fw_new_open peer t port
    /\ h = h0 ++ pre ++ x :: post /\ acked x now peer t port.

Inductive stage : full -> nat -> Prop :=
| st_a : forall p d h pre, pr_opened p = [] -> fwok 0 (pr_server p) -> h = h0 ++ pre ->
    stage (Full p d h [] []) 0
| st_b : forall p d h pre m b, pr_opened p = [m] -> fwok 1 (pr_server p) -> h = h0 ++ pre ->
    fw_serialize m = Ok b -> stage (Full p d h [b] []) 0
| st_c : forall p d h m b, pr_opened p = [m] -> fwok 1 (pr_server p) -> acked_since h m ->
    fw_serialize fw_new_ack = Ok b -> stage (Full p d h [] [b]) 1
| st_d : forall p d h m, pr_opened p = [m] -> fwok 2 (pr_server p) -> acked_since h m ->
    stage (Full p d h [] []) 1.

Definition sim (n : nat) (s : full) : Prop :=
  history cf c (fu_daemon s) (fu_hist s) /\ d_phase (fu_daemon s) = PhRun
  /\ has_chain (d_kernel (fu_daemon s)) c = true
  /\ exists n' i, pair_steps n' p0 (fu_pair s) /\ stage s i /\ (n = n' + i)%nat.

(** A step of the pair away from the socket keeps the place in the order. *)
Lemma away_fwok : forall p p' i, pair_step p p' -> away_from_socket p p' -> fwok i (pr_server p) ->
  fwok i (pr_server p') /\ pr_opened p' = pr_opened p.
Proof.
  intros p p' i ST AW F. unfold away_from_socket in AW. destruct ST; simpl in *; (split; [|try reflexivity]);
    try exact F; try (inversion F; subst; auto; fail).
  - destruct AW as [AW _]. rewrite AW. exact F.
  - destruct AW as [_ AW]. exact AW.
  - destruct AW as [AW _]. rewrite AW. exact F.
Qed.

Lemma acked_more : forall h m x, acked_since h m -> acked_since (h ++ x) m.
Proof.
  intros h m x (t & now & pre & y & post & W & E & -> & A). exists t, now, pre, y, (post ++ x).
  split; [exact W|]. split; [exact E|]. split; [|exact A]. rewrite <- !app_assoc. reflexivity.
Qed.

Lemma served : forall d h b t now, history cf c d h -> d_phase d = PhRun -> has_chain (d_kernel d) c = true ->
  all_bytes b -> asks b peer t port ->
  exists d', fw_step cf d (FwMessage (FwRxBuf b) now true true) = Some (d', Some fw_new_ack).
Proof.
  intros d h b t now H PH HC HB AK.
  eapply C21_valid_requests_are_served; eauto. left. exact PH.
Qed.

Lemma stage_hist : forall p d h rq rp i, stage (Full p d h rq rp) i -> forall d' x,
  stage (Full p d' (h ++ x) rq rp) i.
Proof.
  intros p d h rq rp i S d' x. inversion S; subst.
  - apply st_a with (pre := pre ++ x); auto. rewrite app_assoc. reflexivity.
  - apply st_b with (pre := pre ++ x) (m := m); auto. rewrite app_assoc. reflexivity.
  - apply st_c with (m := m); auto using acked_more.
  - apply st_d with (m := m); auto using acked_more.
Qed.

Lemma sim_step : forall n s i s', sim n s -> full_step cf c i s s' -> sim (n + i) s'.
Proof.
  intros n s i s' (H & PH & HC & n' & j & R & S & EN) ST. destruct ST; cbn [fu_pair fu_daemon fu_hist fu_request fu_reply] in *.
  - (* pair *)
    split; [exact H|]. split; [exact PH|]. split; [exact HC|].
    exists (Datatypes.S n'), j. split; [eapply pair_steps_snoc; eassumption|]. split; [|lia].
    inversion S; subst.
    + destruct (away_fwok _ _ 0 H1 H2 ltac:(assumption)) as [F O]. eapply st_a; eauto; congruence.
    + destruct (away_fwok _ _ 1 H1 H2 ltac:(assumption)) as [F O]. eapply st_b; eauto; congruence.
    + destruct (away_fwok _ _ 1 H1 H2 ltac:(assumption)) as [F O]. eapply st_c; eauto; congruence.
    + destruct (away_fwok _ _ 2 H1 H2 ltac:(assumption)) as [F O]. eapply st_d; eauto; congruence.
  - (* send *)
    split; [exact H|]. split; [exact PH|]. split; [exact HC|].
    exists (Datatypes.S n'), j. split; [eapply pair_steps_snoc; [exact R|constructor]|]. split; [|lia].
    inversion S as [p' d' h' pre O F E|p' d' h' pre m' b' O F E SE|p' d' h' m' b' O F E SE|p' d' h' m' O F E]; subst;
      simpl in *; try (inversion F; fail).
    subst op. inversion F; subst. simpl. eapply st_b; [reflexivity|assumption|reflexivity|assumption].
  - (* handle *)
    inversion S as [p' dd h' pre O F E|p' dd h' pre m' b' O F E SE|p' dd h' m' b' O F E SE|p' dd h' m' O F E]; subst.
    destruct (opened_what _ _ _ R O) as (t & W & ->).
    destruct (request_bytes t) as (b' & SE' & HB & AK). rewrite SE in SE'. injection SE' as <-.
    assert (event_ok c d (FwMessage (FwRxBuf b) now true true)) as EV by exact HB.
    destruct (served _ _ _ _ now H PH HC HB AK) as (d1 & ST1). rewrite H1 in ST1. injection ST1 as <- ->.
    destruct (chains_kept _ _ _ _ _ H EV Logic.I H1 PH HC) as [PH' HC'].
    split; [econstructor; eassumption|]. split; [exact PH'|]. split; [exact HC'|].
    exists n', 1%nat. split; [exact R|]. split; [|lia]. simpl.
    eapply st_c; eauto. exists t, now, pre, (FwMessage (FwRxBuf b) now true true, Some fw_new_ack), [].
    split; [exact W|]. split; [reflexivity|]. split; [rewrite <- app_assoc; reflexivity|].
    exists b, true, true. split; [reflexivity|exact AK].
  - (* receive *)
    split; [exact H|]. split; [exact PH|]. split; [exact HC|].
    inversion S as [p' d' h' pre O F E|p' d' h' pre m' b' O F E SE|p' d' h' m' b' O F E SE|p' d' h' m' O F E]; subst.
    exists (Datatypes.S n'), 1%nat. split; [eapply pair_steps_snoc; [exact R|constructor; exact SE]|]. split; [|lia].
    simpl in O, F. subst op. inversion F; subst. eapply st_d; [reflexivity|simpl; auto|eassumption].
  - (* others *)
    destruct (chains_kept _ _ _ _ _ H H1 H2 H3 PH HC) as [PH' HC'].
    split; [econstructor; eassumption|]. split; [exact PH'|]. split; [exact HC'|].
    exists n', j. split; [exact R|]. split; [|lia]. eapply stage_hist. exact S.
Qed.

Lemma sim_run : forall n s, full_steps cf c n (Full p0 d0 h0 [] []) s -> sim n s.
Proof.
  intros n s R. remember (Full p0 d0 h0 [] []) as s0 eqn:E0. induction R as [s|n i s s1 s2 R IH ST].
  - subst s. split; [exact H0|]. split; [exact RUN0|]. split; [exact CHAIN0|]. exists 0%nat, 0%nat.
    split; [constructor|]. split; [|reflexivity].
    apply st_a with (pre := []); [reflexivity|apply fwok_server|]. rewrite app_nil_r. reflexivity.
  - eapply sim_step; eauto.
Qed.

Lemma e2e : forall n s, full_steps cf c n (Full p0 d0 h0 [] []) s -> clock_monotone (fu_hist s) ->
  (n <= 19)%nat
  /\ (finished cf c h0 peer rs s
      \/ exists s', full_step cf c 1 s s' /\ clock_monotone (fu_hist s')).
Proof.
  intros n s R MONO. destruct (sim_run n s R) as (H & PH & HC & n' & i & RP & S & EN).
  assert (i <= 1)%nat as LI by (inversion S; lia).
  destruct (legit_knock mac parse_ip cc sc host ipv4 srv crypt user key res_id port rs peer kport tcp udp n' _ MS AG RP)
    as (B & [(C1 & S1 & t0 & O1 & _)|(p' & ST)]).
  - split; [lia|]. left. split; [exact C1|]. split; [exact S1|].
    inversion S as [p d h pre O F E|p d h pre m b O F E SE|p d h m b O F E SE|p d h m O F E]; subst; simpl in *;
      try (rewrite S1 in F; inversion F; congruence).
    destruct E as (t & now & pre & x & post & W & _ & -> & A).
    exists t, now, pre, x, post. rewrite (ag_sport _ _ _ _ _ _ _ _ _ _ _ _ AG).
    split; [reflexivity|]. split; [exact A|]. intros LIVE pk SH IA DP TR.
    eapply grant_effective; [exact H|exact MONO|left; exact PH| |exact SH|exact IA|].
    { exists (h0 ++ pre), x, post, now. split; [rewrite <- app_assoc; reflexivity|]. split; [exact A|exact LIVE]. }
    split; [exact DP|]. destruct W as [W1 W2]. destruct t, (pk_transport pk); simpl in *; auto; congruence.
  - split; [lia|]. right. destruct s as [p d h rq rp]. simpl in *.
    assert (away_from_socket p p' -> exists s', full_step cf c 1 (Full p d h rq rp) s' /\ clock_monotone (fu_hist s')) as AW.
    { intros A. eexists. split; [apply fs_pair; eassumption|exact MONO]. }
    destruct ST; try (apply AW; unfold away_from_socket; simpl; trivial;
      match goal with |- match ?x with _ => _ end => destruct x; auto end; fail).
    + inversion S as [p1 d1 h1 pre O F E|p1 d1 h1 pre m1 b1 O F E SE|p1 d1 h1 m1 b1 O F E SE|p1 d1 h1 m1 O F E]; subst;
        simpl in *; try (inversion F; fail). subst op.
      destruct (send_what _ _ _ _ _ _ _ RP eq_refl) as (t & _ & ->).
      destruct (request_bytes t) as (b & SE & _). eexists. split; [apply fs_send; exact SE|exact MONO].
    + inversion S as [p1 d1 h1 pre O F E|p1 d1 h1 pre m1 b1 O F E SE|p1 d1 h1 m1 b1 O F E SE|p1 d1 h1 m1 O F E]; subst;
        simpl in *; try (inversion F; congruence).
      * destruct (opened_what _ _ _ RP O) as (t & W & ->).
        destruct (request_bytes t) as (b' & SE' & HB & AK). rewrite SE in SE'. injection SE' as <-.
        destruct (next_moment _ (FwRxBuf b1) true true (Some fw_new_ack) MONO) as (now & MONO').
        destruct (served _ _ _ _ now H PH HC HB AK) as (d2 & ST1).
        eexists. split; [eapply fs_handle; [exact ST1|eassumption]|exact MONO'].
      * eexists. split; [apply fs_receive|exact MONO].
Qed.

Lemma steps_more : forall n m s s1 s2, full_steps cf c n s s1 -> full_steps cf c m s1 s2 ->
  full_steps cf c (n + m) s s2.
Proof.
  intros n m s s1 s2 A B. induction B as [s1|m i s1 s3 s4 B IH ST].
  - rewrite Nat.add_0_r. exact A.
  - rewrite Nat.add_assoc. econstructor; [apply IH; exact A|exact ST].
Qed.

Lemma e2e_end : forall k n s, full_steps cf c n (Full p0 d0 h0 [] []) s -> clock_monotone (fu_hist s) ->
  (n + k = 20)%nat -> exists m s', full_steps cf c m s s' /\ clock_monotone (fu_hist s') /\ finished cf c h0 peer rs s'.
Proof.
  induction k as [|k IH]; intros n s R MONO E; destruct (e2e n s R MONO) as (B & Q).
  - lia.
  - destruct Q as [Q|(s1 & ST & MONO')].
    + exists 0%nat, s. split; [constructor|]. split; [exact MONO|exact Q].
    + destruct (IH (n + 1)%nat s1 (fss_S _ _ _ _ _ _ _ R ST) MONO') as (m & s' & R' & F); [lia|].
      exists (1 + m)%nat, s'. split; [|exact F].
      eapply steps_more; [|exact R']. change 1%nat with (0 + 1)%nat. econstructor; [constructor|exact ST].
Qed.

End E2e.
