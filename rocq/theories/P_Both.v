(** Proof of C69: knocks over one or both families. *)

From Coq Require Import String ZArith NArith List Bool Lia.
From Verif Require Import M_Base M_Proto M_IpAddr M_FwProto M_ConfTypes M_Server M_Client
  S_Wire S_Session S_Client S_Pair S_Both P_Base P_Proto P_Server P_Session P_Client P_Pair.
Import ListNotations.
Local Open Scope N_scope.

(** [c] does what [p] does and goes on with [K] after its result. *)
Inductive follows (K : res unit -> cprog) : cprog -> cprog -> Prop :=
| fo_ret : forall r, r <> Panic -> follows K (CRet r) (K r)
| fo_panic : forall c, follows K (CRet Panic) c
| fo_lookup : forall s m k k', (forall r, follows K (k r) (k' r)) -> follows K (CLookup s m k) (CLookup s m k')
| fo_connect : forall t a p k k', (forall r, follows K (k r) (k' r)) -> follows K (CConnect t a p k) (CConnect t a p k')
| fo_rand : forall z k k', (forall r, follows K (k r) (k' r)) -> follows K (CRand z k) (CRand z k')
| fo_send : forall m k k', (forall r, follows K (k r) (k' r)) -> follows K (CSend m k) (CSend m k')
| fo_recv : forall k k', (forall r, follows K (k r) (k' r)) -> follows K (CRecv k) (CRecv k').

Lemma follows_bind : forall K p, follows K p (cbind p K).
Proof.
  intros K. induction p; cbn [cbind]; try (constructor; assumption). destruct r; constructor; discriminate.
Qed.

Lemma follows_self : forall p, follows CRet p p.
Proof.
  induction p; try (constructor; assumption). destruct r as [a|e|]; [apply (fo_ret CRet (Ok a))|apply (fo_ret CRet (Err e))|constructor]; discriminate.
Qed.

(** Programs that only use an open connection. *)
Inductive talks : cprog -> Prop :=
| ta_ret : forall r, talks (CRet r)
| ta_rand : forall z k, (forall r, talks (k r)) -> talks (CRand z k)
| ta_send : forall m k, (forall r, talks (k r)) -> talks (CSend m k)
| ta_recv : forall k, (forall r, talks (k r)) -> talks (CRecv k).

Lemma talks_unres : forall (A : Type) (x : res A) k, (forall a, talks (k a)) -> talks (unres x k).
Proof. intros A [a|e|] k H; cbn; [apply H|constructor..]. Qed.
Lemma talks_msg : forall o u r k, (forall m, talks (k m)) -> talks (client_msg o u r k).
Proof. intros o u r k H. constructor. intros os. destruct (msg_new o u r os); [apply H|constructor..]. Qed.
Lemma talks_send : forall m k, talks k -> talks (client_send m k).
Proof. intros m k H. constructor. intros []; first [exact H|constructor]. Qed.
Lemma talks_recv : forall o k, (forall m, talks (k m)) -> talks (recv_specific o k).
Proof.
  intros o k H. constructor. intros [| | |b]; try constructor.
  destruct (decode_rx b) as [m|e|]; try constructor.
  destruct (op_eqb (m_op m) GoAway); [constructor|]. destruct (negb (op_eqb (m_op m) o)); [constructor|apply H].
Qed.
Lemma talks_body : forall mac q, talks (body mac q).
Proof.
  intros mac q. apply talks_msg. intros m. apply talks_unres. intros a. apply talks_send, talks_recv. intros ch.
  apply talks_msg. intros m2. apply talks_unres. intros a2. apply talks_send, talks_recv. intros m3. constructor.
Qed.

Section Both.

Variable mac : list byte -> list byte -> list byte.
Variable parse_ip : text -> option ip.
Hypothesis mac_sized : forall x y, length (mac x y) = 32%nat /\ all_bytes (mac x y).
Variables cc sc : config.
Variable net : network.
Notation wstep := (world_step mac sc net).
Notation wsteps := (world_steps mac sc net).

Definition wdw (F : world -> Prop) (n : nat) (s : world) : Prop :=
  forall m s', wsteps m s s' -> (m <= n)%nat /\ (F s' \/ exists s'', wstep s' s'').

Lemma wdw_step : forall F n s, (exists s', wstep s s') -> (forall s', wstep s s' -> wdw F n s') -> wdw F (S n) s.
Proof.
  intros F n s [s1 H1] H m s' R. inversion R; subst.
  - split; [lia|]. right. exists s1. exact H1.
  - match goal with H0 : wstep s ?x, H2 : wsteps _ ?x _ |- _ =>
      specialize (H _ H0 _ _ H2); split; [lia|apply H] end.
Qed.

Lemma wdw_end : forall (F : world -> Prop) s, (forall s', ~ wstep s s') -> F s -> wdw F 0 s.
Proof.
  intros F s N H m s' R. inversion R; subst.
  - split; [lia|auto].
  - exfalso. match goal with H0 : wstep s ?x |- _ => exact (N _ H0) end.
Qed.

Lemma wdw_mono : forall F n m s, (n <= m)%nat -> wdw F n s -> wdw F m s.
Proof. intros F n m s L H k s' R. apply H in R. split; [lia|apply R]. Qed.

(** The exchange over an open connection, followed by [K]. *)
Lemma dw_next : forall fin n ps ps', done_well fin n ps -> pair_step ps ps' ->
  exists n', n = S n' /\ done_well fin n' ps'.
Proof.
  intros fin n ps ps' D ST. destruct n as [|n].
  - exfalso. destruct (D 1%nat ps') as (L & _); [econstructor; [exact ST|constructor]|lia].
  - exists n. split; [reflexivity|]. intros m s R. destruct (D (S m) s) as (L & Q); [econstructor; eauto|]. split; [split; [lia|apply L]|exact Q].
Qed.

Lemma talk_sim : forall F N K (fin : pair -> Prop) op pa,
  (forall ps', fin ps' -> pr_client ps' = CRet (Ok tt)) ->
  (forall up dn po p, fin (Pair (CRet (Ok tt)) p up dn po) ->
     wdw F N (World (K (Ok tt)) (Some p) up dn (op ++ po) pa)) ->
  forall n ps c, done_well fin n ps -> talks (pr_client ps) -> follows K (pr_client ps) c ->
  wdw F (n + N) (World c (Some (pr_server ps)) (pr_up ps) (pr_down ps) (op ++ pr_opened ps) pa).
Proof.
  intros F N K fin op pa FR KN. induction n as [|n IH]; intros ps c D TA FO;
    destruct (D 0%nat ps (pss_0 ps)) as (_ & [FI|(NR & ps1 & ST)]).
  - pose proof (FR _ FI) as E. destruct ps as [p sv up dn po]. cbn in *. subst p. inversion FO; subst. apply KN. exact FI.
  - destruct (dw_next _ _ _ _ D ST) as (n' & E & _). discriminate E.
  - pose proof (FR _ FI) as E. destruct ps as [p sv up dn po]. cbn [pr_client pr_server pr_up pr_down pr_opened] in *. subst p.
    inversion FO; subst. apply (wdw_mono _ N); [lia|]. apply KN. exact FI.
  - destruct ps as [p sv up dn po]. cbn [pr_client pr_server pr_up pr_down pr_opened] in *.
    change (S n + N)%nat with (S (n + N)). apply wdw_step.
    + inversion ST; subst; try (inversion TA; fail); try (inversion FO; subst);
        try (eexists; econstructor; eassumption).
    + intros s' W.
      assert (G : forall ps', pair_step (Pair p sv up dn po) ps' -> talks (pr_client ps') ->
                  forall c', follows K (pr_client ps') c' ->
                  wdw F (n + N) (World c' (Some (pr_server ps')) (pr_up ps') (pr_down ps') (op ++ pr_opened ps') pa)).
      { intros ps' ST' TA' c' FO'. destruct (dw_next _ _ _ _ D ST') as (n' & E & D'). injection E as <-. apply IH; assumption. }
      inversion W; subst; rewrite <- ?app_assoc.
      * inversion FO; subst; [exfalso; eapply NR; reflexivity..|inversion TA].
      * inversion FO; subst; [exfalso; eapply NR; reflexivity..|inversion TA].
      * inversion FO; subst; [exfalso; eapply NR; reflexivity..|inversion TA].
      * inversion FO; subst; [exfalso; eapply NR; reflexivity..|inversion TA].
      * inversion FO; subst; [exfalso; eapply NR; reflexivity..|inversion TA; subst].
        eapply (G (Pair _ sv up dn po)); [econstructor; eassumption|cbn; auto..].
      * inversion FO; subst; [exfalso; eapply NR; reflexivity..|inversion TA; subst].
        eapply (G (Pair _ sv (up ++ [b]) dn po)); [econstructor; eassumption|cbn; auto..].
      * inversion FO; subst; [exfalso; eapply NR; reflexivity..|inversion TA; subst].
        eapply (G (Pair _ sv up dn0 po)); [econstructor; eassumption|cbn; auto..].
      * eapply (G (Pair p _ up0 dn po)); [econstructor; eassumption|cbn; auto..].
      * eapply (G (Pair p _ up (dn ++ [b]) po)); [econstructor; eassumption|cbn; auto..].
      * eapply (G (Pair p _ up dn po)); [econstructor; eassumption|cbn; auto..].
      * eapply (G (Pair p _ up dn po)); [econstructor; eassumption|cbn; auto..].
      * eapply (G (Pair p _ up dn (po ++ [m]))); [econstructor; eassumption|cbn; auto..].
      * eapply (G (Pair p _ up dn po)); [econstructor; eassumption|cbn; auto..].
Qed.

Variables (host : text) (srv : res_srv) (crypt : res_crypt).
Variables (user : N) (key : list N) (res_id port : N) (rs : resource).
Variable cp : control_port.
Hypothesis CP : one_transport cp.
Let q := KnockSeq host srv crypt cp user res_id key.

(** No session can go on. *)
Definition quiet (se : option sprog) : Prop := match se with None => True | Some p => p = SRet (Ok tt) end.

Definition opens (a : ip) (m : fw_message) : Prop :=
  exists t, m = fw_new_open a t port /\ covers_tcp t = rs_tcp rs /\ covers_udp t = rs_udp rs.

Section Mode.
Variable mode : res_mode.
Hypothesis AG : agree cc sc host parse_ip mode srv crypt user key res_id port rs.

(** What follows after the name is resolved. *)
Definition go_on (r : res ip) : cprog :=
  match r with
  | Panic => CRet Panic
  | Err e => CRet (Err e)
  | Ok a =>
      if cp_tcp cp then
        if cp_udp cp then CRet Panic
        else CConnect true a (cp_port cp)
               (fun ok => match (if ok then Ok tt else Err "Connect to server"%string)
                          with Panic => CRet Panic | Err e => CRet (Err e) | Ok _ => body mac q end)
      else if negb (cp_udp cp) then CRet Panic
      else CConnect false a (cp_port cp)
               (fun ok => match (if ok then Ok tt else Err "Connect to server"%string)
                          with Panic => CRet Panic | Err e => CRet (Err e) | Ok _ => body mac q end)
  end.

Lemma seq_is : knock_sequence mac parse_ip q mode = resolve parse_ip host (ResConf mode srv crypt) go_on.
Proof. reflexivity. Qed.

Lemma works_connect : forall peer F N K c a se up dn op pa,
  net mode = Some peer -> family_ok mode a -> quiet se -> follows K (go_on (Ok a)) c ->
  (forall m up dn, opens peer m -> wdw F N (World (K (Ok tt)) (Some (SRet (Ok tt))) up dn (op ++ [m]) (pa ++ olist se))) ->
  wdw F (17 + N) (World c se up dn op pa).
Proof.
  intros peer F N K c a se up dn op pa NET FA QU FO KN.
  assert (B : forall c', follows K (body mac q) c' ->
            wdw F (16 + N) (World c' (Some (server_run mac sc peer)) [] [] op (pa ++ olist se))).
  { intros c' FO'.
    pose proof (talk_sim F N K (final port rs peer) op (pa ++ olist se)) as T.
    specialize (T ltac:(intros ps' (E & _); exact E)).
    assert (KN' : forall up dn po p, final port rs peer (Pair (CRet (Ok tt)) p up dn po) ->
      wdw F N (World (K (Ok tt)) (Some p) up dn (op ++ po) (pa ++ olist se))).
    { intros up' dn' po p (_ & E & t & EO & CT & CU). cbn in E, EO. subst p po. apply KN. exists t. auto. }
    specialize (T KN' 16%nat (Pair (body mac q) (server_run mac sc peer) [] [] []) c').
    cbn [pr_client pr_server pr_up pr_down pr_opened] in T. rewrite app_nil_r in T. apply T.
    - exact (exchange mac parse_ip mac_sized cc sc host mode srv crypt user key res_id port rs peer AG cp).
    - apply talks_body.
    - exact FO'. }
  unfold go_on in FO. red in CP. change (17 + N)%nat with (S (16 + N)).
  assert (G : exists t k', c = CConnect t a (cp_port cp) k' /\ follows K (body mac q) (k' true)).
  { destruct (cp_tcp cp), (cp_udp cp); try discriminate; cbn [negb] in FO; inversion FO as [| | |? ? ? ? ? H| | |]; subst;
      eexists _, _; (split; [reflexivity|exact (H true)]). }
  destruct G as (t & k' & -> & FO').
  apply wdw_step.
  - eexists. eapply ws_connect; eassumption.
  - intros s' W. inversion W; subst; try (cbn in QU; discriminate QU).
    + assert (mode0 = mode) as -> by (destruct mode0, mode, a; cbn in *; tauto || reflexivity).
      replace peer0 with peer by congruence. apply B. exact FO'.
    + assert (mode0 = mode) as -> by (destruct mode0, mode, a; cbn in *; tauto || reflexivity). congruence.
Qed.

Lemma record_family : forall m l a, first_record m l a -> family_ok m a.
Proof. intros m l a H. induction H; cbn; auto. Qed.

Lemma works_seq : forall peer F N K c se up dn op pa,
  net mode = Some peer -> quiet se -> follows K (knock_sequence mac parse_ip q mode) c ->
  (forall m up dn, opens peer m -> wdw F N (World (K (Ok tt)) (Some (SRet (Ok tt))) up dn (op ++ [m]) (pa ++ olist se))) ->
  wdw F (18 + N) (World c se up dn op pa).
Proof.
  intros peer F N K c se up dn op pa NET QU FO KN. rewrite seq_is in FO.
  destruct (ag_host _ _ _ _ _ _ _ _ _ _ _ _ AG) as [(a & E & FA)|(E & sv & EN)].
  - apply (wdw_mono _ (17 + N)); [lia|]. apply (works_connect peer F N K c a); auto.
    unfold resolve in FO. rewrite E in FO. cbn [rc_mode] in FO. destruct mode, a; try contradiction; exact FO.
  - rewrite resolve_is_chain in FO by exact E. cbn [rc_srv rc_crypt rc_mode] in FO.
    assert (I : In sv (filter (enabled srv crypt) preference)).
    { apply filter_In. split; auto. destruct sv as [|[] []]; simpl; auto 12. }
    destruct (filter (enabled srv crypt) preference) as [|s0 l]; [destruct I|]. cbn [chain] in FO.
    inversion FO as [| |? ? ? k' H| | | |]; subst. change (18 + N)%nat with (S (17 + N)). apply wdw_step.
    + destruct mode; eexists.
      * eapply ws_lookup with (l := [RAAAA (repeat 0 16)]); [exact NET| |constructor]. intros x [<-|[]]. split; reflexivity.
      * eapply ws_lookup with (l := [RA (repeat 0 4)]); [exact NET| |constructor]. intros x [<-|[]]. split; reflexivity.
    + intros s' W. inversion W; subst; try (cbn in QU; discriminate QU); [|congruence].
      specialize (H (Some l0)). cbn in H.
      match goal with R : first_record _ _ ?a |- _ =>
        rewrite (first_result_of_record _ _ _ R) in H; apply (works_connect peer F N K _ a); auto; eapply record_family; exact R end.
Qed.

Lemma first_result_kind : forall l, get_first_result l mode <> Panic /\ forall a, get_first_result l mode = Ok a -> family_ok mode a.
Proof.
  clear AG. induction l as [|x l IH]; cbn; [split; intros; discriminate|].
  destruct mode, x; try exact IH; (split; [discriminate|]); intros a [= <-]; exact Logic.I.
Qed.

Section Fails.
Variables (F : world -> Prop) (N : nat) (K : res unit -> cprog) (se : option sprog) (up dn : list (list BinNums.N))
  (op : list fw_message) (pa : list sprog).
Hypothesis NET : net mode = None.
Hypothesis QU : quiet se.
Hypothesis KN : forall e, wdw F N (World (K (Err e)) se up dn op pa).

Lemma fails_connect : forall r c, r <> Panic -> (forall a, r = Ok a -> family_ok mode a) ->
  follows K (go_on r) c -> wdw F (1 + N) (World c se up dn op pa).
Proof.
  clear AG. intros [a|e|] c NP FA FO; [| |contradiction].
  - unfold go_on in FO. red in CP. specialize (FA a eq_refl).
    assert (G : exists t k', c = CConnect t a (cp_port cp) k' /\ k' false = K (Err "Connect to server"%string)).
    { destruct (cp_tcp cp), (cp_udp cp); try discriminate; cbn [negb] in FO; inversion FO as [| | |? ? ? ? ? H| | |]; subst;
        eexists _, _; (split; [reflexivity|]); specialize (H false); cbn in H; inversion H; reflexivity. }
    destruct G as (t & k' & -> & EK). change (1 + N)%nat with (S N). apply wdw_step.
    + eexists. eapply ws_connect_fails; eassumption.
    + intros s' W. inversion W; subst; try (cbn in QU; discriminate QU).
      * assert (mode0 = mode) as -> by (destruct mode0, mode, a; cbn in *; tauto || reflexivity). congruence.
      * rewrite EK. apply KN.
  - cbn in FO. inversion FO; subst. apply (wdw_mono _ N); [lia|]. apply KN.
Qed.

Lemma fails_chain : forall l c, follows K (chain l mode go_on) c -> wdw F (length l + 1 + N) (World c se up dn op pa).
Proof.
  clear AG. induction l as [|s0 l IH]; intros c FO; cbn [chain] in FO.
  - apply (fails_connect (Err "DNS lookup of host failed"%string)); [discriminate|intros; discriminate|exact FO].
  - inversion FO as [| |? ? ? k' H| | | |]; subst. cbn [length]. change (S (length l) + 1 + N)%nat with (S (length l + 1 + N)).
    apply wdw_step.
    + eexists. apply (ws_lookup_other _ _ _ _ _ _ _ _ _ _ _ None NET). exact Logic.I.
    + intros s' W. inversion W; subst; try (cbn in QU; discriminate QU); [congruence|].
      specialize (H r). destruct r as [x|].
      * apply (wdw_mono _ (1 + N)); [lia|]. destruct (first_result_kind x) as (NP & FA).
        apply (fails_connect (get_first_result x mode)); auto.
      * apply IH. exact H.
Qed.

Lemma fails_seq : forall c, follows K (knock_sequence mac parse_ip q mode) c ->
  wdw F (11 + N) (World c se up dn op pa).
Proof.
  intros c FO. rewrite seq_is in FO.
  destruct (ag_host _ _ _ _ _ _ _ _ _ _ _ _ AG) as [(a & E & FA)|(E & sv & EN)].
  - apply (wdw_mono _ (1 + N)); [lia|]. apply (fails_connect (Ok a)); [discriminate|intros x [= <-]; exact FA|].
    unfold resolve in FO. rewrite E in FO. cbn [rc_mode] in FO. destruct mode, a; try contradiction; exact FO.
  - rewrite resolve_is_chain in FO by exact E. cbn [rc_srv rc_crypt rc_mode] in FO.
    eapply wdw_mono; [|apply fails_chain; exact FO].
    enough (length (filter (enabled srv crypt) preference) <= 10)%nat by lia.
    transitivity (length preference); [|cbv; lia].
    clear. induction preference as [|x l IH]; cbn; [lia|]. destruct (enabled srv crypt x); cbn; lia.
Qed.
End Fails.
End Mode.
End Both.
