(** A knock over TCP to a busy letmeind: simulation by the channels of S_E2e.v. *)

From Coq Require Import String ZArith NArith List Bool Lia ZifyBool ZifyNat ZifyN.
From Verif Require Import M_Base M_Proto M_IpAddr M_FwProto M_ConfTypes M_Server M_Client M_Firewall M_Udp M_Accept
  S_Wire S_Session S_Client S_Pair S_Firewall S_E2e S_Accept
  P_Base P_Udp P_Both P_Bytes P_Dgram P_Accept.
Import ListNotations.
Local Open Scope N_scope.

(** *** The place of a connection in the queue *)

Lemma head_step : forall ht hu s ev s', astep ht hu s ev = Some s' -> no_failure ev ->
  (exists a, ac_pc s = HpHold (Conn true a) /\ ev = AeTask /\ waiting_tcp s = a :: waiting_tcp s'
             /\ ac_started s' = ac_started s ++ [Conn true a])
  \/ ((forall a, ac_pc s = HpHold (Conn true a) -> ev = AeTask -> False)
      /\ waiting_tcp s' = waiting_tcp s ++ tcp_arrivals [ev]
      /\ exists l, ac_started s' = ac_started s ++ l).
Proof.
  intros ht hu [b t u pc pm st lv ch ex] ev s' ST NF. unfold astep in ST. cbn [ac_exit] in ST. destruct ex; [discriminate|].
  unfold waiting_tcp, in_hand, in_join, tcp_arrivals.
  assert (N0 : forall l : list conn, exists x, l = l ++ x) by (intros l; exists []; symmetry; apply app_nil_r).
  destruct ev as [a|e|r|tcp ok| |c| | | |]; cbn in *; try contradiction.
  - destruct ht; [|discriminate]. injection ST as <-. right. cbn. split; [discriminate|]. split; [|auto]. rewrite <- !app_assoc. reflexivity.
  - destruct ht, t, e, b; try discriminate; try contradiction; injection ST as <-; right; cbn; (split; [discriminate|]);
      (split; [|auto]); rewrite app_nil_r; reflexivity.
  - destruct hu, u, r; try discriminate; try contradiction; injection ST as <-; right; cbn; (split; [discriminate|]);
      (split; [|auto]); rewrite app_nil_r; reflexivity.
  - right. split; [discriminate|]. destruct pc; try discriminate. destruct tcp.
    + destruct t as [|[a|e|]]; try discriminate; cbn in ST.
      * destruct ok; [|contradiction]. cbn in ST. injection ST as <-. cbn. rewrite app_nil_r. auto.
      * injection ST as <-. cbn. rewrite app_nil_r. auto.
    + destruct u as [|[a|e|]]; try discriminate; cbn in ST; injection ST as <-; cbn; rewrite app_nil_r; auto.
  - destruct pc as [|c|c| |]; try discriminate.
    + destruct (pm =? 0); [discriminate|]. injection ST as <-. right. cbn. split; [congruence|]. rewrite app_nil_r. auto.
    + injection ST as <-. destruct c as [[|] a]; cbn.
      * left. exists a. auto.
      * right. split; [congruence|]. rewrite app_nil_r. split; [reflexivity|]. eexists. reflexivity.
    + injection ST as <-. right. cbn. split; [congruence|]. rewrite app_nil_r. auto.
  - destruct (existsb (N.eqb c) lv); [|discriminate]. injection ST as <-. right. cbn. split; [congruence|]. rewrite app_nil_r. auto.
  - injection ST as <-. right. cbn. split; [congruence|]. rewrite app_nil_r. auto.
  - destruct ch; [discriminate|]. injection ST as <-. right. cbn. split; [congruence|]. rewrite app_nil_r. auto.
Qed.

(** A client that makes one TCP connection before it talks. *)
Inductive dials : cprog -> Prop :=
| di_ret : forall r, dials (CRet r)
| di_lookup : forall s m k, (forall r, dials (k r)) -> dials (CLookup s m k)
| di_connect : forall a p k, (forall r, talks (k r)) -> dials (CConnect true a p k).

Lemma ask_dials : forall e s m k n, (forall r, dials (k r)) -> dials n -> dials (ask e s m k n).
Proof. intros e s m k n K X. unfold ask. destruct e; [|exact X]. constructor. intros [l|]; [apply K|exact X]. Qed.

Lemma sequence_dials : forall mac parse_ip q mode, cp_tcp (kq_port q) = true -> dials (knock_sequence mac parse_ip q mode).
Proof.
  intros mac parse_ip q mode E. unfold knock_sequence, client_new.
  match goal with |- dials (resolve _ _ _ ?k) => assert (K : forall r, dials (k r)); [|revert K; generalize k; intros kk K] end.
  { intros [a|e|]; [|constructor..]. rewrite E. destruct (cp_udp (kq_port q)); cbn [andb negb]; [constructor|].
    constructor. intros [|]; [|constructor]. apply (talks_body mac q). }
  unfold resolve. destruct (parse_ip (kq_addr q)) as [a|].
  - cbn [rc_mode]. destruct mode; [destruct (negb (is_ipv6 a))|destruct (negb (is_ipv4 a))]; apply K.
  - cbv zeta. repeat (apply ask_dials; [exact K|]). apply K.
Qed.

Lemma knock_dials : forall mac parse_ip cc host (ipv4 : bool) kport tcp udp port user srv crypt,
  knocks_by_tcp cc tcp udp ->
  dials (run_knock mac parse_ip cc host (KnockServer (addr_mode_of ipv4 (negb ipv4)) kport tcp udp) port user srv crypt).
Proof.
  intros mac parse_ip cc host ipv4 kport tcp udp port user srv crypt U. unfold run_knock.
  destruct (conf_key _ _); [|constructor]. destruct (resource_id_by_port _ _ _); [|constructor].
  assert (E : cp_tcp (M_Client.to_control_port (KnockServer (addr_mode_of ipv4 (negb ipv4)) kport tcp udp) cc) = true).
  { unfold M_Client.to_control_port. destruct U as [->|(-> & U)]; destruct kport, (c_port cc) as [cp t u]; cbn in *;
      try (destruct udp; reflexivity); destruct tcp; cbn; subst; destruct u; reflexivity. }
  destruct ipv4; apply sequence_dials; exact E.
Qed.

Section Busy.
Variable mac : list byte -> list byte -> list byte.
Variable sc conf : config.
Variable c : chain_name.
Variable has_udp : bool.
Variable here : sockaddr.
Variable num : N.
Hypothesis NUM : 1 <= num.

Inductive place (acc : acceptor) : cprog -> option (N * sprog) -> list (list N) -> Prop :=
| pl_before : forall cl, dials cl -> ~ In here (waiting_tcp acc) -> place acc cl None []
| pl_queue : forall cl up x y, talks cl -> waiting_tcp acc = x ++ here :: y -> ~ In here x -> ~ In here y -> place acc cl None up
| pl_session : forall cl n p up, talks cl -> ~ In here (waiting_tcp acc) ->
    nth_error (ac_started acc) (N.to_nat n) = Some (Conn true here) -> place acc cl (Some (n, p)) up.

Lemma nth_app_some : forall (A : Type) (l k : list A) n x, nth_error l n = Some x -> nth_error (l ++ k) n = Some x.
Proof. intros A l k n x H. rewrite nth_error_app1; [exact H|]. apply nth_error_Some. congruence. Qed.

Lemma place_step : forall acc cl se up ev acc', place acc cl se up ->
  astep true has_udp acc ev = Some acc' -> others_event here se ev ->
  place acc' cl (new_session mac sc here acc ev se) up.
Proof.
  intros acc cl se up ev acc' P ST (NF & OT).
  assert (AR : ~ In here (tcp_arrivals [ev])).
  { destruct ev; cbn in *; tauto. }
  destruct (head_step _ _ _ _ _ ST NF) as [(a & PC & -> & W & S)|(NP & W & l & S)].
  - unfold new_session. rewrite PC. destruct (sa_eqb a here) eqn:EA.
    + apply sa_eqb_spec in EA. subst a. inversion P as [cl0 D NI|cl0 up0 x y T E NX NY|cl0 n p up0 T NI NT]; subst.
      * exfalso. apply NI. rewrite W. left. reflexivity.
      * rewrite E in W. destruct x as [|z x].
        -- cbn in W. injection W as W. apply pl_session; [exact T|rewrite <- W; exact NY|].
           rewrite S, Nat2N.id, nth_error_app2, Nat.sub_diag by lia. reflexivity.
        -- cbn in W. injection W as W1 W2. exfalso. apply NX. left. exact W1.
      * exfalso. apply NI. rewrite W. left. reflexivity.
    + assert (a <> here) by (intros ->; rewrite sa_eqb_refl in EA; discriminate).
      inversion P as [cl0 D NI|cl0 up0 x y T E NX NY|cl0 n p up0 T NI NT]; subst.
      * apply pl_before; [exact D|]. intros I. apply NI. rewrite W. right. exact I.
      * rewrite E in W. destruct x as [|z x]; cbn in W; injection W as W1 W2; [congruence|].
        eapply pl_queue; [exact T|symmetry; exact W2| |exact NY]. intros I. apply NX. right. exact I.
      * apply pl_session; [exact T|intros I; apply NI; rewrite W; right; exact I|]. rewrite S. apply nth_app_some. exact NT.
  - assert (EN : new_session mac sc here acc ev se = se).
    { unfold new_session. destruct (ac_pc acc) as [| |[[|] a]| |] eqn:PC; try reflexivity.
      destruct ev; try reflexivity. exfalso. eapply NP; reflexivity. }
    rewrite EN. inversion P as [cl0 D NI|cl0 up0 x y T E NX NY|cl0 n p up0 T NI NT]; subst.
    + apply pl_before; [exact D|]. rewrite W. intros I. apply in_app_or in I. tauto.
    + eapply pl_queue; [exact T|rewrite W, E, <- app_assoc; reflexivity|exact NX|]. intros I. apply in_app_or in I. tauto.
    + apply pl_session; [exact T|rewrite W; intros I; apply in_app_or in I; tauto|]. rewrite S. apply nth_app_some. exact NT.
Qed.

(** The session of the client as a program, whether it has been started or not. *)
Definition prog_of (se : option (N * sprog)) : sprog :=
  match se with Some (_, p) => p | None => server_run mac sc (sa_ip here) end.

Inductive bsim : busy -> full -> Prop :=
| Bsim : forall acc cl se up dn d h rq rp op,
    place acc cl se up -> clean true num acc ->
    bsim (Busy acc cl se up dn d h rq rp) (Full (Pair cl (prog_of se) up dn op) d h rq rp).

Local Ltac talk T := inversion T; subst; auto.

(** Client steps that are not the connect. *)
Lemma place_talk : forall acc cl cl' se up up', place acc cl se up -> (talks cl -> talks cl') -> (dials cl -> False) ->
  place acc cl' se up'.
Proof.
  intros acc cl cl' se up up' P T D. inversion P; subst; [exfalso; auto| |].
  - eapply pl_queue; eauto.
  - apply pl_session; auto.
Qed.

Lemma place_session : forall acc cl n p p' up up', place acc cl (Some (n, p)) up -> place acc cl (Some (n, p')) up'.
Proof. intros acc cl n p p' up up' P. inversion P; subst. apply pl_session; auto. Qed.

Lemma bsim_step : forall i s s', busy_step mac sc conf c has_udp here i s s' -> forall f, bsim s f ->
  exists f', full_steps conf c i f f' /\ bsim s' f'.
Proof.
  intros i s s' ST f S. inversion S as [acc cl se up dn d h rq rp op P CL E1 E2]; clear S. subst s f.
  inversion ST; subst; clear ST.
  - eexists. split; [apply one, fs_pair; [eapply ps_lookup; eassumption|apply away_same]|]. constructor; [|exact CL].
    inversion P as [cl0 D NI|cl0 up0 x y T|cl0 n p up0 T]; subst; [|inversion T|inversion T].
    apply pl_before; [inversion D; auto|exact NI].
  - eexists. split; [apply one, fs_pair; [eapply ps_connect; eassumption|apply away_same]|].
    match goal with H : astep _ _ _ _ = _ |- _ => pose proof (head_step _ _ _ _ _ H Logic.I) as HS; pose proof (clean_step _ _ _ _ (AeArrive here) _ CL Logic.I H) as CL2 end.
    constructor; [|exact CL2].
    destruct HS as [(a0 & _ & X & _)|(_ & W & l & S)]; [discriminate|].
    inversion P as [cl0 D NI|cl0 up0 x y T|cl0 n p up0 T]; subst; [|inversion T|inversion T].
    inversion D; subst. cbn in W. eapply pl_queue; [auto|exact W|exact NI|intros []].
  - eexists. split; [apply one, fs_pair; [eapply ps_crand; eassumption|apply away_same]|]. constructor; [|exact CL].
    eapply place_talk; [exact P|intros T; inversion T; auto|intros D; inversion D].
  - eexists. split; [apply one, fs_pair; [eapply ps_csend; eassumption|apply away_same]|]. constructor; [|exact CL].
    eapply place_talk; [exact P|intros T; inversion T; auto|intros D; inversion D].
  - eexists. split; [apply one, fs_pair; [eapply ps_crecv|apply away_same]|]. constructor; [|exact CL].
    eapply place_talk; [exact P|intros T; inversion T; auto|intros D; inversion D].
  - cbn [prog_of]. eexists. split; [apply one, fs_pair; [eapply ps_srecv|cbn; exact I]|].
    change (k (RxBuf b)) with (prog_of (Some (n, k (RxBuf b)))). constructor; [|exact CL]. eapply place_session. exact P.
  - cbn [prog_of]. eexists. split; [apply one, fs_pair; [eapply ps_ssend; eassumption|cbn; exact I]|].
    change (k TxOk) with (prog_of (Some (n, k TxOk))). constructor; [|exact CL]. eapply place_session. exact P.
  - cbn [prog_of]. eexists. split; [apply one, fs_pair; [eapply ps_srand; eassumption|cbn; exact I]|].
    change (k (Some b)) with (prog_of (Some (n, k (Some b)))). constructor; [|exact CL]. eapply place_session. exact P.
  - cbn [prog_of]. eexists. split; [apply one, fs_pair; [eapply ps_fwconnect; eassumption|cbn; exact I]|].
    change (k true) with (prog_of (Some (n, k true))). constructor; [|exact CL]. eapply place_session. exact P.
  - cbn [prog_of]. eexists. split; [apply one, fs_send; eassumption|].
    change (k true) with (prog_of (Some (n, k true))). constructor; [|exact CL]. eapply place_session. exact P.
  - cbn [prog_of]. eexists. split; [apply one, fs_receive; eassumption|].
    change (k (FwRxBuf b)) with (prog_of (Some (n, k (FwRxBuf b)))). constructor; [|exact CL]. eapply place_session. exact P.
  - eexists. split; [apply one; eapply fs_handle; eassumption|]. constructor; assumption.
  - eexists. split; [apply one; eapply fs_other; eassumption|]. constructor; assumption.
  - match goal with H : astep _ _ _ _ = _, O : others_event _ _ _ |- _ =>
      pose proof (place_step _ _ _ _ _ _ P H O) as P'; pose proof (clean_step _ _ _ _ _ _ CL (proj1 O) H) as CL';
      pose proof (head_step _ _ _ _ _ H (proj1 O)) as HS end.
    eexists. split; [constructor|].
    assert (EP : prog_of (new_session mac sc here acc ev se) = prog_of se).
    { unfold new_session. destruct (ac_pc acc) as [| |[[|] a]| |] eqn:PC; try reflexivity. destruct ev; try reflexivity.
      destruct (sa_eqb a here) eqn:EA; [|reflexivity]. apply sa_eqb_spec in EA. subst a.
      inversion P as [cl0 D NI|cl0 up0 x y T|cl0 n p up0 T NI]; subst; try reflexivity.
      exfalso. apply NI. unfold waiting_tcp, in_hand. rewrite PC. cbn. left. reflexivity. }
    rewrite <- EP. constructor; assumption.
Qed.

(** If the channels can go on, so can this knock, or its connection waits in letmeind. *)
Lemma bsim_go : forall s f f', bsim s f -> full_step conf c 1 f f' ->
  (exists s', busy_step mac sc conf c has_udp here 1 s s' /\ (bu_hist s' = bu_hist s \/ bu_hist s' = fu_hist f'))
  \/ (bu_session s = None /\ In here (waiting_tcp (bu_acc s))).
Proof.
  intros s f f' S ST. inversion S as [acc cl se up dn d h rq rp op P CL E1 E2]; clear S. subst s f.
  assert (SOME : forall p, p = prog_of se -> (forall k, p <> SRecv k) -> exists n, se = Some (n, p)).
  { intros p E N. destruct se as [[n q]|]; cbn in E; [exists n; congruence|]. exfalso. subst p.
    unfold server_run, recv_msg in N. eapply N. reflexivity. }
  inversion ST; subst; clear ST.
  - match goal with H : pair_step _ _ |- _ => inversion H; subst; clear H end.
    + left. eexists. split; [eapply bs_lookup; eassumption|left; reflexivity].
    + assert (tcp = true) as ->.
      { inversion P as [cl0 D NI|cl0 up0 x y T|cl0 n p up0 T]; subst; [|inversion T|inversion T]. inversion D; reflexivity. }
      left. eexists. split; [eapply bs_connect; unfold astep; rewrite (cl_exit _ _ _ CL); reflexivity|left; reflexivity].
    + left. eexists. split; [eapply bs_crand; eassumption|left; reflexivity].
    + left. eexists. split; [eapply bs_csend; eassumption|left; reflexivity].
    + left. eexists. split; [eapply bs_crecv|left; reflexivity].
    + destruct se as [[n q]|].
      * cbn in *. subst q. left. eexists. split; [eapply bs_srecv|left; reflexivity].
      * right. split; [reflexivity|]. cbn. inversion P as [cl0 D NI|cl0 up1 x y T E|]; subst.
        rewrite E. apply in_or_app. right. left. reflexivity.
    + destruct (SOME _ ltac:(eassumption) ltac:(discriminate)) as (n & ->). left. eexists. split; [eapply bs_ssend; eassumption|left; reflexivity].
    + destruct (SOME _ ltac:(eassumption) ltac:(discriminate)) as (n & ->). left. eexists. split; [eapply bs_srand; eassumption|left; reflexivity].
    + destruct (SOME _ ltac:(eassumption) ltac:(discriminate)) as (n & ->). left. eexists. split; [eapply bs_fwconnect; eassumption|left; reflexivity].
    + match goal with H : away_from_socket _ _, E : SFwSend _ _ = _ |- _ => rewrite <- E in H; destruct H as (_ & H); cbn in H end.
      exfalso. eapply snoc_neq; eassumption.
    + match goal with H : away_from_socket _ _, E : SFwRecv _ = _ |- _ => rewrite <- E in H end.
      exfalso. eapply away_opened. eassumption.
  - destruct (SOME _ ltac:(eassumption) ltac:(discriminate)) as (n & ->). left. eexists. split; [eapply bs_fwsend; eassumption|left; reflexivity].
  - left. eexists. split; [eapply bs_handle; eassumption|right; reflexivity].
  - destruct (SOME _ ltac:(eassumption) ltac:(discriminate)) as (n & ->). left. eexists. split; [eapply bs_fwrecv|left; reflexivity].
Qed.

Lemma still_there : forall acc ev acc', astep true has_udp acc ev = Some acc' -> no_failure ev -> forall se,
  In here (waiting_tcp acc) \/ se <> None ->
  In here (waiting_tcp acc') \/ new_session mac sc here acc ev se <> None.
Proof.
  intros acc ev acc' ST NF se X.
  assert (KEEP : se <> None -> new_session mac sc here acc ev se <> None).
  { intros N. unfold new_session. destruct (ac_pc acc) as [| |[[|] a]| |], ev; try exact N. destruct (sa_eqb a here); [discriminate|exact N]. }
  destruct X as [W|N]; [|auto].
  destruct (head_step _ _ _ _ _ ST NF) as [(a & PC & -> & E & _)|(_ & E & _)].
  - unfold new_session. rewrite PC. destruct (sa_eqb a here) eqn:EA; [right; discriminate|].
    rewrite E in W. destruct W as [->|W]; [rewrite sa_eqb_refl in EA; discriminate|]. left. exact W.
  - left. rewrite E. apply in_or_app. auto.
Qed.

(** Steps of letmeind alone, in the whole system. *)
Lemma own_busy : forall h acc acc' cl se up dn d hi rq rp,
  Forall own_step h -> arun true has_udp acc h = Some acc' ->
  exists se', busy_steps mac sc conf c has_udp here 0 (Busy acc cl se up dn d hi rq rp) (Busy acc' cl se' up dn d hi rq rp)
    /\ (In here (waiting_tcp acc) \/ se <> None -> In here (waiting_tcp acc') \/ se' <> None).
Proof.
  induction h as [|ev h IH] using rev_ind; intros acc acc' cl se up dn d hi rq rp F R.
  - injection R as <-. exists se. split; [constructor|auto].
  - apply arun_snoc in R. destruct R as (a1 & R & ST). apply Forall_app in F. destruct F as (F & G). inversion G; subst.
    destruct (IH acc a1 cl se up dn d hi rq rp F R) as (se1 & B & K). eexists. split.
    + change 0%nat with (0 + 0)%nat. econstructor; [exact B|]. eapply bs_accept; [exact ST|].
      split; [apply own_no_failure; assumption|]. destruct ev; cbn in *; auto; contradiction.
    + intros X. apply (still_there _ _ _ ST); [apply own_no_failure; assumption|exact (K X)].
Qed.

Lemma busy_more : forall n m s s1 s2, busy_steps mac sc conf c has_udp here n s s1 -> busy_steps mac sc conf c has_udp here m s1 s2 ->
  busy_steps mac sc conf c has_udp here (n + m) s s2.
Proof.
  intros n m s s1 s2 A B. induction B as [s1|m i s1 s3 s4 B IH ST].
  - rewrite Nat.add_0_r. exact A.
  - rewrite Nat.add_assoc. econstructor; [apply IH; exact A|exact ST].
Qed.

Lemma bsim_run : forall n s s', busy_steps mac sc conf c has_udp here n s s' -> forall f, bsim s f ->
  exists f', full_steps conf c n f f' /\ bsim s' f'.
Proof.
  intros n s s' R. induction R as [s|n i s s1 s2 R IH ST]; intros f S.
  - exists f. split; [constructor|exact S].
  - destruct (IH f S) as (f1 & RF & S1). destruct (bsim_step _ _ _ ST f1 S1) as (f2 & RF2 & S2).
    exists f2. split; [|exact S2]. clear - RF RF2. induction RF2 as [f1|m j f1 f3 f4 B IH ST].
    + rewrite Nat.add_0_r. exact RF.
    + rewrite Nat.add_assoc. econstructor; [apply IH; exact RF|exact ST].
Qed.

(** A waiting connection gets its session. *)
Lemma gets_session : forall acc cl up dn d hi rq rp, place acc cl None up -> clean true num acc -> In here (waiting_tcp acc) ->
  (exists ev acc', own_step ev /\ astep true has_udp acc ev = Some acc')
  /\ exists acc' se', busy_steps mac sc conf c has_udp here 0 (Busy acc cl None up dn d hi rq rp) (Busy acc' cl (Some se') up dn d hi rq rp)
       /\ waiting_tcp acc' = [].
Proof.
  intros acc cl up dn d hi rq rp P CL W. split.
  - apply (not_stuck true has_udp num acc CL NUM). intros Z. destruct (weightless _ _ _ CL Z) as (X & _). rewrite X in W. destruct W.
  - destruct (drain true has_udp num _ acc CL NUM eq_refl) as (h & acc' & F & R & WT & _).
    destruct (own_busy h acc acc' cl None up dn d hi rq rp F R) as (se' & B & K).
    destruct (K (or_introl W)) as [X|X]; [rewrite WT in X; destruct X|]. destruct se' as [se'|]; [|congruence].
    exists acc', se'. split; [exact B|exact WT].
Qed.

End Busy.
