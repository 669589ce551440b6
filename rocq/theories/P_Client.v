(** Proofs about the client. *)

From Coq Require Import String ZArith NArith List Bool Lia ZifyBool ZifyNat ZifyN.
From Verif Require Import M_Base M_Proto M_IpAddr M_ConfTypes M_Server M_Client S_Wire S_Session
  S_Client P_Base P_Proto P_Server P_Session.
Import ListNotations.
Local Open Scope N_scope.

(** *** Executions *)

Lemma crun_ret : forall T r tr p', crun T (CRet r) tr p' -> tr = [] /\ p' = CRet r.
Proof. intros T r tr p' R. inversion R; subst; auto. inversion H. Qed.

Lemma crun_lookup : forall T s m k tr p', crun T (CLookup s m k) tr p' ->
  (tr = [] /\ p' = CLookup s m k)
  \/ exists r tr1, tr = CeLookup s m r :: tr1 /\ lookup_typed r /\ crun T (k r) tr1 p'.
Proof. intros. inversion H; subst; auto. inversion H0; subst. right. eauto 10. Qed.

Lemma crun_connect : forall T t a q k tr p', crun T (CConnect t a q k) tr p' ->
  (tr = [] /\ p' = CConnect t a q k)
  \/ exists ok tr1, tr = CeConnect t a q ok :: tr1 /\ crun T (k ok) tr1 p'.
Proof. intros. inversion H; subst; auto. inversion H0; subst. right. eauto 10. Qed.

Lemma crun_rand : forall T sz k tr p', crun T (CRand sz k) tr p' ->
  (tr = [] /\ p' = CRand sz k)
  \/ exists os tr1, tr = CeRand sz os :: tr1 /\ rand_typed sz os /\ crun T (k os) tr1 p'.
Proof. intros. inversion H; subst; auto. inversion H0; subst. right. eauto 10. Qed.

Lemma crun_send : forall T m k tr p', crun T (CSend m k) tr p' ->
  (tr = [] /\ p' = CSend m k)
  \/ exists d r tr1, tr = CeSend d m r :: tr1 /\ d <= T /\ crun T (k r) tr1 p'.
Proof. intros. inversion H; subst; auto. inversion H0; subst. right. eauto 10. Qed.

Lemma crun_recv : forall T k tr p', crun T (CRecv k) tr p' ->
  (tr = [] /\ p' = CRecv k)
  \/ exists d r tr1, tr = CeRecv d r :: tr1 /\ d <= T /\ rx_typed r /\ crun T (k r) tr1 p'.
Proof. intros. inversion H; subst; auto. inversion H0; subst. right. eauto 10. Qed.

(** Sequencing. *)
Lemma crun_bind : forall T p f tr p',
  crun T (cbind p f) tr p' ->
  (exists q, crun T p tr q /\ p' = cbind q f)
  \/ exists tr1 tr2 r, tr = tr1 ++ tr2 /\ crun T p tr1 (CRet r) /\ r <> Panic
                       /\ crun T (f r) tr2 p'.
Proof.
  intros T p f. induction p as [r|s m k IH|t a q k IH|sz k IH|m k IH|k IH]; intros tr p' R; simpl in R.
  - destruct r as [u|e|].
    + right. exists [], tr, (Ok u). repeat split; [constructor|discriminate|exact R].
    + right. exists [], tr, (Err e). repeat split; [constructor|discriminate|exact R].
    + left. apply crun_ret in R. destruct R as [-> ->]. exists (CRet Panic). split; [constructor|reflexivity].
  - apply crun_lookup in R. destruct R as [[-> ->]|(r & tr1 & -> & Ty & R)].
    + left. eexists. split; [constructor|reflexivity].
    + apply IH in R. destruct R as [(q & R & ->)|(t1 & t2 & x & -> & R1 & N & R2)].
      * left. exists q. split; auto. econstructor; eauto. constructor; auto.
      * right. exists (CeLookup s m r :: t1), t2, x. repeat split; auto.
        econstructor; eauto. constructor; auto.
  - apply crun_connect in R. destruct R as [[-> ->]|(r & tr1 & -> & R)].
    + left. eexists. split; [constructor|reflexivity].
    + apply IH in R. destruct R as [(q' & R & ->)|(t1 & t2 & x & -> & R1 & N & R2)].
      * left. exists q'. split; auto. econstructor; eauto. constructor; auto.
      * right. exists (CeConnect t a q r :: t1), t2, x. repeat split; auto.
        econstructor; eauto. constructor; auto.
  - apply crun_rand in R. destruct R as [[-> ->]|(r & tr1 & -> & Ty & R)].
    + left. eexists. split; [constructor|reflexivity].
    + apply IH in R. destruct R as [(q & R & ->)|(t1 & t2 & x & -> & R1 & N & R2)].
      * left. exists q. split; auto. econstructor; eauto. constructor; auto.
      * right. exists (CeRand sz r :: t1), t2, x. repeat split; auto.
        econstructor; eauto. constructor; auto.
  - apply crun_send in R. destruct R as [[-> ->]|(d & r & tr1 & -> & Ty & R)].
    + left. eexists. split; [constructor|reflexivity].
    + apply IH in R. destruct R as [(q & R & ->)|(t1 & t2 & x & -> & R1 & N & R2)].
      * left. exists q. split; auto. econstructor; eauto. constructor; auto.
      * right. exists (CeSend d m r :: t1), t2, x. repeat split; auto.
        econstructor; eauto. constructor; auto.
  - apply crun_recv in R. destruct R as [[-> ->]|(d & r & tr1 & -> & Hd & Ty & R)].
    + left. eexists. split; [constructor|reflexivity].
    + apply IH in R. destruct R as [(q & R & ->)|(t1 & t2 & x & -> & R1 & N & R2)].
      * left. exists q. split; auto. econstructor; eauto. constructor; auto.
      * right. exists (CeRecv d r :: t1), t2, x. repeat split; auto.
        econstructor; eauto. constructor; auto.
Qed.

Lemma cbind_ret : forall p f r, cbind p f = CRet r ->
  exists r', p = CRet r' /\ ((r' = Panic /\ r = Panic) \/ f r' = CRet r).
Proof.
  intros p f r H. destruct p as [x| | | | |]; try discriminate. exists x. split; auto.
  destruct x; auto. inversion H; auto.
Qed.

(** *** Resolver *)

Fixpoint chain (l : list dns_service) (mode : res_mode) (k : res ip -> cprog) : cprog :=
  match l with
  | [] => k (Err "DNS lookup of host failed")
  | s :: l => CLookup s mode (fun r => match r with
                                       | Some x => k (get_first_result x mode)
                                       | None => chain l mode k
                                       end)
  end.

Lemma resolve_chain : forall parse_ip host cfg k, parse_ip host = None ->
  forall T tr p, crun T (resolve parse_ip host cfg k) tr p ->
  crun T (chain (filter (enabled (rc_srv cfg) (rc_crypt cfg)) preference) (rc_mode cfg) k) tr p.
Proof.
  intros parse_ip host [mode [s q g c] [t h u]] k E T tr p.
  unfold resolve. rewrite E. cbn.
  destruct s, q, g, c, t, h, u; exact (fun x => x).
Qed.

Lemma chain_runs : forall T mode k l tr p, crun T (chain l mode k) tr p ->
  exists qs tr2, tr = map (query_event mode) qs ++ tr2
    /\ (exists n, map fst qs = firstn n l)
    /\ (forall q, In q qs -> lookup_typed (snd q))
    /\ (forall pre s r post, qs = pre ++ (s, r) :: post -> post <> [] -> r = None)
    /\ ((tr2 = [] /\ (exists s m k', p = CLookup s m k') /\ (length qs < length l)%nat
         /\ (forall q, In q qs -> snd q = None))
        \/ (map fst qs = l /\ (forall q, In q qs -> snd q = None)
            /\ crun T (k (Err "DNS lookup of host failed")) tr2 p)
        \/ exists pre s x, qs = pre ++ [(s, Some x)]
            /\ crun T (k (get_first_result x mode)) tr2 p).
Proof.
  intros T mode k l. induction l as [|s l IH]; intros tr p R; simpl in R.
  - exists [], tr. repeat split; auto.
    + exists 0%nat. reflexivity.
    + intros q [].
    + intros pre s r post H. destruct pre; discriminate.
    + right; left. repeat split; auto. intros q [].
  - apply crun_lookup in R. destruct R as [[-> ->]|(r & tr1 & -> & Ty & R)].
    + exists [], []. repeat split; auto.
      * exists 0%nat. reflexivity.
      * intros q [].
      * intros pre s' r post H. destruct pre; discriminate.
      * left. simpl. repeat split; eauto; [lia|]. intros q [].
    + destruct r as [x|].
      * exists [(s, Some x)], tr1. repeat split; auto.
        -- exists 1%nat. reflexivity.
        -- intros q [<-|[]]. exact Ty.
        -- intros pre s' r post H NP. destruct pre as [|? pre].
           ++ injection H as E1 E2 E3. exfalso. apply NP. symmetry. exact E3.
           ++ destruct pre; discriminate H.
        -- right; right. exists [], s, x. auto.
      * apply IH in R. destruct R as (qs & tr2 & -> & (n & F) & LT & NL & C).
        exists ((s, None) :: qs), tr2. split; [reflexivity|]. split; [|split; [|split]].
        -- exists (S n). simpl. congruence.
        -- intros q [<-|I]; [exact Ty|auto].
        -- intros pre s' r post H NP. destruct pre as [|q pre]; simpl in H; inversion H; subst; auto.
           eapply NL; eauto.
        -- destruct C as [(-> & P & L & A)|[(M & A & R)|(pre & s' & x & -> & R)]].
           ++ left. simpl. repeat split; auto; [lia|]. intros q [<-|I]; auto.
           ++ right; left. simpl. repeat split; [congruence| |exact R]. intros q [<-|I]; auto.
           ++ right; right. exists ((s, None) :: pre), s', x. auto.
Qed.

Lemma first_result_ok : forall l mode a, (forall x, In x l -> rdata_typed x) ->
  get_first_result l mode = Ok a -> first_record mode l a /\ ip_address a.
Proof.
  intros l mode a. induction l as [|x l IH]; simpl; [discriminate|]. intros Ty H.
  assert (Tx : rdata_typed x) by (apply Ty; auto).
  assert (Tl : forall y, In y l -> rdata_typed y) by (intros; apply Ty; auto).
  destruct mode, x as [o|o|];
    try solve [injection H as <-; split; [constructor|];
               simpl in Tx; destruct Tx as [L B]; apply bytes_ok_spec in B; split; assumption];
    (destruct (IH Tl H) as [F I]; split; [|exact I]); constructor; auto; discriminate.
Qed.

Lemma first_result_err : forall l mode e, get_first_result l mode = Err e ->
  forall a, ~ first_record mode l a.
Proof.
  intros l mode e. induction l as [|x l IH]; simpl; intros H a F; [inversion F|].
  destruct mode, x as [o|o|]; try discriminate;
    inversion F; subst; try (eapply IH; eauto; fail);
    match goal with H : forall o, _ <> _ |- _ => eapply H; reflexivity end.
Qed.

Lemma first_result_no_panic : forall l mode, get_first_result l mode <> Panic.
Proof.
  induction l as [|x l IH]; intros mode; simpl; [discriminate|].
  destruct mode, x; auto; discriminate.
Qed.

Lemma first_record_family : forall mode l a, first_record mode l a -> family_ok mode a.
Proof. intros mode l a H. induction H; simpl; auto. Qed.

(** The outcome of the resolution as seen by the continuation. *)
Lemma resolve_runs : forall parse_ip T host cfg k tr p,
  crun T (resolve parse_ip host cfg k) tr p ->
  exists qs tr2, tr = map (query_event (rc_mode cfg)) qs ++ tr2
    /\ (forall a, parse_ip host = Some a -> qs = [])
    /\ (exists n, map fst qs = firstn n (filter (enabled (rc_srv cfg) (rc_crypt cfg)) preference))
    /\ (forall pre s r post, qs = pre ++ (s, r) :: post -> post <> [] -> r = None)
    /\ ((tr2 = [] /\ (exists s m k', p = CLookup s m k'))
        \/ exists r, crun T (k r) tr2 p /\ r <> Panic
           /\ (forall a, r = Ok a ->
                 family_ok (rc_mode cfg) a
                 /\ (parse_ip host = Some a
                     \/ (parse_ip host = None
                         /\ exists pre s x, qs = pre ++ [(s, Some x)]
                                            /\ first_record (rc_mode cfg) x a)))
           /\ (forall e, r = Err e ->
                 (exists a, parse_ip host = Some a /\ ~ family_ok (rc_mode cfg) a)
                 \/ (parse_ip host = None
                     /\ (exists pre s x, qs = pre ++ [(s, Some x)]
                                      /\ (forall a, ~ first_record (rc_mode cfg) x a)))
                 \/ (parse_ip host = None
                     /\ map fst qs = filter (enabled (rc_srv cfg) (rc_crypt cfg)) preference
                     /\ (forall q, In q qs -> snd q = None)))).
Proof.
  intros parse_ip T host cfg k tr p R.
  destruct (parse_ip host) as [a|] eqn:E.
  - exists [], tr. split; [reflexivity|]. split; [auto|]. split; [exists 0%nat; reflexivity|].
    split; [intros pre s r post H; destruct pre; discriminate|]. right.
    unfold resolve in R. rewrite E in R.
    assert (exists r, crun T (k r) tr p /\ r <> Panic
            /\ ((r = Ok a /\ family_ok (rc_mode cfg) a)
                \/ (exists e, r = Err e) /\ ~ family_ok (rc_mode cfg) a))
      as (r & R' & N & C).
    { destruct (rc_mode cfg), a as [o|o]; simpl in R; eexists; (split; [exact R|]);
        (split; [discriminate|]); simpl; auto; right; split; eauto. }
    exists r. split; [exact R'|]. split; [exact N|].
    split; intros x Hx; destruct C as [(C1 & C2)|((e & C1) & C2)]; rewrite C1 in Hx; try discriminate Hx.
    + injection Hx as <-. auto.
    + left. eauto.
  - apply (resolve_chain _ _ _ _ E) in R. apply chain_runs in R.
    destruct R as (qs & tr2 & -> & F & LT & NL & C). exists qs, tr2.
    split; [reflexivity|]. split; [discriminate|]. split; [exact F|]. split; [exact NL|].
    destruct C as [(-> & P & _)|[(M & A & R)|(pre & s & x & -> & R)]]; [auto| |]; right.
    + eexists. split; [exact R|]. split; [discriminate|]. split; [discriminate|].
      intros e _. auto 10.
    + eexists. split; [exact R|]. split; [apply first_result_no_panic|].
      assert (Tx : lookup_typed (Some x)).
      { apply (LT (s, Some x)). apply in_or_app. right. left. reflexivity. }
      split.
      * intros a Ha. apply first_result_ok in Ha; [|exact Tx]. destruct Ha as [Ha _].
        split; [eapply first_record_family; eauto|]. right. eauto 10.
      * intros e He. right; left. split; auto. exists pre, s, x.
        split; auto. eapply first_result_err; eauto.
Qed.

(** *** The exchange *)

Section Exchange.

Variable mac : list byte -> list byte -> list byte.
Variable parse_ip : text -> option ip.
Variable T : N.
Hypothesis mac_sized : forall x y, length (mac x y) = 32%nat /\ all_bytes (mac x y).

Variable q : knock_seq.
Hypothesis SI : sane_identity q.

Notation key := (kq_key q).
Notation user := (kq_user q).
Notation resource := (kq_resource q).

Definition knock_msg (s : list byte) (m : message) : Prop :=
  rand_typed 8 (Some s) /\ api_message m /\ m_op m = Knock
  /\ exists b, wire m b /\ valid_knock mac key user resource b.
Definition response_msg (nonce s : list byte) (m : message) : Prop :=
  rand_typed 8 (Some s) /\ api_message m /\ m_op m = Response
  /\ exists b, wire m b /\ valid_response mac key user resource nonce b.

Lemma make_knock : forall s m, rand_typed 8 (Some s) ->
  msg_new Knock user resource (Some s) = Ok m ->
  exists m', generate_auth_no_challenge mac m key = Ok m' /\ knock_msg s m'.
Proof.
  intros s m [L B] E. destruct SI as (KL & U & R). apply bytes_ok_spec in B.
  pose proof (msg_new_api _ _ _ _ _ U R L B E) as A.
  apply msg_new_ok in E. destruct E as (s' & E & -> & _). injection E as <-.
  rewrite generate_knock by (auto; reflexivity). eexists. split; [reflexivity|].
  set (m0 := Msg MAGIC Knock user resource s ZERO_AUTH) in *.
  assert (A' : api_message (set_auth m0 (mac key (mac_input m0 ZERO_AUTH)))).
  { destruct A as (A1 & A2 & A3 & A4 & A5 & _). destruct (mac_sized key (mac_input m0 ZERO_AUTH)).
    unfold api_message. cbn [set_auth m_magic m_user m_resource m_salt m_auth]. auto 10. }
  split; [split; [auto|apply bytes_ok_spec; auto]|]. split; [exact A'|]. split; [reflexivity|].
  destruct (layout _ A') as (b & W & Lb). exists b. split; [exact W|].
  exists s, (mac key (mac_input m0 ZERO_AUTH)), (mac_input m0 ZERO_AUTH).
  split; [exact Lb|]. split; [|reflexivity].
  apply protected_text_mac_input; auto; apply zero_auth_ok.
Qed.

Lemma make_response : forall s m ch, rand_typed 8 (Some s) ->
  msg_new Response user resource (Some s) = Ok m ->
  api_message ch -> m_op ch = Challenge ->
  exists m', generate_auth mac m key ch = Ok m' /\ response_msg (m_auth ch) s m'.
Proof.
  intros s m ch [L B] E AC OC. destruct SI as (KL & U & R). apply bytes_ok_spec in B.
  pose proof (msg_new_api _ _ _ _ _ U R L B E) as A.
  assert (CL : length (m_auth ch) = 32%nat) by apply AC.
  assert (CB : all_bytes (m_auth ch)) by apply AC.
  apply msg_new_ok in E. destruct E as (s' & E & -> & _). injection E as <-.
  rewrite generate_response by (auto; reflexivity). eexists. split; [reflexivity|].
  set (m0 := Msg MAGIC Response user resource s ZERO_AUTH) in *.
  assert (A' : api_message (set_auth m0 (mac key (mac_input m0 (m_auth ch))))).
  { destruct A as (A1 & A2 & A3 & A4 & A5 & _). destruct (mac_sized key (mac_input m0 (m_auth ch))).
    unfold api_message. cbn [set_auth m_magic m_user m_resource m_salt m_auth]. auto 10. }
  split; [split; [auto|apply bytes_ok_spec; auto]|]. split; [exact A'|]. split; [reflexivity|].
  destruct (layout _ A') as (b & W & Lb). exists b. split; [exact W|].
  exists s, (mac key (mac_input m0 (m_auth ch))), (mac_input m0 (m_auth ch)).
  split; [exact Lb|]. split; [|reflexivity].
  apply protected_text_mac_input; auto.
Qed.

Inductive kx2 (nonce : list byte) : list cevent -> cprog -> Prop :=
| k2_start : forall k, kx2 nonce [] (CRand 8 k)
| k2_panic : forall os, rand_typed 8 os -> secure_random 8 os = Panic ->
    kx2 nonce [CeRand 8 os] (CRet Panic)
| k2_made : forall s m k, response_msg nonce s m -> kx2 nonce [CeRand 8 (Some s)] (CSend m k)
| k2_unsent : forall s m d r e, response_msg nonce s m -> d <= T -> r <> TxOk ->
    kx2 nonce [CeRand 8 (Some s); CeSend d m r] (CRet (Err e))
| k2_sent : forall s m d k, response_msg nonce s m -> d <= T ->
    kx2 nonce [CeRand 8 (Some s); CeSend d m TxOk] (CRecv k)
| k2_bad : forall s m d d2 r e, response_msg nonce s m -> d <= T -> d2 <= T -> rx_typed r ->
    kx2 nonce [CeRand 8 (Some s); CeSend d m TxOk; CeRecv d2 r] (CRet (Err e))
| k2_done : forall s m d d2 r, response_msg nonce s m -> d <= T -> d2 <= T ->
    received ComeIn r ->
    kx2 nonce [CeRand 8 (Some s); CeSend d m TxOk; CeRecv d2 r] (CRet (Ok tt)).

Inductive kx : list cevent -> cprog -> Prop :=
| kx_start : forall k, kx [] (CRand 8 k)
| kx_panic : forall os, rand_typed 8 os -> secure_random 8 os = Panic ->
    kx [CeRand 8 os] (CRet Panic)
| kx_made : forall s m k, knock_msg s m -> kx [CeRand 8 (Some s)] (CSend m k)
| kx_unsent : forall s m d r e, knock_msg s m -> d <= T -> r <> TxOk ->
    kx [CeRand 8 (Some s); CeSend d m r] (CRet (Err e))
| kx_sent : forall s m d k, knock_msg s m -> d <= T ->
    kx [CeRand 8 (Some s); CeSend d m TxOk] (CRecv k)
| kx_bad : forall s m d d2 r e, knock_msg s m -> d <= T -> d2 <= T -> rx_typed r ->
    kx [CeRand 8 (Some s); CeSend d m TxOk; CeRecv d2 r] (CRet (Err e))
| kx_challenged : forall s m d d2 b u res cs nonce tr p, knock_msg s m -> d <= T -> d2 <= T ->
    wire_layout b Challenge u res cs nonce -> kx2 nonce tr p ->
    kx (CeRand 8 (Some s) :: CeSend d m TxOk :: CeRecv d2 (RxBuf b) :: tr) p.

Definition tail2 (challenge : message) : cprog :=
  client_msg Response user resource (fun m2 =>
    unres (generate_auth mac m2 key challenge) (fun response =>
      client_send response (recv_specific ComeIn (fun comein => CRet (Ok tt))))).

Definition body : cprog :=
  client_msg Knock user resource (fun m =>
    unres (generate_auth_no_challenge mac m key) (fun knock =>
      client_send knock (recv_specific Challenge tail2))).

Lemma recv_specific_runs : forall o k tr p, crun T (recv_specific o k) tr p ->
  (tr = [] /\ exists k', p = CRecv k')
  \/ (exists d r e, tr = [CeRecv d r] /\ d <= T /\ rx_typed r /\ p = CRet (Err e))
  \/ (exists d b m tr1, tr = CeRecv d (RxBuf b) :: tr1 /\ d <= T /\ api_message m
        /\ m_op m = o /\ wire_layout b o (m_user m) (m_resource m) (m_salt m) (m_auth m)
        /\ crun T (k m) tr1 p).
Proof.
  intros o k tr p R. unfold recv_specific in R. apply crun_recv in R.
  destruct R as [[-> ->]|(d & r & tr1 & -> & Hd & Ty & R)]; [left; eauto|right].
  destruct r as [| | |b];
    try (apply crun_ret in R; destruct R as [-> ->]; left; do 3 eexists; eauto; fail).
  destruct Ty as [L B]. pose proof B as B'. apply bytes_ok_spec in B.
  unfold decode_rx in R.
  destruct (try_msg_deserialize b) as [m|e|] eqn:D.
  - destruct (op_eqb (m_op m) GoAway);
      [apply crun_ret in R; destruct R as [-> ->]; left;
       exists d, (RxBuf b); eexists; split; [reflexivity|]; split; [auto|]; split; [split; auto|auto]|].
    destruct (op_eqb (m_op m) o) eqn:O; cbn [negb] in R.
    + right. apply op_eqb_spec in O. subst o. exists d, b, m, tr1. split; [reflexivity|].
      split; [auto|]. split; [eapply decode_canonical; eauto|]. split; [reflexivity|].
      split; [apply decode_layout; auto|]. exact R.
    + apply crun_ret in R. destruct R as [-> ->]. left.
      exists d, (RxBuf b). eexists. split; [reflexivity|]. split; [auto|]. split; [split; auto|auto].
  - apply crun_ret in R. destruct R as [-> ->]. left.
    exists d, (RxBuf b), e. split; [reflexivity|]. split; [auto|]. split; [split; auto|auto].
  - exfalso. eapply decode_no_panic; eauto.
Qed.

Lemma tail2_runs : forall ch tr p, api_message ch -> m_op ch = Challenge ->
  crun T (tail2 ch) tr p -> kx2 (m_auth ch) tr p.
Proof.
  intros ch tr p AC OC R. unfold tail2, client_msg in R. apply crun_rand in R.
  change SALT_SIZE with 8%nat in *.
  destruct R as [[-> ->]|(os & tr1 & -> & Ty & R)]; [constructor|].
  destruct (msg_new_cases Response user resource os) as [(E1 & E2)|(s & -> & E1 & E2)];
    rewrite E2 in R.
  { apply crun_ret in R. destruct R as [-> ->]. constructor; auto. }
  destruct (make_response s _ ch Ty E2 AC OC) as (m' & G & RM). rewrite G in R. cbn [unres] in R.
  unfold client_send in R. apply crun_send in R.
  destruct R as [[-> ->]|(d & r & tr2 & -> & Hd & R)]; [constructor; auto|].
  destruct r;
    try (apply crun_ret in R; destruct R as [-> ->]; apply k2_unsent; auto; discriminate).
  apply recv_specific_runs in R.
  destruct R as [(-> & k' & ->)|[(d2 & r & e & -> & Hd2 & Ty2 & ->)
                |(d2 & b & m & tr3 & -> & Hd2 & AM & O & W & R)]].
  - apply k2_sent; auto.
  - apply k2_bad; auto.
  - apply crun_ret in R. destruct R as [-> ->]. apply k2_done; auto. red. eauto 10.
Qed.

Lemma body_runs : forall tr p, crun T body tr p -> kx tr p.
Proof.
  intros tr p R. unfold body, client_msg in R. apply crun_rand in R.
  change SALT_SIZE with 8%nat in *.
  destruct R as [[-> ->]|(os & tr1 & -> & Ty & R)]; [constructor|].
  destruct (msg_new_cases Knock user resource os) as [(E1 & E2)|(s & -> & E1 & E2)];
    rewrite E2 in R.
  { apply crun_ret in R. destruct R as [-> ->]. constructor; auto. }
  destruct (make_knock s _ Ty E2) as (m' & G & RM). rewrite G in R. cbn [unres] in R.
  unfold client_send in R. apply crun_send in R.
  destruct R as [[-> ->]|(d & r & tr2 & -> & Hd & R)]; [constructor; auto|].
  destruct r;
    try (apply crun_ret in R; destruct R as [-> ->]; apply kx_unsent; auto; discriminate).
  apply recv_specific_runs in R.
  destruct R as [(-> & k' & ->)|[(d2 & r & e & -> & Hd2 & Ty2 & ->)
                |(d2 & b & m & tr3 & -> & Hd2 & AM & O & W & R)]].
  - apply kx_sent; auto.
  - apply kx_bad; auto.
  - apply (kx_challenged s m' d d2 b _ _ _ _ tr3 p RM Hd Hd2 W). apply tail2_runs; auto.
Qed.

(** Everything that happens in a knock: lookups, then the connection, then the
    exchange. *)
Inductive kseq (mode : res_mode) : list cevent -> cprog -> Prop :=
| ks_looking : forall qs p, (forall r, p <> CRet r) -> kseq mode (map (query_event mode) qs) p
| ks_unresolved : forall qs e, kseq mode (map (query_event mode) qs) (CRet (Err e))
| ks_no_transport : forall qs, ~ one_transport (kq_port q) ->
    kseq mode (map (query_event mode) qs) (CRet Panic)
| ks_unconnected : forall qs a e, one_transport (kq_port q) -> family_ok mode a ->
    kseq mode (map (query_event mode) qs
               ++ [CeConnect (cp_tcp (kq_port q)) a (cp_port (kq_port q)) false]) (CRet (Err e))
| ks_connected : forall qs a tr p, one_transport (kq_port q) -> family_ok mode a -> kx tr p ->
    kseq mode (map (query_event mode) qs
               ++ CeConnect (cp_tcp (kq_port q)) a (cp_port (kq_port q)) true :: tr) p.

Lemma kseq_runs : forall mode tr p,
  crun T (knock_sequence mac parse_ip q mode) tr p -> kseq mode tr p.
Proof.
  intros mode tr p R. unfold knock_sequence, client_new in R. apply resolve_runs in R.
  destruct R as (qs & tr2 & -> & _ & _ & _ & C). cbn [rc_mode] in *.
  destruct C as [(-> & s & m & k' & ->)|(r & R & NP & OK & _)].
  { rewrite app_nil_r. apply ks_looking. discriminate. }
  destruct r as [a|e|]; [|apply crun_ret in R; destruct R as [-> ->]; rewrite app_nil_r;
                           apply ks_unresolved|congruence].
  destruct (OK a eq_refl) as [F _].
  destruct (kq_port q) as [port tcp udp] eqn:EP. cbn [cp_tcp cp_udp cp_port] in R.
  assert (OT : one_transport (kq_port q) <-> tcp = negb udp)
    by (rewrite EP; unfold one_transport; cbn; tauto).
  replace port with (cp_port (kq_port q)) in R by (rewrite EP; reflexivity).
  destruct tcp, udp; cbn [negb] in R.
  - apply crun_ret in R. destruct R as [-> ->]. rewrite app_nil_r. apply ks_no_transport.
    rewrite OT. discriminate.
  - replace true with (cp_tcp (kq_port q)) in R at 1 by (rewrite EP; reflexivity).
    apply crun_connect in R. destruct R as [[-> ->]|(ok & tr3 & -> & R)].
    + rewrite app_nil_r. apply ks_looking. discriminate.
    + destruct ok.
      * apply ks_connected; [apply OT; reflexivity|auto|]. apply body_runs. exact R.
      * apply crun_ret in R. destruct R as [-> ->]. apply ks_unconnected; auto.
        apply OT; reflexivity.
  - replace false with (cp_tcp (kq_port q)) in R at 1 by (rewrite EP; reflexivity).
    apply crun_connect in R. destruct R as [[-> ->]|(ok & tr3 & -> & R)].
    + rewrite app_nil_r. apply ks_looking. discriminate.
    + destruct ok.
      * apply ks_connected; [apply OT; reflexivity|auto|]. apply body_runs. exact R.
      * apply crun_ret in R. destruct R as [-> ->]. apply ks_unconnected; auto.
        apply OT; reflexivity.
  - apply crun_ret in R. destruct R as [-> ->]. rewrite app_nil_r. apply ks_no_transport.
    rewrite OT. discriminate.
Qed.

Lemma kx_success : forall tr, kx tr (CRet (Ok tt)) -> full_exchange mac key user resource tr.
Proof.
  intros tr H. inversion H; subst.
  match goal with H : kx2 _ _ _ |- _ => inversion H; subst end.
  match goal with H : knock_msg _ _ |- _ => destruct H as (_ & _ & _ & kb & W1 & V1) end.
  match goal with H : response_msg _ _ _ |- _ => destruct H as (_ & _ & _ & rb & W2 & V2) end.
  match goal with H : received _ _ |- _ => destruct H as (ib & iu & ir & is & ia & -> & W3) end.
  eapply full_exchange_intro; eauto.
Qed.

Lemma knock_success : forall mode tr,
  attempt T (knock_sequence mac parse_ip q mode) tr (Ok tt) ->
  exists qs a ex, tr = map (query_event mode) qs
      ++ CeConnect (cp_tcp (kq_port q)) a (cp_port (kq_port q)) true :: ex
    /\ family_ok mode a /\ full_exchange mac key user resource ex.
Proof.
  intros mode tr R. apply kseq_runs in R. inversion R; subst.
  - exfalso. eapply H; reflexivity.
  - exists qs, a, tr0. split; [reflexivity|]. split; [assumption|]. apply kx_success. assumption.
Qed.

Lemma query_split : forall mode qs pre ev post, (forall s m r, ev <> CeLookup s m r) ->
  forall rest, map (query_event mode) qs ++ rest = pre ++ ev :: post ->
  exists pre', pre = map (query_event mode) qs ++ pre' /\ rest = pre' ++ ev :: post.
Proof.
  intros mode qs. induction qs as [|x qs IH]; intros pre ev post NL rest E; simpl in *.
  - exists pre. auto.
  - destruct pre as [|y pre]; simpl in E.
    + injection E as E _. exfalso. eapply NL. symmetry. exact E.
    + injection E as <- E. destruct (IH _ _ _ NL _ E) as (pre' & -> & ->). exists pre'. auto.
Qed.

Lemma expected_queries : forall mode qs l, expected (map (query_event mode) qs ++ l) = expected l.
Proof. intros mode qs l. induction qs as [|x qs IH]; auto. Qed.

Lemma nil_query_split : forall mode qs pre ev post, (forall s m r, ev <> CeLookup s m r) ->
  map (query_event mode) qs = pre ++ ev :: post -> False.
Proof.
  intros mode qs pre ev post NL E. rewrite <- (app_nil_r (map _ _)) in E.
  apply query_split in E; auto. destruct E as (pre' & _ & E). destruct pre'; discriminate.
Qed.

(** Messages the client sends. *)
Lemma kx_sends : forall tr p pre d m r post, kx tr p -> tr = pre ++ CeSend d m r :: post ->
  (exists b, wire m b /\ valid_knock mac key user resource b
             /\ (forall d' r', ~ In (CeRecv d' r') pre))
  \/ (exists b pre' d' cb u res cs nonce os, wire m b
        /\ pre = pre' ++ [CeRecv d' (RxBuf cb); CeRand 8 os]
        /\ wire_layout cb Challenge u res cs nonce
        /\ valid_response mac key user resource nonce b).
Proof.
  intros tr p pre d m r post H E.
  assert (K : forall s x, knock_msg s x -> pre = [CeRand 8 (Some s)] -> m = x ->
     exists b, wire m b /\ valid_knock mac key user resource b
               /\ (forall d' r', ~ In (CeRecv d' r') pre)).
  { intros s x (_ & _ & _ & b & W & V) -> ->. exists b. split; [auto|]. split; [auto|].
    intros d' r' [X|[]]. discriminate X. }
  destruct H.
  - destruct pre; discriminate E.
  - destruct pre as [|? [|? ?]]; discriminate E.
  - destruct pre as [|? [|? ?]]; discriminate E.
  - left. destruct pre as [|? pre]; [discriminate E|]. simpl in E. injection E as <- E.
    destruct pre as [|? [|? ?]]; try discriminate E. injection E as <- <- <- <-. eauto.
  - left. destruct pre as [|? pre]; [discriminate E|]. simpl in E. injection E as <- E.
    destruct pre as [|? [|? ?]]; try discriminate E. injection E as <- <- <- <-. eauto.
  - left. destruct pre as [|? pre]; [discriminate E|]. simpl in E. injection E as <- E.
    destruct pre as [|? [|? [|? ?]]]; try discriminate E. injection E as <- <- <- <-. eauto.
  - destruct pre as [|? pre]; [discriminate E|]. simpl in E. injection E as <- E.
    destruct pre as [|? pre].
    { left. injection E as <- <- <- <-. eauto. }
    right. simpl in E. injection E as <- E.
    destruct pre as [|? pre]; [discriminate E|]. simpl in E. injection E as <- E.
    assert (K2 : forall x y, response_msg nonce x y -> pre = [CeRand 8 (Some x)] -> m = y ->
      exists b0 pre' d' cb u0 res0 cs0 nonce0 os, wire m b0
        /\ CeRand 8 (Some s) :: CeSend d0 m0 TxOk :: CeRecv d2 (RxBuf b) :: pre
           = pre' ++ [CeRecv d' (RxBuf cb); CeRand 8 os]
        /\ wire_layout cb Challenge u0 res0 cs0 nonce0
        /\ valid_response mac key user resource nonce0 b0).
    { intros x y (_ & _ & _ & rb & W & V) -> ->.
      exists rb, [CeRand 8 (Some s); CeSend d0 m0 TxOk], d2, b, u, res, cs, nonce, (Some x).
      split; [exact W|]. split; [reflexivity|]. split; [assumption|exact V]. }
    match goal with H : kx2 _ _ _ |- _ => destruct H end.
    + destruct pre; discriminate E.
    + destruct pre as [|? [|? ?]]; discriminate E.
    + destruct pre as [|? [|? ?]]; discriminate E.
    + destruct pre as [|? pre]; [discriminate E|]. simpl in E. injection E as <- E.
      destruct pre as [|? [|? ?]]; try discriminate E. injection E as <- <- <- <-. eapply K2; eauto.
    + destruct pre as [|? pre]; [discriminate E|]. simpl in E. injection E as <- E.
      destruct pre as [|? [|? ?]]; try discriminate E. injection E as <- <- <- <-. eapply K2; eauto.
    + destruct pre as [|? pre]; [discriminate E|]. simpl in E. injection E as <- E.
      destruct pre as [|? [|? [|? ?]]]; try discriminate E. injection E as <- <- <- <-. eapply K2; eauto.
    + destruct pre as [|? pre]; [discriminate E|]. simpl in E. injection E as <- E.
      destruct pre as [|? [|? [|? ?]]]; try discriminate E. injection E as <- <- <- <-. eapply K2; eauto.
Qed.

Lemma knock_sends : forall mode tr p, crun T (knock_sequence mac parse_ip q mode) tr p ->
  forall pre d m r post, tr = pre ++ CeSend d m r :: post ->
  (exists b, wire m b /\ valid_knock mac key user resource b
             /\ (forall d' r', ~ In (CeRecv d' r') pre))
  \/ (exists b pre' d' cb u res cs nonce os, wire m b
        /\ pre = pre' ++ [CeRecv d' (RxBuf cb); CeRand 8 os]
        /\ wire_layout cb Challenge u res cs nonce
        /\ valid_response mac key user resource nonce b).
Proof.
  intros mode tr p R pre d m r post E. apply kseq_runs in R.
  destruct R as [qs p NR|qs e|qs NT|qs a e OT F|qs a tr p OT F K].
  - exfalso. eapply nil_query_split in E; eauto; discriminate.
  - exfalso. eapply nil_query_split in E; eauto; discriminate.
  - exfalso. eapply nil_query_split in E; eauto; discriminate.
  - exfalso. apply query_split in E; [|discriminate]. destruct E as (pre' & _ & E).
    destruct pre' as [|? [|? ?]]; discriminate E.
  - apply query_split in E; [|discriminate]. destruct E as (pre' & -> & E).
    destruct pre' as [|? pre']; [discriminate E|]. simpl in E. injection E as <- E.
    destruct (kx_sends _ _ _ _ _ _ _ K E) as [(b & W & V & NI)
      |(b & pre1 & d' & cb & u & res & cs & nonce & os & W & -> & L & V)].
    + left. exists b. split; [auto|]. split; [auto|]. intros d' r' I. apply in_app_or in I.
      destruct I as [I|[I|I]]; [|discriminate|eapply NI; eauto].
      apply in_map_iff in I. destruct I as (x & X & _). discriminate X.
    + right. eexists b, (map (query_event mode) qs ++ CeConnect _ a _ true :: pre1), d', cb, u, res, cs, nonce, os.
      split; [auto|]. split; [rewrite <- app_assoc; reflexivity|]. auto.
Qed.

(** Messages the client receives. *)
Lemma kx_receives : forall tr p pre d r post, kx tr p -> tr = pre ++ CeRecv d r :: post ->
  received (expected pre) r \/ (post = [] /\ exists e, p = CRet (Err e)).
Proof.
  intros tr p pre d r post H E. destruct H.
  - destruct pre; discriminate E.
  - destruct pre as [|? [|? ?]]; discriminate E.
  - destruct pre as [|? [|? ?]]; discriminate E.
  - destruct pre as [|? [|? [|? ?]]]; discriminate E.
  - destruct pre as [|? [|? [|? ?]]]; discriminate E.
  - destruct pre as [|? [|? [|? [|? ?]]]]; try discriminate E. right.
    injection E as <- <- <- <- <-. eauto.
  - destruct pre as [|? [|? [|? pre]]]; try discriminate E.
    + left. injection E as <- <- <- <- <-. simpl. red. eauto 10.
    + simpl in E. injection E as <- <- <- E. cbn [expected].
      match goal with H : kx2 _ _ _ |- _ => destruct H end.
      * destruct pre; discriminate E.
      * destruct pre as [|? [|? ?]]; discriminate E.
      * destruct pre as [|? [|? ?]]; discriminate E.
      * destruct pre as [|? [|? [|? ?]]]; discriminate E.
      * destruct pre as [|? [|? [|? ?]]]; discriminate E.
      * destruct pre as [|? [|? [|? [|? ?]]]]; try discriminate E. right.
        injection E as <- <- <- <- <-. eauto.
      * destruct pre as [|? [|? [|? [|? ?]]]]; try discriminate E. left.
        injection E as <- <- <- <- <-. auto.
Qed.

Lemma knock_receives : forall mode tr p, crun T (knock_sequence mac parse_ip q mode) tr p ->
  forall pre d r post, tr = pre ++ CeRecv d r :: post ->
  received (expected pre) r \/ (post = [] /\ exists e, p = CRet (Err e)).
Proof.
  intros mode tr p R pre d r post E. apply kseq_runs in R.
  destruct R as [qs p NR|qs e|qs NT|qs a e OT F|qs a tr p OT F K].
  - exfalso. eapply nil_query_split in E; eauto; discriminate.
  - exfalso. eapply nil_query_split in E; eauto; discriminate.
  - exfalso. eapply nil_query_split in E; eauto; discriminate.
  - exfalso. apply query_split in E; [|discriminate]. destruct E as (pre' & _ & E).
    destruct pre' as [|? [|? ?]]; discriminate E.
  - apply query_split in E; [|discriminate]. destruct E as (pre' & -> & E).
    destruct pre' as [|? pre']; [discriminate E|]. simpl in E. injection E as <- E.
    rewrite expected_queries. cbn [expected]. eapply kx_receives; eauto.
Qed.

Lemma c_good_random_ok : forall os, rand_typed 8 os -> c_good_random (CeRand 8 os) ->
  secure_random 8 os <> Panic.
Proof.
  intros [b|] Ty G; simpl in G; [|contradiction].
  rewrite secure_random_complete; auto; [discriminate|]. apply Ty.
Qed.

Lemma kx_no_panic : forall tr p, kx tr p -> Forall c_good_random tr -> p <> CRet Panic.
Proof.
  intros tr p H F. destruct H; try discriminate.
  - intros _. apply Forall_inv in F. eapply c_good_random_ok; eauto.
  - do 3 apply Forall_inv_tail in F. destruct H3; try discriminate.
    intros _. apply Forall_inv in F. eapply c_good_random_ok; eauto.
Qed.

Lemma knock_no_panic : forall mode tr p, crun T (knock_sequence mac parse_ip q mode) tr p ->
  one_transport (kq_port q) -> Forall c_good_random tr -> p <> CRet Panic.
Proof.
  intros mode tr p R OT F. apply kseq_runs in R.
  destruct R as [qs p NR|qs e|qs NT|qs a e OT' FO|qs a tr p OT' FO K]; auto; try discriminate.
  - apply Forall_app in F. destruct F as [_ F]. apply Forall_inv_tail in F.
    eapply kx_no_panic; eauto.
Qed.

Lemma knock_connects : forall mode tr p, crun T (knock_sequence mac parse_ip q mode) tr p ->
  forall tcp a port ok, In (CeConnect tcp a port ok) tr ->
  tcp = cp_tcp (kq_port q) /\ port = cp_port (kq_port q) /\ family_ok mode a
  /\ one_transport (kq_port q).
Proof.
  intros mode tr p R tcp a port ok I. apply kseq_runs in R.
  assert (NQ : forall qs, ~ In (CeConnect tcp a port ok) (map (query_event mode) qs)).
  { intros qs J. apply in_map_iff in J. destruct J as (x & X & _). discriminate X. }
  destruct R as [qs p NR|qs e|qs NT|qs a' e OT' FO|qs a' tr p OT' FO K];
    try (exfalso; eapply NQ; eauto; fail); apply in_app_or in I;
    destruct I as [I|I]; try (exfalso; eapply NQ; eauto; fail).
  - destruct I as [I|[]]. injection I as <- <- <- _. auto.
  - destruct I as [I|I]; [injection I as <- <- <- _; auto|]. exfalso.
    destruct K; try (destruct I; fail); simpl in I;
      repeat (destruct I as [I|I]; [discriminate I|]); try contradiction.
    destruct H3; simpl in I; repeat (destruct I as [I|I]; [discriminate I|]); try contradiction.
Qed.

End Exchange.

(** *** Address modes *)

Lemma attempt_bind : forall T p f tr r, r <> Panic ->
  attempt T (cbind p f) tr r ->
  exists tr1 tr2 r1, tr = tr1 ++ tr2 /\ attempt T p tr1 r1 /\ r1 <> Panic /\ crun T (f r1) tr2 (CRet r).
Proof.
  intros T p f tr r NP R. apply crun_bind in R. destruct R as [(q & R & E)|H].
  - symmetry in E. destruct q as [x| | | | |]; try discriminate E.
    assert (x <> Panic) as NX. { intros ->. simpl in E. congruence. }
    exists tr, [], x. rewrite app_nil_r. split; [reflexivity|]. split; [exact R|].
    split; [exact NX|]. destruct x; simpl in E; [| |congruence]; rewrite E; constructor.
  - destruct H as (tr1 & tr2 & r1 & -> & R1 & N & R2). exists tr1, tr2, r1. auto.
Qed.

Lemma run_modes_outcome : forall mac parse_ip T q ipv4 ipv6 tr r, r <> Panic ->
  attempt T (run_modes mac parse_ip q (addr_mode_of ipv4 ipv6)) tr r ->
  outcome T (knock_sequence mac parse_ip q RmIpv6) (knock_sequence mac parse_ip q RmIpv4)
    (parse_ip (kq_addr q)) ipv4 ipv6 tr r.
Proof.
  intros mac parse_ip T q ipv4 ipv6 tr r NP R. destruct ipv4, ipv6; simpl in R.
  - apply attempt_bind in R; auto. destruct R as (t6 & t4 & r6 & -> & R6 & N6 & R).
    destruct r6 as [[]|e|]; [apply oc_both; auto| |congruence].
    apply crun_ret in R. destruct R as [-> R]. injection R as ->. rewrite app_nil_r.
    apply oc_both_fail; auto. discriminate.
  - apply oc_only4; auto.
  - apply oc_only6; auto.
  - unfold is_ipv4_addr, is_ipv6_addr in R. destruct (parse_ip (kq_addr q)) as [[o|o]|] eqn:P;
      cbn [is_ipv4 is_ipv6] in R.
    + eapply oc_raw4; eauto.
    + eapply oc_raw6; eauto.
    + apply attempt_bind in R; auto. destruct R as (t6 & t' & r6 & -> & R6 & N6 & R).
      apply attempt_bind in R; auto. destruct R as (t4 & t0 & r4 & -> & R4 & N4 & R).
      assert (t0 = [] /\ (r = Ok tt <-> r6 = Ok tt \/ r4 = Ok tt)) as [-> C].
      { destruct r6 as [[]|e6|], r4 as [[]|e4|]; try congruence; apply crun_ret in R;
          destruct R as [-> R]; injection R as ->; (split; [reflexivity|]);
          split; auto; try discriminate; intros [X|X]; discriminate X. }
      rewrite app_nil_r. apply oc_name with (r6 := r6) (r4 := r4); auto.
Qed.

Lemma res_id_by_port_spec : forall l port u id, res_id_by_port l port (Some u) = Some id ->
  exists rs, In (id, rs) l /\ rs_port rs = port /\ (rs_users rs = [] \/ In u (rs_users rs)).
Proof.
  intros l port u id. induction l as [|[k r] l IH]; simpl; [discriminate|].
  destruct (N.eqb_spec (rs_port r) port) as [E|NE].
  - destruct (contains_user r u) eqn:C.
    + intro H. injection H as <-. exists r. split; [auto|]. split; [auto|].
      unfold contains_user in C. destruct (rs_users r) as [|x us]; [auto|]. right.
      unfold mem_N in C. apply existsb_exists in C. destruct C as (y & I & Y).
      apply N.eqb_eq in Y. subst. exact I.
    + intro H. destruct (IH H) as (rs & I & X). eauto.
  - intro H. destruct (IH H) as (rs & I & X). eauto.
Qed.

Lemma res_id_by_port_none : forall l port u, res_id_by_port l port (Some u) = None ->
  forall id rs, In (id, rs) l -> rs_port rs = port ->
  ~ (rs_users rs = [] \/ In u (rs_users rs)).
Proof.
  intros l port u. induction l as [|[k r] l IH]; simpl; [contradiction|].
  intros H id rs [I|I] P.
  - injection I as -> ->. subst port. rewrite N.eqb_refl in H.
    destruct (contains_user rs u) eqn:C; [discriminate|]. unfold contains_user in C.
    destruct (rs_users rs) as [|x us]; [discriminate|]. intros [X|X]; [discriminate|].
    unfold mem_N in C. rewrite <- not_true_iff_false in C. apply C.
    apply existsb_exists. exists u. split; [exact X|apply N.eqb_refl].
  - destruct (rs_port r =? port); [destruct (contains_user r u); [discriminate|]|]; eauto.
Qed.

Lemma run_knock_outcome :
  forall mac parse_ip T conf host port ipv4 ipv6 tcp udp knock_port user srv crypt tr r,
  r <> Panic ->
  attempt T (run_knock mac parse_ip conf host
               (KnockServer (addr_mode_of ipv4 ipv6) port tcp udp) knock_port user srv crypt) tr r ->
  (tr = [] /\ (exists e, r = Err e)
   /\ let u := match user with Some u => u | None => c_default_user conf end in
      ((forall key, ~ In (u, key) (c_keys conf))
       \/ (forall id rs, In (id, rs) (c_resources conf) -> rs_port rs = knock_port ->
             ~ (rs_users rs = [] \/ In u (rs_users rs)))))
  \/ exists q, knock_for conf host knock_port user srv crypt q
      /\ kq_port q = to_control_port (KnockServer (addr_mode_of ipv4 ipv6) port tcp udp) conf
      /\ outcome T (knock_sequence mac parse_ip q RmIpv6) (knock_sequence mac parse_ip q RmIpv4)
           (parse_ip host) ipv4 ipv6 tr r.
Proof.
  intros mac parse_ip T conf host port ipv4 ipv6 tcp udp knock_port user srv crypt tr r NP R.
  unfold run_knock in R. set (u := match user with Some u => u | None => c_default_user conf end) in *.
  destruct (conf_key conf u) as [key|] eqn:K.
  - destruct (resource_id_by_port conf knock_port (Some u)) as [id|] eqn:I.
    + right. eexists (KnockSeq host srv crypt _ u id key).
      split; [|split; [|exact (run_modes_outcome _ _ _ _ _ _ _ _ NP R)]].
      * constructor; cbn [kq_addr kq_srv kq_crypt kq_user kq_key kq_resource]; auto.
        -- apply nlookup_In. exact K.
        -- eapply res_id_by_port_spec. exact I.
      * reflexivity.
    + left. apply crun_ret in R. destruct R as [-> R]. injection R as ->.
      split; [reflexivity|]. split; [eauto|]. right. apply res_id_by_port_none. exact I.
  - left. apply crun_ret in R. destruct R as [-> R]. injection R as ->.
    split; [reflexivity|]. split; [eauto|]. left. intros key I.
    unfold conf_key in K. clear - K I. revert K I. generalize (c_keys conf) as l.
    intro l. induction l as [|[k v] l IH]; simpl; [contradiction|].
    destruct (N.eqb_spec u k); [discriminate|]. intros K [I|I]; [congruence|auto].
Qed.

(** *** Choice of the transport *)

Lemma control_port_choice : forall s conf,
  cp_tcp (c_port conf) = true \/ cp_udp (c_port conf) = true ->
  let cp := to_control_port s conf in
  one_transport cp
  /\ cp_port cp = match ks_port s with Some p => p | None => cp_port (c_port conf) end
  /\ (ks_tcp s = true -> cp_tcp cp = true)
  /\ (ks_tcp s = false -> ks_udp s = true -> cp_udp cp = true)
  /\ (ks_tcp s = false -> ks_udp s = false -> cp_tcp cp = cp_tcp (c_port conf)).
Proof.
  intros [am [p|] [] []] conf; unfold to_control_port, one_transport;
    destruct (c_port conf) as [cp [] []]; cbn; intros [H|H]; try discriminate H;
    repeat split; auto; discriminate.
Qed.

(** *** Unencrypted services come last *)

Lemma nth_error_map_fst : forall (A B : Type) (l : list (A * B)) i,
  nth_error (map fst l) i = option_map fst (nth_error l i).
Proof. intros. apply nth_error_map. Qed.

Lemma prefix_before : forall (A : Type) (f : A -> bool) (l1 l2 : list A) n x pre post s,
  firstn n (filter f (l1 ++ l2)) = pre ++ x :: post ->
  ~ In x l1 -> In s l1 -> f s = true -> In s pre.
Proof.
  intros A f l1 l2 n x pre post s E NX I F.
  rewrite filter_app, firstn_app in E.
  assert (S1 : In s (filter f l1)) by (apply filter_In; auto).
  assert (NX1 : ~ In x (filter f l1)) by (intro X; apply filter_In in X; tauto).
  destruct (Nat.le_gt_cases (length (filter f l1)) n) as [L|L].
  - rewrite firstn_all2 in E by exact L.
    remember (firstn (n - length (filter f l1)) (filter f l2)) as t eqn:Et. clear Et L NX I.
    revert pre E. induction (filter f l1) as [|y l IH]; intros pre E; simpl in *; [contradiction|].
    destruct pre as [|z pre]; simpl in E; injection E as -> E; [tauto|].
    destruct S1 as [->|S1]; [left; reflexivity|right]. eapply IH; eauto.
  - replace (n - length (filter f l1))%nat with 0%nat in E by lia.
    rewrite app_nil_r in E. exfalso. apply NX1.
    rewrite <- (firstn_skipn n (filter f l1)), E. apply in_or_app. left.
    apply in_or_app. right. left. reflexivity.
Qed.

Lemma unencrypted_last : forall parse_ip T host cfg k tr p,
  crun T (resolve parse_ip host cfg k) tr p ->
  exists qs tr2, tr = map (query_event (rc_mode cfg)) qs ++ tr2
    /\ (tr2 = [] \/ exists r, crun T (k r) tr2 p)
    /\ forall pre prov r post, qs = pre ++ (DnsPublic prov Unencrypted, r) :: post ->
         enabled (rc_srv cfg) (rc_crypt cfg) (DnsPublic prov Unencrypted) = true
         /\ forall s, enabled (rc_srv cfg) (rc_crypt cfg) s = true ->
              (forall prov', s <> DnsPublic prov' Unencrypted) -> In (s, None) pre.
Proof.
  intros parse_ip T host cfg k tr p R. apply resolve_runs in R.
  destruct R as (qs & tr2 & -> & _ & (n & F) & NL & C). exists qs, tr2.
  split; [reflexivity|]. split.
  { destruct C as [(-> & _)|(r & R & _)]; eauto. }
  intros pre prov r post E.
  set (f := enabled (rc_srv cfg) (rc_crypt cfg)) in *. split.
  - assert (I : In (DnsPublic prov Unencrypted) (map fst qs)).
    { rewrite E, map_app. apply in_or_app. right. left. reflexivity. }
    rewrite F in I. rewrite <- (firstn_skipn n (filter f preference)) in F.
    assert (In (DnsPublic prov Unencrypted) (filter f preference)) as J.
    { rewrite <- (firstn_skipn n (filter f preference)). apply in_or_app. auto. }
    apply filter_In in J. apply J.
  - intros s ES NU.
    assert (In s (map fst pre)) as I.
    { change preference with (firstn 7 preference ++ skipn 7 preference) in F.
      rewrite E, map_app in F. cbn [map fst] in F.
      eapply prefix_before; [symmetry; exact F| | |exact ES].
      - simpl. intuition discriminate.
      - destruct s as [|pr tp]; [simpl; auto|]. destruct tp; [| |exfalso; eapply NU; reflexivity];
          destruct pr; simpl; auto 10. }
    apply in_map_iff in I. destruct I as ((s' & r') & X & I). simpl in X. subst s'.
    apply in_split in I. destruct I as (p1 & p2 & ->).
    assert (r' = None) as ->; [|apply in_or_app; right; left; reflexivity].
    eapply (NL p1 s r'); [rewrite E, <- app_assoc; reflexivity|]. destruct p2; discriminate.
Qed.
