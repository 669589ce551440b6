(** Lemmas about the main program of the client. *)

From Coq Require Import String ZArith NArith List Bool Lia Permutation.
From Verif Require Import M_Base M_Proto M_IpAddr M_ConfTypes M_Text M_Str M_Conf M_Server M_Client M_Start M_Seccomp M_Main
  S_Text S_Conf S_Client S_Files S_Main P_Base P_Str P_Conf P_ConfLoad P_Client Prop_Conf.
Import ListNotations.
Local Open Scope N_scope.

Definition says (x : text) (w : string) : Prop := to_lowercase (trim x) = lit w.
Lemma says_word : forall w x, word_is w x <-> says x w.
Proof. intros w x. rewrite word_is_spec, lower_trim. reflexivity. Qed.
Lemma says_fun : forall x v w, says x v -> says x w -> lit v = lit w.
Proof. unfold says. intros. congruence. Qed.

Lemma lists_split : forall t w, lists t w <-> exists x, In x (split_on 44 t) /\ says x w.
Proof.
  intros t w. unfold lists. split.
  - intros (ws & x & S & I & W). apply separated_values in S. subst ws. apply says_word in W. eauto.
  - intros (x & I & W). exists (split_on 44 t), x. split; [apply separated_values; reflexivity|]. split; [exact I|].
    apply says_word. exact W.
Qed.
Lemma list_of_split : forall t words, list_of t words <->
  forall x, In x (split_on 44 t) -> exists w, In w words /\ says x w.
Proof.
  intros t words. unfold list_of. split.
  - intros H x I. destruct (H _ x (proj2 (separated_values _ _) eq_refl) I) as (w & J & W). apply says_word in W. eauto.
  - intros H ws x S I. apply separated_values in S. subst ws. destruct (H x I) as (w & J & W). apply says_word in W. eauto.
Qed.

Ltac lits := repeat match goal with
  | H : is_lit _ _ = true |- _ => apply is_lit_spec in H
  | H : is_lit _ _ = false |- _ => apply is_lit_false in H
  end.

(** What the loop over the words does with one flag. *)
Definition flag_after (l : list text) (w : string) (before after : bool) : Prop :=
  after = true <-> before = true \/ exists x, In x l /\ says x w.
Lemma flag_nil : forall w b c, flag_after [] w b c <-> c = b.
Proof.
  intros w b c. unfold flag_after. split.
  - intros H. destruct b, c; try reflexivity; [exfalso|exfalso].
    + assert (false = true) by (apply H; left; reflexivity). discriminate.
    + destruct (proj1 H eq_refl) as [|(x & [] & _)]; discriminate.
  - intros ->. split; [auto|intros [|(x & [] & _)]; auto].
Qed.
Lemma flag_hit : forall x l w b c, says x w -> flag_after l w true c <-> flag_after (x :: l) w b c.
Proof.
  intros x l w b c S. unfold flag_after. split; intros H.
  - split; [intros _; right; exists x; simpl; auto|intros _; apply H; auto].
  - split; [auto|intros _; apply H; right; exists x; simpl; auto].
Qed.
Lemma flag_miss : forall x l w b c, ~ says x w -> flag_after l w b c <-> flag_after (x :: l) w b c.
Proof.
  intros x l w b c S. unfold flag_after.
  assert ((exists y, In y l /\ says y w) <-> exists y, In y (x :: l) /\ says y w); [|tauto].
  split; intros (y & I & W); exists y; (split; [|exact W]).
  - right. exact I.
  - destruct I as [<-|I]; [contradiction|exact I].
Qed.
Lemma flag_start : forall t w c, flag_after (split_on 44 t) w false c <-> (c = true <-> lists t w).
Proof.
  intros t w c. unfold flag_after. rewrite lists_split. split; intros H; (split; [intros X; apply H in X|intros X; apply H; auto]).
  - destruct X; [discriminate|assumption].
  - auto.
  - destruct X; [discriminate|assumption].
Qed.

Definition DNS_WORDS : list string := ["system"; "quad9"; "google"; "cloudflare"]%string.
Definition CRYPT_WORDS : list string := ["tls"; "https"; "unencrypted"]%string.

Lemma dns_words_spec : forall l s s', dns_words l s = Ok s' <->
  (forall x, In x l -> exists w, In w DNS_WORDS /\ says x w)
  /\ flag_after l "system" (sv_system s) (sv_system s') /\ flag_after l "quad9" (sv_quad9 s) (sv_quad9 s')
  /\ flag_after l "google" (sv_google s) (sv_google s') /\ flag_after l "cloudflare" (sv_cloudflare s) (sv_cloudflare s').
Proof.
  induction l as [|x l IH]; intros s s'; cbn [dns_words].
  - rewrite !flag_nil. split.
    + intros [= ->]. split; [intros x []|auto].
    + intros (_ & A & B & C & D). destruct s, s'; simpl in *. congruence.
  - assert (M : forall v w, says x v -> lit v <> lit w -> ~ says x w) by (intros v w S N T; apply N; eapply says_fun; eauto).
    assert (Q : forall v, In v DNS_WORDS -> says x v ->
      (forall y, In y (x :: l) -> exists w, In w DNS_WORDS /\ says y w) <-> (forall y, In y l -> exists w, In w DNS_WORDS /\ says y w)).
    { intros v I S. split; [intros H y J; apply H; right; exact J|intros H y [<-|J]; [eauto|auto]]. }
    destruct (is_lit (to_lowercase (trim x)) "system") eqn:E1; [|destruct (is_lit (to_lowercase (trim x)) "quad9") eqn:E2;
      [|destruct (is_lit (to_lowercase (trim x)) "google") eqn:E3; [|destruct (is_lit (to_lowercase (trim x)) "cloudflare") eqn:E4]]];
      lits.
    + assert (S : says x "system") by exact E1. rewrite IH, (Q "system"%string) by (simpl; auto). cbn [sv_system sv_quad9 sv_google sv_cloudflare].
      rewrite (flag_hit x l _ (sv_system s) _ S), !(flag_miss x l) by (eapply M; [exact S|discriminate]). reflexivity.
    + assert (S : says x "quad9") by exact E2. rewrite IH, (Q "quad9"%string) by (simpl; auto). cbn [sv_system sv_quad9 sv_google sv_cloudflare].
      rewrite (flag_hit x l _ (sv_quad9 s) _ S), !(flag_miss x l) by (eapply M; [exact S|discriminate]). reflexivity.
    + assert (S : says x "google") by exact E3. rewrite IH, (Q "google"%string) by (simpl; auto). cbn [sv_system sv_quad9 sv_google sv_cloudflare].
      rewrite (flag_hit x l _ (sv_google s) _ S), !(flag_miss x l) by (eapply M; [exact S|discriminate]). reflexivity.
    + assert (S : says x "cloudflare") by exact E4. rewrite IH, (Q "cloudflare"%string) by (simpl; auto). cbn [sv_system sv_quad9 sv_google sv_cloudflare].
      rewrite (flag_hit x l _ (sv_cloudflare s) _ S), !(flag_miss x l) by (eapply M; [exact S|discriminate]). reflexivity.
    + split; [discriminate|]. intros (H & _). destruct (H x (or_introl eq_refl)) as (w & I & S).
      destruct I as [<-|[<-|[<-|[<-|[]]]]]; contradiction.
Qed.

Lemma parse_dns_spec : forall t s, parse_dns t = Ok s <-> dns_text t s.
Proof.
  intros t s. unfold parse_dns, dns_text. rewrite dns_words_spec, list_of_split. cbn [sv_system sv_quad9 sv_google sv_cloudflare].
  rewrite !flag_start. reflexivity.
Qed.
Lemma parse_dns_no_panic : forall t, parse_dns t <> Panic.
Proof.
  intros t. unfold parse_dns. generalize (ResSrv false false false false). induction (split_on 44 t) as [|x l IH]; intros s; cbn [dns_words];
    [discriminate|]. repeat destruct (is_lit _ _); try apply IH. discriminate.
Qed.

Lemma crypt_words_spec : forall l s s', crypt_words l s = Ok s' <->
  (forall x, In x l -> exists w, In w CRYPT_WORDS /\ says x w)
  /\ flag_after l "tls" (cr_tls s) (cr_tls s') /\ flag_after l "https" (cr_https s) (cr_https s')
  /\ flag_after l "unencrypted" (cr_unencrypted s) (cr_unencrypted s').
Proof.
  induction l as [|x l IH]; intros s s'; cbn [crypt_words].
  - rewrite !flag_nil. split.
    + intros [= ->]. split; [intros x []|auto].
    + intros (_ & A & B & C). destruct s, s'; simpl in *. congruence.
  - assert (M : forall v w, says x v -> lit v <> lit w -> ~ says x w) by (intros v w S N T; apply N; eapply says_fun; eauto).
    assert (Q : forall v, In v CRYPT_WORDS -> says x v ->
      (forall y, In y (x :: l) -> exists w, In w CRYPT_WORDS /\ says y w) <-> (forall y, In y l -> exists w, In w CRYPT_WORDS /\ says y w)).
    { intros v I S. split; [intros H y J; apply H; right; exact J|intros H y [<-|J]; [eauto|auto]]. }
    destruct (is_lit (to_lowercase (trim x)) "tls") eqn:E1; [|destruct (is_lit (to_lowercase (trim x)) "https") eqn:E2;
      [|destruct (is_lit (to_lowercase (trim x)) "unencrypted") eqn:E3]]; lits.
    + assert (S : says x "tls") by exact E1. rewrite IH, (Q "tls"%string) by (simpl; auto). cbn [cr_tls cr_https cr_unencrypted].
      rewrite (flag_hit x l _ (cr_tls s) _ S), !(flag_miss x l) by (eapply M; [exact S|discriminate]). reflexivity.
    + assert (S : says x "https") by exact E2. rewrite IH, (Q "https"%string) by (simpl; auto). cbn [cr_tls cr_https cr_unencrypted].
      rewrite (flag_hit x l _ (cr_https s) _ S), !(flag_miss x l) by (eapply M; [exact S|discriminate]). reflexivity.
    + assert (S : says x "unencrypted") by exact E3. rewrite IH, (Q "unencrypted"%string) by (simpl; auto). cbn [cr_tls cr_https cr_unencrypted].
      rewrite (flag_hit x l _ (cr_unencrypted s) _ S), !(flag_miss x l) by (eapply M; [exact S|discriminate]). reflexivity.
    + split; [discriminate|]. intros (H & _). destruct (H x (or_introl eq_refl)) as (w & I & S).
      destruct I as [<-|[<-|[<-|[]]]]; contradiction.
Qed.
Lemma parse_crypt_spec : forall t s, parse_dns_crypt t = Ok s <-> crypt_text t s.
Proof.
  intros t s. unfold parse_dns_crypt, crypt_text. rewrite crypt_words_spec, list_of_split. cbn [cr_tls cr_https cr_unencrypted].
  rewrite !flag_start. reflexivity.
Qed.
Lemma parse_crypt_no_panic : forall t, parse_dns_crypt t <> Panic.
Proof.
  intros t. unfold parse_dns_crypt. generalize (ResCrypt false false false). induction (split_on 44 t) as [|x l IH]; intros s;
    cbn [crypt_words]; [discriminate|]. repeat destruct (is_lit _ _); try apply IH. discriminate.
Qed.

(** *** The services a program may ask *)

Fixpoint asks (P : dns_service -> Prop) (p : cprog) : Prop :=
  match p with
  | CRet _ => True
  | CLookup s m k => P s /\ forall r, asks P (k r)
  | CConnect _ _ _ k => forall ok, asks P (k ok)
  | CRand _ k => forall os, asks P (k os)
  | CSend _ k => forall r, asks P (k r)
  | CRecv k => forall r, asks P (k r)
  end.
Lemma asks_run : forall P T p tr p', crun T p tr p' -> asks P p ->
  forall s m r, In (CeLookup s m r) tr -> P s.
Proof.
  intros P T p tr p' R. induction R as [p|p ev p1 tr p' S R IH]; intros A s m r I; [destruct I|].
  destruct I as [->|I].
  - inversion S; subst. apply A.
  - eapply IH; [|exact I]. inversion S; subst; simpl in A; try apply A.
Qed.
Lemma asks_cbind : forall P f p, asks P p -> (forall r, asks P (f r)) -> asks P (cbind p f).
Proof.
  intros P f. induction p as [[]|s m k IH|t a port k IH|sz k IH|m k IH|k IH]; intros A F; simpl in *; auto;
    try (split; [apply A|]; intros; apply IH; [apply A|exact F]).
Qed.

Lemma asks_ask : forall (P : dns_service -> Prop) (b : bool) s m k next, (b = true -> P s) -> (forall r, asks P (k r)) -> asks P next ->
  asks P (ask b s m k next).
Proof.
  intros P b s m k next B K N. unfold ask. destruct b; [|exact N]. simpl. split; [auto|]. intros [l|]; auto.
Qed.

Lemma asks_resolve : forall parse_ip host cfg k, (forall r, asks (fun s => enabled (rc_srv cfg) (rc_crypt cfg) s = true) (k r)) ->
  asks (fun s => enabled (rc_srv cfg) (rc_crypt cfg) s = true) (resolve parse_ip host cfg k).
Proof.
  intros parse_ip host cfg k K. unfold resolve. destruct (parse_ip host) as [a|].
  - destruct (rc_mode cfg); destruct (negb _); apply K.
  - repeat (apply asks_ask; [intros E; cbn; first [exact E|apply andb_true_iff in E; destruct E as [-> ->]; reflexivity]|exact K|]).
    apply K.
Qed.

Lemma asks_knock : forall mac parse_ip q mode,
  asks (fun s => enabled (kq_srv q) (kq_crypt q) s = true) (knock_sequence mac parse_ip q mode).
Proof.
  intros mac parse_ip q mode. unfold knock_sequence, client_new.
  apply (asks_resolve parse_ip (kq_addr q) (ResConf mode (kq_srv q) (kq_crypt q))). cbn [rc_srv rc_crypt].
  set (P := fun s => enabled (kq_srv q) (kq_crypt q) s = true).
  assert (MSG : forall o u r k, (forall m, asks P (k m)) -> asks P (client_msg o u r k)).
  { intros o u r k K. unfold client_msg. simpl. intros os. destruct (msg_new o u r os); simpl; auto. }
  assert (UN : forall (r : res message) k, (forall m, asks P (k m)) -> asks P (unres r k)).
  { intros r k K. destruct r; simpl; auto. }
  assert (SN : forall m k, asks P k -> asks P (client_send m k)).
  { intros m k K. simpl. intros [| |]; simpl; auto. }
  assert (RC : forall e k, (forall m, asks P (k m)) -> asks P (recv_specific e k)).
  { intros e k K. simpl. intros [| | |b]; simpl; auto. destruct (decode_rx b) as [m| |]; simpl; auto.
    destruct (op_eqb (m_op m) GoAway); simpl; auto. destruct (negb _); simpl; auto. }
  assert (B : asks P (client_msg Knock (kq_user q) (kq_resource q) (fun m =>
          unres (generate_auth_no_challenge mac m (kq_key q)) (fun knock =>
            client_send knock
              (recv_specific Challenge (fun challenge =>
                client_msg Response (kq_user q) (kq_resource q) (fun m2 =>
                  unres (generate_auth mac m2 (kq_key q) challenge) (fun response =>
                    client_send response
                      (recv_specific ComeIn (fun comein => CRet (Ok tt))))))))))).
  { apply MSG. intros m. apply UN. intros kn. apply SN. apply RC. intros ch. apply MSG. intros m2. apply UN. intros rs. apply SN.
    apply RC. intros ci. exact Logic.I. }
  intros [a|e|]; [|exact Logic.I|exact Logic.I].
  destruct (cp_tcp (kq_port q)).
  - destruct (cp_udp (kq_port q)); [exact Logic.I|]. simpl asks at 1. intros [|]; [exact B|exact Logic.I].
  - destruct (negb (cp_udp (kq_port q))); [exact Logic.I|]. simpl asks at 1. intros [|]; [exact B|exact Logic.I].
Qed.

Lemma asks_run_knock : forall mac parse_ip conf host server port user srv crypt,
  asks (fun s => enabled srv crypt s = true) (run_knock mac parse_ip conf host server port user srv crypt).
Proof.
  intros mac parse_ip conf host server port user srv crypt. unfold run_knock.
  destruct (conf_key conf _); [|exact Logic.I]. destruct (resource_id_by_port conf port _); [|exact Logic.I].
  match goal with |- asks _ (run_modes _ _ ?q _) => pose proof (asks_knock mac parse_ip q) as K; cbn [kq_srv kq_crypt] in K end.
  unfold run_modes. destruct (ks_addr_mode server).
  - destruct (is_ipv4_addr _ _); [apply K|]. destruct (is_ipv6_addr _ _); [apply K|].
    apply asks_cbind; [apply K|intros r6]. apply asks_cbind; [apply K|intros r4]. destruct r6, r4; exact Logic.I.
  - unfold and_then. apply asks_cbind; [apply K|]. intros [r|e|]; [apply K|exact Logic.I|exact Logic.I].
  - apply K.
  - apply K.
Qed.

(** *** The configuration of the client *)

Lemma client_conf : forall fraction order p file c, (forall m, Permutation m (order m)) ->
  conf_load fraction order (conf_new VarClient) p file = (c, Ok tt) ->
  (exists ls, started_from fraction VarClient file ls c)
  \/ ((forall ls, file_lines file ls -> ~ well_formed ls) /\ c = with_path (conf_new VarClient) p).
Proof.
  intros fraction order p file c OP H. pose proof H as L. apply (load_cases _ _ OP) in H.
  destruct H as [(ls & c0 & FL & W & _)|[(ls & e & _ & _ & _ & _ & [=])|(NW & [(V & _)|(_ & -> & _)])]]; [|discriminate|auto].
  left. exists ls, order, p. auto.
Qed.
