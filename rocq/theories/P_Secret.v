(** Proofs about secrets: sessions that cannot be told apart. *)

From Coq Require Import String NArith ZArith List Bool Lia.
From Verif Require Import M_Base M_Proto M_IpAddr M_FwProto M_ConfTypes M_Server M_Client
  S_Wire S_Session S_Secret P_Base P_Proto P_Server P_Session.
Import ListNotations.
Local Open Scope N_scope.

(** Two sessions that do the same, up to their results. *)
Inductive ssim (R : res unit -> res unit -> Prop) : sprog -> sprog -> Prop :=
| sm_ret : forall r r', R r r' -> ssim R (SRet r) (SRet r')
| sm_recv : forall k k', (forall r, rx_typed r -> ssim R (k r) (k' r)) ->
    ssim R (SRecv k) (SRecv k')
| sm_send : forall m k k', (forall r, ssim R (k r) (k' r)) -> ssim R (SSend m k) (SSend m k')
| sm_rand : forall sz k k', (forall os, rand_typed sz os -> ssim R (k os) (k' os)) ->
    ssim R (SRand sz k) (SRand sz k')
| sm_fwc : forall k k', (forall ok, ssim R (k ok) (k' ok)) ->
    ssim R (SFwConnect k) (SFwConnect k')
| sm_fws : forall m k k', (forall ok, ssim R (k ok) (k' ok)) ->
    ssim R (SFwSend m k) (SFwSend m k')
| sm_fwr : forall k k', (forall r, fw_rx_typed r -> ssim R (k r) (k' r)) ->
    ssim R (SFwRecv k) (SFwRecv k').

Lemma ssim_refl : forall (R : res unit -> res unit -> Prop), (forall r, R r r) -> forall p, ssim R p p.
Proof. intros R HR. induction p; constructor; auto. Qed.

Lemma ssim_step : forall R T p q ev p', ssim R p q -> sstep T p ev p' ->
  exists q', sstep T q ev q' /\ ssim R p' q'.
Proof.
  intros R T p q ev p' S H. destruct H; inversion S; subst;
    (eexists; split; [constructor; assumption|auto]).
Qed.

Lemma ssim_run : forall R T p tr p', srun T p tr p' -> forall q, ssim R p q ->
  exists q', srun T q tr q' /\ ssim R p' q'.
Proof.
  intros R T p tr p' H. induction H; intros q S.
  - exists q. split; [constructor|assumption].
  - destruct (IHsrun q S) as (q1 & R1 & S1).
    destruct (ssim_step _ _ _ _ _ _ S1 H0) as (q2 & R2 & S2).
    exists q2. split; [econstructor; eassumption|assumption].
Qed.

(** Results of the same kind; the texts of errors go to the log only. *)
Definition same_kind (a b : res unit) : Prop :=
  match a, b with
  | Ok _, Ok _ | Err _, Err _ | Panic, Panic => True
  | _, _ => False
  end.

Lemma same_kind_refl : forall r, same_kind r r.
Proof. destruct r; exact I. Qed.

Lemma ssim_kind_over : forall p q, ssim same_kind p q ->
  (over p <-> over q) /\ (panicked p <-> panicked q).
Proof.
  intros p q S. unfold over, panicked. destruct S as [r r' K| | | | | |].
  1:{ split; split; intros Q.
      - eexists; reflexivity.
      - eexists; reflexivity.
      - inversion Q; subst. destruct r'; try contradiction. reflexivity.
      - inversion Q; subst. destruct r; try contradiction. reflexivity. }
  all: split; split; intros Q; try discriminate Q; destruct Q as [? Q]; discriminate Q.
Qed.

(** *** Strangers *)

Lemma reject_policy : forall c1 c2 st e1 e2, c_policy c1 = c_policy c2 ->
  ssim same_kind (reject c1 st e1) (reject c2 st e2).
Proof.
  intros c1 c2 st e1 e2 P. unfold reject, send_go_away, go_away_allowed. rewrite P.
  match goal with |- ssim _ (if ?c then _ else _) _ => destruct c end.
  - unfold new_msg, send_msg. constructor. intros os _.
    destruct (msg_new _ _ _ os); [|constructor; exact I|constructor; exact I].
    constructor. intros [| |]; constructor; exact I.
  - constructor. exact I.
Qed.

Section Stranger.

Context (mac : list N -> list N -> list N) (conf : config).
Context (KS : keys_sized conf).

(** What a session does after a first frame that is not a valid knock. *)
Lemma stranger_first : forall peer b m,
  rx_typed (RxBuf b) -> decode_rx b = Ok m -> m_op m = Knock ->
  (forall user key resource, In (user, key) (c_keys conf) ->
     ~ valid_knock mac key user resource b) ->
  exists k, server_run mac conf peer = SRecv k /\
  exists e, k (RxBuf b)
            = reject conf (PState (Some (m_user m)) (Some (m_resource m)) NotAuth) e.
Proof.
  intros peer b m TY D O ST. eexists. split; [reflexivity|]. cbn beta iota.
  rewrite D, O. cbn [op_eqb negb ps_user ps_resource].
  destruct (conf_key conf (m_user m)) as [key|] eqn:K; [|eexists; reflexivity].
  destruct (check_auth_ok_no_challenge mac m key) as [[|]|e|] eqn:C.
  - exfalso.
    destruct (basic_valid mac conf KS b m key TY) as [I V].
    + unfold basic. auto.
    + exact (ST _ _ _ I V).
  - eexists; reflexivity.
  - exfalso. unfold check_auth_ok_no_challenge in C. rewrite O in C. cbn in C.
    unfold authenticate_no_challenge, authenticate in C.
    destruct (Nat.eqb (length key) KEY_SIZE); cbn in C; discriminate.
  - exfalso. apply nlookup_In in K. destruct (KS _ _ K) as [KL _].
    unfold check_auth_ok_no_challenge in C. rewrite O in C. cbn in C.
    unfold authenticate_no_challenge, authenticate in C.
    rewrite KL in C. cbn in C. discriminate.
Qed.

End Stranger.

Lemma strangers_alike : forall mac conf1 conf2 peer T tr p,
  keys_sized conf1 -> keys_sized conf2 -> c_policy conf1 = c_policy conf2 ->
  stranger mac conf1 tr -> stranger mac conf2 tr ->
  srun T (server_run mac conf1 peer) tr p ->
  exists p', srun T (server_run mac conf2 peer) tr p'
    /\ (ssim same_kind p p'
        \/ (p = server_run mac conf1 peer /\ p' = server_run mac conf2 peer)).
Proof.
  intros mac conf1 conf2 peer T tr p K1 K2 P S1 S2 R.
  destruct (srun_inv _ _ _ _ R) as [[-> ->]|(ev & p1 & tr1 & -> & HS & R1)].
  { exists (server_run mac conf2 peer). split; [constructor|right; auto]. }
  assert (exists k1, server_run mac conf1 peer = SRecv k1) as (k1 & E1) by (eexists; reflexivity).
  rewrite E1 in HS. inversion HS as [k d r Hd HT E2 E3 E4| | | | |]; subst k ev p1.
  assert (exists k2, server_run mac conf2 peer = SRecv k2 /\ ssim same_kind (k1 r) (k2 r))
    as (k2 & EK & SM).
  { destruct r as [| | |b];
      [unfold server_run, recv_msg in E1; injection E1 as <-; eexists; split;
        [reflexivity|constructor; exact I]..|].
    destruct (decode_rx b) as [m|e|] eqn:D.
      + destruct (op_eqb (m_op m) Knock) eqn:O.
        * apply op_eqb_spec in O.
          assert (forall user key resource, In (user, key) (c_keys conf1) ->
                    ~ valid_knock mac key user resource b) as N1.
          { intros u k0 rr I0. exact (S1 d b tr1 u rr k0 eq_refl I0). }
          assert (forall user key resource, In (user, key) (c_keys conf2) ->
                    ~ valid_knock mac key user resource b) as N2.
          { intros u k0 rr I0. exact (S2 d b tr1 u rr k0 eq_refl I0). }
          destruct (stranger_first mac conf2 K2 peer b m HT D O N2) as (k2 & EK & e2 & F2).
          destruct (stranger_first mac conf1 K1 peer b m HT D O N1) as (k1' & EK1 & e1 & F1).
          exists k2. split; [exact EK|]. rewrite F2.
          rewrite E1 in EK1. injection EK1 as ->. rewrite F1.
          apply reject_policy. exact P.
        * unfold server_run, recv_msg in E1. injection E1 as <-.
          eexists; split; [reflexivity|]. cbn beta iota. rewrite D, O. cbn [negb].
          apply reject_policy. exact P.
      + unfold server_run, recv_msg in E1. injection E1 as <-.
        eexists; split; [reflexivity|]. cbn beta iota. rewrite D. constructor. exact I.
      + unfold server_run, recv_msg in E1. injection E1 as <-.
        eexists; split; [reflexivity|]. cbn beta iota. rewrite D. constructor. exact I. }
  destruct (ssim_run _ _ _ _ _ R1 _ SM) as (q & R2 & SM2).
  exists q. split; [|left; exact SM2]. rewrite EK.
  eapply srun_front; [constructor; assumption|exact R2].
Qed.

(** *** Keys *)

Section Keys.

Context (mac1 mac2 : list N -> list N -> list N).

Lemma same_check_knock : forall m k1 k2, length k1 = length k2 -> same_tokens mac1 k1 mac2 k2 ->
  check_auth_ok_no_challenge mac1 m k1 = check_auth_ok_no_challenge mac2 m k2.
Proof.
  intros m k1 k2 L S. unfold check_auth_ok_no_challenge, authenticate_no_challenge, authenticate.
  rewrite L, S. reflexivity.
Qed.

Lemma same_check_response : forall m k1 k2 ch, length k1 = length k2 ->
  same_tokens mac1 k1 mac2 k2 ->
  check_auth_ok mac1 m k1 ch = check_auth_ok mac2 m k2 ch.
Proof.
  intros m k1 k2 ch L S. unfold check_auth_ok, authenticate. rewrite L, S. reflexivity.
Qed.

Lemma same_knock : forall m k1 k2, length k1 = length k2 -> same_tokens mac1 k1 mac2 k2 ->
  generate_auth_no_challenge mac1 m k1 = generate_auth_no_challenge mac2 m k2.
Proof.
  intros m k1 k2 L S. unfold generate_auth_no_challenge, authenticate_no_challenge, authenticate.
  rewrite L, S. reflexivity.
Qed.

Lemma same_response : forall m k1 k2 ch, length k1 = length k2 ->
  same_tokens mac1 k1 mac2 k2 ->
  generate_auth mac1 m k1 ch = generate_auth mac2 m k2 ch.
Proof.
  intros m k1 k2 ch L S. unfold generate_auth, authenticate. rewrite L, S. reflexivity.
Qed.

Lemma same_lookup : forall (K1 K2 : nmap (list N)),
  Forall2 (fun a b => fst a = fst b /\ same_tokens mac1 (snd a) mac2 (snd b)) K1 K2 ->
  forall u, (nlookup u K1 = None /\ nlookup u K2 = None)
  \/ exists k1 k2, nlookup u K1 = Some k1 /\ nlookup u K2 = Some k2
       /\ same_tokens mac1 k1 mac2 k2.
Proof.
  intros K1 K2 F u. induction F as [|[u1 k1] [u2 k2] K1 K2 [E S] F IH]; [left; auto|].
  cbn in E, S |- *. subst u2. destruct (u =? u1); [right; eauto 10|exact IH].
Qed.

Context (conf1 conf2 : config) (KS1 : keys_sized conf1) (KS2 : keys_sized conf2).
Context (D : differ_in_keys mac1 conf1 mac2 conf2).

Lemma same_conf_key : forall u, (conf_key conf1 u = None /\ conf_key conf2 u = None)
  \/ exists k1 k2, conf_key conf1 u = Some k1 /\ conf_key conf2 u = Some k2
       /\ length k1 = length k2 /\ same_tokens mac1 k1 mac2 k2.
Proof.
  intros u. destruct (same_lookup _ _ (dk_keys _ _ _ _ D) u) as [H|(k1 & k2 & A & B & C)];
    [left; exact H|].
  right. exists k1, k2. repeat split; auto.
  apply nlookup_In in A. apply nlookup_In in B.
  destruct (KS1 _ _ A) as [-> _]. destruct (KS2 _ _ B) as [-> _]. reflexivity.
Qed.

Lemma same_reject : forall st e, reject conf1 st e = reject conf2 st e.
Proof.
  intros st e. unfold reject, send_go_away, go_away_allowed.
  rewrite (dk_policy _ _ _ _ D). reflexivity.
Qed.

Lemma same_recv : forall st o k1 k2, (forall m, ssim eq (k1 m) (k2 m)) ->
  ssim eq (recv_msg conf1 st o k1) (recv_msg conf2 st o k2).
Proof.
  intros st o k1 k2 H. unfold recv_msg. constructor. intros r _.
  destruct r as [| | |b]; try (constructor; reflexivity).
  destruct (decode_rx b) as [m|e|]; try (constructor; reflexivity).
  rewrite !same_reject.
  repeat match goal with |- ssim _ (if ?c then _ else _) _ => destruct c end;
    first [apply H | apply ssim_refl; reflexivity].
Qed.

Lemma same_open : forall peer st r u x,
  ssim eq (open_firewall conf1 peer st r u x) (open_firewall conf2 peer st r u x).
Proof.
  intros peer st r u x. unfold open_firewall.
  destruct (port_type_of (rs_tcp r) (rs_udp r)); [|constructor; reflexivity].
  constructor. intros [|]; cbn [negb]; [|rewrite same_reject; apply ssim_refl; reflexivity].
  destruct (negb (auth_eqb (ps_auth st) ChallengeResponseAuth)); [constructor; reflexivity|].
  unfold fw_open_port. constructor. intros [|]; cbn [negb].
  - constructor. intros [| |b] _; rewrite same_reject; apply ssim_refl; reflexivity.
  - rewrite same_reject. apply ssim_refl. reflexivity.
Qed.

Lemma server_alike : forall peer,
  ssim eq (server_run mac1 conf1 peer) (server_run mac2 conf2 peer).
Proof.
  intros peer. unfold server_run. apply same_recv. intros m.
  rewrite ?same_reject.
  destruct (same_conf_key (m_user m)) as [[-> ->]|(k1 & k2 & -> & -> & L & S)].
  { apply ssim_refl. reflexivity. }
  rewrite (same_check_knock m k1 k2 L S).
  destruct (check_auth_ok_no_challenge mac2 m k2) as [[|]|e|];
    try (apply ssim_refl; reflexivity).
  unfold conf_resource. rewrite (dk_resources _ _ _ _ D), (dk_port _ _ _ _ D).
  destruct (nlookup (m_resource m) (c_resources conf2)) as [r|];
    [|rewrite ?same_reject; apply ssim_refl; reflexivity].
  rewrite ?same_reject.
  destruct (negb (contains_user r (m_user m))); [apply ssim_refl; reflexivity|].
  destruct (rs_port r =? cp_port (c_port conf2)); [apply ssim_refl; reflexivity|].
  unfold challenge_response, new_msg. constructor. intros os _.
  destruct (msg_new Challenge (m_user m) (m_resource m) os) as [c0|e|];
    try (constructor; reflexivity).
  constructor. intros os2 _.
  destruct (generate_challenge c0 os2) as [c|e|]; try (constructor; reflexivity).
  unfold send_msg. constructor. intros [| |]; try (constructor; reflexivity).
  apply same_recv. intros y. rewrite (same_check_response y k1 k2 c L S), ?same_reject.
  destruct (check_auth_ok mac2 y k2 c) as [[|]|e|]; try (apply ssim_refl; reflexivity).
  apply same_open.
Qed.

(** The client. *)
Inductive csim : cprog -> cprog -> Prop :=
| cm_ret : forall r, csim (CRet r) (CRet r)
| cm_lookup : forall s mode k k', (forall r, csim (k r) (k' r)) ->
    csim (CLookup s mode k) (CLookup s mode k')
| cm_connect : forall tcp a port k k', (forall ok, csim (k ok) (k' ok)) ->
    csim (CConnect tcp a port k) (CConnect tcp a port k')
| cm_rand : forall sz k k', (forall os, csim (k os) (k' os)) -> csim (CRand sz k) (CRand sz k')
| cm_send : forall m k k', (forall r, csim (k r) (k' r)) -> csim (CSend m k) (CSend m k')
| cm_recv : forall k k', (forall r, csim (k r) (k' r)) -> csim (CRecv k) (CRecv k').

Lemma csim_refl : forall p, csim p p.
Proof. induction p; constructor; auto. Qed.

Lemma csim_run : forall T p tr p', crun T p tr p' -> forall q, csim p q ->
  exists q', crun T q tr q' /\ csim p' q'.
Proof.
  intros T p tr p' H. induction H as [p|p ev p1 tr p' S R IH]; intros q SM.
  - exists q. split; [constructor|assumption].
  - assert (exists q1, cstep T q ev q1 /\ csim p1 q1) as (q1 & S1 & M1).
    { destruct S; inversion SM; subst; (eexists; split; [constructor; assumption|auto]). }
    destruct (IH q1 M1) as (q' & R' & M'). exists q'. split; [econstructor; eassumption|exact M'].
Qed.

Lemma csim_bind : forall p q, csim p q -> forall f g, (forall r, csim (f r) (g r)) ->
  csim (cbind p f) (cbind q g).
Proof.
  intros p q H. induction H; intros f g FG; cbn [cbind]; try (constructor; auto; fail).
  destruct r; auto. constructor.
Qed.

Context (parse_ip : text -> option ip).

Lemma csim_resolve : forall host cfg k k', (forall r, csim (k r) (k' r)) ->
  csim (resolve parse_ip host cfg k) (resolve parse_ip host cfg k').
Proof.
  intros host cfg k k' H. unfold resolve, ask.
  destruct (parse_ip host) as [a|].
  - destruct (rc_mode cfg); match goal with |- csim (if ?c then _ else _) _ => destruct c end;
      apply H.
  - repeat match goal with
           | |- csim (if ?c then _ else _) _ => destruct c
           | |- csim (CLookup _ _ _) _ => constructor; intros [?|]
           | |- csim (k _) (k' _) => apply H
           end.
Qed.

Lemma csim_new : forall host cp cfg k k', (forall r, csim (k r) (k' r)) ->
  csim (client_new parse_ip host cp cfg k) (client_new parse_ip host cp cfg k').
Proof.
  intros host cp cfg k k' H. unfold client_new. apply csim_resolve. intros [a|e|].
  - destruct (cp_tcp cp), (cp_udp cp); cbn [negb]; constructor; intros; apply H.
  - apply H.
  - constructor.
Qed.

Lemma csim_sequence : forall host srv crypt cp u x k1 k2 mode,
  length k1 = length k2 -> same_tokens mac1 k1 mac2 k2 ->
  csim (knock_sequence mac1 parse_ip (KnockSeq host srv crypt cp u x k1) mode)
       (knock_sequence mac2 parse_ip (KnockSeq host srv crypt cp u x k2) mode).
Proof.
  intros host srv crypt cp u x k1 k2 mode L S. unfold knock_sequence.
  cbn [kq_addr kq_srv kq_crypt kq_port kq_user kq_resource kq_key].
  apply csim_new. intros [y|e|]; try constructor. intros os.
  destruct (msg_new Knock u x os) as [m|e|]; try constructor.
  rewrite (same_knock m k1 k2 L S).
  destruct (generate_auth_no_challenge mac2 m k2) as [kn|e|]; cbn [unres]; try constructor.
  intros [| |]; try constructor. intros [| | |b]; try constructor.
  destruct (decode_rx b) as [c|e|]; try constructor.
  destruct (op_eqb (m_op c) GoAway); [constructor|].
  destruct (negb (op_eqb (m_op c) Challenge)); [constructor|].
  constructor. intros os2.
  destruct (msg_new Response u x os2) as [m2|e|]; try constructor.
  rewrite (same_response m2 k1 k2 c L S). apply csim_refl.
Qed.

Lemma client_alike : forall host server port user srv crypt,
  csim (run_knock mac1 parse_ip conf1 host server port user srv crypt)
       (run_knock mac2 parse_ip conf2 host server port user srv crypt).
Proof.
  intros host server port user srv crypt. unfold run_knock.
  rewrite (dk_default_user _ _ _ _ D).
  set (u := match user with Some u => u | None => c_default_user conf2 end).
  destruct (same_conf_key u) as [[-> ->]|(k1 & k2 & -> & -> & L & S)]; [constructor|].
  unfold resource_id_by_port. rewrite (dk_resources _ _ _ _ D).
  destruct (res_id_by_port (c_resources conf2) port (Some u)) as [x|]; [|constructor].
  unfold to_control_port. rewrite (dk_port _ _ _ _ D).
  unfold run_modes, and_then. cbn [kq_addr].
  destruct (ks_addr_mode server); auto using csim_sequence.
  - destruct (is_ipv4_addr parse_ip host); auto using csim_sequence.
    destruct (is_ipv6_addr parse_ip host); auto using csim_sequence.
    apply csim_bind; auto using csim_sequence. intros r6.
    apply csim_bind; auto using csim_sequence. intros r4. apply csim_refl.
  - apply csim_bind; auto using csim_sequence. intros [y|e|]; auto using csim_sequence; constructor.
Qed.

End Keys.
