(** Characterization of all partial executions of a control session. *)

From Coq Require Import String ZArith NArith List Bool Lia ZifyBool ZifyNat ZifyN.
From Verif Require Import M_Base M_Proto M_IpAddr M_FwProto M_ConfTypes M_Server S_Wire
  P_Base P_Proto P_FwProto.
Import ListNotations.
Local Open Scope N_scope.

(** *** Executions from the front *)

Lemma srun_front : forall T p ev p1 tr p',
  sstep T p ev p1 -> srun T p1 tr p' -> srun T p (ev :: tr) p'.
Proof.
  intros T p ev p1 tr p' H R. induction R.
  - apply (sr_snoc T p [] p ev p0); [constructor|assumption].
  - change (ev :: tr ++ [ev0]) with ((ev :: tr) ++ [ev0]). econstructor; eauto.
Qed.

Lemma srun_inv : forall T p tr p',
  srun T p tr p' ->
  (tr = [] /\ p' = p)
  \/ exists ev p1 tr1, tr = ev :: tr1 /\ sstep T p ev p1 /\ srun T p1 tr1 p'.
Proof.
  intros T p tr p' R. induction R as [|p tr p' ev p'' R IH S]; auto.
  right. destruct IH as [[-> ->]|(e & q & t & -> & S1 & R1)].
  - exists ev, p'', []. repeat split; auto. constructor.
  - exists e, q, (t ++ [ev]). repeat split; auto. econstructor; eauto.
Qed.

Lemma srun_ret : forall T r tr p', srun T (SRet r) tr p' -> tr = [] /\ p' = SRet r.
Proof.
  intros T r tr p' R. apply srun_inv in R. destruct R as [[-> ->]|(? & ? & ? & -> & S & _)];
    auto. inversion S.
Qed.

Lemma srun_recv : forall T k tr p', srun T (SRecv k) tr p' ->
  (tr = [] /\ p' = SRecv k)
  \/ exists d r tr1, tr = EvRecv d r :: tr1 /\ d <= T /\ rx_typed r /\ srun T (k r) tr1 p'.
Proof.
  intros T k tr p' R. apply srun_inv in R. destruct R as [?|(? & ? & ? & -> & S & R)]; auto.
  inversion S; subst. right. eauto 10.
Qed.

Lemma srun_send : forall T m k tr p', srun T (SSend m k) tr p' ->
  (tr = [] /\ p' = SSend m k)
  \/ exists d r tr1, tr = EvSend d m r :: tr1 /\ d <= T /\ srun T (k r) tr1 p'.
Proof.
  intros T m k tr p' R. apply srun_inv in R. destruct R as [?|(? & ? & ? & -> & S & R)]; auto.
  inversion S; subst. right. eauto 10.
Qed.

Lemma srun_rand : forall T sz k tr p', srun T (SRand sz k) tr p' ->
  (tr = [] /\ p' = SRand sz k)
  \/ exists os tr1, tr = EvRand sz os :: tr1 /\ rand_typed sz os /\ srun T (k os) tr1 p'.
Proof.
  intros T m k tr p' R. apply srun_inv in R. destruct R as [?|(? & ? & ? & -> & S & R)]; auto.
  inversion S; subst. right. eauto 10.
Qed.

Lemma srun_fwc : forall T k tr p', srun T (SFwConnect k) tr p' ->
  (tr = [] /\ p' = SFwConnect k)
  \/ exists ok tr1, tr = EvFwConnect ok :: tr1 /\ srun T (k ok) tr1 p'.
Proof.
  intros T k tr p' R. apply srun_inv in R. destruct R as [?|(? & ? & ? & -> & S & R)]; auto.
  inversion S; subst. right. eauto 10.
Qed.

Lemma srun_fws : forall T m k tr p', srun T (SFwSend m k) tr p' ->
  (tr = [] /\ p' = SFwSend m k)
  \/ exists ok tr1, tr = EvFwSend m ok :: tr1 /\ srun T (k ok) tr1 p'.
Proof.
  intros T m k tr p' R. apply srun_inv in R. destruct R as [?|(? & ? & ? & -> & S & R)]; auto.
  inversion S; subst. right. eauto 10.
Qed.

Lemma srun_fwr : forall T k tr p', srun T (SFwRecv k) tr p' ->
  (tr = [] /\ p' = SFwRecv k)
  \/ exists r tr1, tr = EvFwRecv r :: tr1 /\ fw_rx_typed r /\ srun T (k r) tr1 p'.
Proof.
  intros T k tr p' R. apply srun_inv in R. destruct R as [?|(? & ? & ? & -> & S & R)]; auto.
  inversion S; subst. right. eauto 10.
Qed.

(** *** The possible executions, phase by phase *)

Section Shape.

Variable mac : list byte -> list byte -> list byte.
Variable conf : config.
Variable peer : ip.
Variable T : N.

(** Has the session ended? *)
Definition running (p : sprog) : Prop := match p with SRet _ => False | _ => True end.

(** The tail of an execution that rejects the peer in state [st]. *)
Inductive rej (st : pstate) : list sevent -> sprog -> Prop :=
| rej_silent : forall e, go_away_allowed conf st = false -> rej st [] (SRet (Err e))
| rej_begin : forall k, go_away_allowed conf st = true -> rej st [] (SRand 8 k)
| rej_rand : forall os, go_away_allowed conf st = true -> rand_typed 8 os ->
    secure_random 8 os = Panic -> rej st [EvRand 8 os] (SRet Panic)
| rej_go : forall os m k, go_away_allowed conf st = true -> rand_typed 8 os ->
    msg_new GoAway (unwrap_or (ps_user st) ID_NONE) (unwrap_or (ps_resource st) ID_NONE) os
      = Ok m ->
    rej st [EvRand 8 os] (SSend m k)
| rej_done : forall os m d r e, go_away_allowed conf st = true -> rand_typed 8 os ->
    msg_new GoAway (unwrap_or (ps_user st) ID_NONE) (unwrap_or (ps_resource st) ID_NONE) os
      = Ok m ->
    d <= T ->
    rej st [EvRand 8 os; EvSend d m r] (SRet (Err e)).

Lemma secure_random_cases : forall sz os,
  secure_random sz os = Panic \/ exists b, secure_random sz os = Ok b /\ os = Some b.
Proof.
  intros sz os. unfold secure_random, assert_.
  destruct (8 <=? sz)%nat; auto. destruct os as [b|]; auto.
  repeat match goal with
         | |- context [if ?c then _ else _] => destruct c; auto
         | |- context [match ?l with [] => _ | _ :: _ => _ end] => destruct l; auto
         end; eauto.
Qed.

Lemma msg_new_cases : forall o u r os,
  (secure_random 8 os = Panic /\ msg_new o u r os = Panic)
  \/ exists s, os = Some s /\ secure_random 8 os = Ok s
        /\ msg_new o u r os = Ok (Msg MAGIC o u r s ZERO_AUTH).
Proof.
  intros o u r os. unfold msg_new, SALT_SIZE.
  destruct (secure_random_cases 8 os) as [E|(s & E & ->)]; rewrite E; cbn [bind]; eauto.
Qed.

Lemma reject_runs : forall st e tr p, srun T (reject conf st e) tr p -> rej st tr p.
Proof.
  intros st e tr p R. unfold reject, send_go_away in R.
  destruct (go_away_allowed conf st) eqn:G.
  - unfold new_msg in R. apply srun_rand in R.
    destruct R as [[-> ->]|(os & tr1 & -> & Ty & R)]; [apply rej_begin; auto|].
    change SALT_SIZE with 8%nat in *.
    destruct (msg_new_cases GoAway (unwrap_or (ps_user st) ID_NONE)
                (unwrap_or (ps_resource st) ID_NONE) os) as [(E1 & E2)|(s & -> & E1 & E2)];
      rewrite E2 in R.
    + apply srun_ret in R. destruct R as [-> ->]. apply rej_rand; auto.
    + unfold send_msg in R. apply srun_send in R.
      destruct R as [[-> ->]|(d & r & tr2 & -> & Hd & R)]; [eapply rej_go; eauto|].
      assert (tr2 = [] /\ p = SRet (Err e)) as [-> ->] by (destruct r; apply srun_ret in R; auto).
      eapply rej_done; eauto.
  - apply srun_ret in R. destruct R as [-> ->]. apply rej_silent; auto.
Qed.

Definition st_none := PState None None NotAuth.
Definition st_named (m : message) := PState (Some (m_user m)) (Some (m_resource m)) NotAuth.
Definition st_basic (m : message) := PState (Some (m_user m)) (Some (m_resource m)) BasicAuth.
Definition st_full (m : message) :=
  PState (Some (m_user m)) (Some (m_resource m)) ChallengeResponseAuth.

Definition not_a_message (r : rx_result) : Prop :=
  match r with RxBuf b => exists e, try_msg_deserialize b = Err e | _ => True end.

Definition basic (b : list byte) (m : message) (key : list byte) : Prop :=
  try_msg_deserialize b = Ok m /\ m_op m = Knock /\ conf_key conf (m_user m) = Some key
  /\ check_auth_ok_no_challenge mac m key = Ok true.

Definition granted (m : message) (rs : resource) : Prop :=
  conf_resource conf (m_resource m) = Some rs /\ contains_user rs (m_user m) = true
  /\ rs_port rs <> cp_port (c_port conf).

(** The challenge message made of the two random outputs. *)
Definition is_challenge (m : message) (s1 s2 : list byte) (ch : message) : Prop :=
  secure_random 8 (Some s1) = Ok s1 /\ secure_random 32 (Some s2) = Ok s2
  /\ rand_typed 8 (Some s1) /\ rand_typed 32 (Some s2)
  /\ ch = Msg MAGIC Challenge (m_user m) (m_resource m) s1 s2.

Definition responded (b : list byte) (m : message) (key : list byte) (ch : message)
  (b2 : list byte) (m2 : message) : Prop :=
  try_msg_deserialize b2 = Ok m2 /\ m_op m2 = Response /\ m_user m2 = m_user m
  /\ m_resource m2 = m_resource m /\ check_auth_ok mac m2 key ch = Ok true.

Definition bad_response (m : message) (key : list byte) (ch : message) (m2 : message) : Prop :=
  m_op m2 <> Response \/ m_user m2 <> m_user m \/ m_resource m2 <> m_resource m
  \/ (m_op m2 = Response /\ check_auth_ok mac m2 key ch = Ok false).

Definition not_ack (r : fw_rx_result) : Prop :=
  match r with
  | FwRxBuf b => forall f, fw_deserialize b = Ok f -> f_op f <> FwAck
  | _ => True
  end.

Inductive sess : list sevent -> sprog -> Prop :=
| ss_start : forall k, sess [] (SRecv k)
| ss_nothing : forall d r e, d <= T -> rx_typed r -> not_a_message r -> sess [EvRecv d r] (SRet (Err e))
| ss_not_knock : forall d b m tr p, d <= T -> rx_typed (RxBuf b) -> try_msg_deserialize b = Ok m -> m_op m <> Knock ->
    rej st_none tr p -> sess (EvRecv d (RxBuf b) :: tr) p
| ss_bad_knock : forall d b m tr p, d <= T -> rx_typed (RxBuf b) -> try_msg_deserialize b = Ok m -> m_op m = Knock ->
    (conf_key conf (m_user m) = None
     \/ exists key, conf_key conf (m_user m) = Some key
                    /\ check_auth_ok_no_challenge mac m key = Ok false) ->
    rej (st_named m) tr p -> sess (EvRecv d (RxBuf b) :: tr) p
| ss_not_granted : forall d b m key tr p, d <= T -> rx_typed (RxBuf b) -> basic b m key ->
    (~ exists rs, granted m rs) ->
    rej (st_basic m) tr p -> sess (EvRecv d (RxBuf b) :: tr) p
| ss_granted : forall d b m key rs tr p, d <= T -> rx_typed (RxBuf b) ->
    basic b m key -> granted m rs ->
    sess_chal b m key rs tr p -> sess (EvRecv d (RxBuf b) :: tr) p
with sess_chal : list byte -> message -> list byte -> resource -> list sevent -> sprog -> Prop :=
| sc_start : forall b m key rs k, sess_chal b m key rs [] (SRand 8 k)
| sc_rand1 : forall b m key rs os, rand_typed 8 os -> secure_random 8 os = Panic ->
    sess_chal b m key rs [EvRand 8 os] (SRet Panic)
| sc_salt : forall b m key rs s1 k, rand_typed 8 (Some s1) ->
    secure_random 8 (Some s1) = Ok s1 ->
    sess_chal b m key rs [EvRand 8 (Some s1)] (SRand 32 k)
| sc_rand2 : forall b m key rs s1 os, rand_typed 32 os -> secure_random 32 os = Panic ->
    sess_chal b m key rs [EvRand 8 (Some s1); EvRand 32 os] (SRet Panic)
| sc_send : forall b m key rs s1 s2 ch k, is_challenge m s1 s2 ch ->
    sess_chal b m key rs [EvRand 8 (Some s1); EvRand 32 (Some s2)] (SSend ch k)
| sc_send_fail : forall b m key rs s1 s2 ch d r e, is_challenge m s1 s2 ch -> d <= T ->
    r <> TxOk ->
    sess_chal b m key rs [EvRand 8 (Some s1); EvRand 32 (Some s2); EvSend d ch r]
              (SRet (Err e))
| sc_sent : forall b m key rs s1 s2 ch d k, is_challenge m s1 s2 ch -> d <= T ->
    sess_chal b m key rs [EvRand 8 (Some s1); EvRand 32 (Some s2); EvSend d ch TxOk]
              (SRecv k)
| sc_nothing : forall b m key rs s1 s2 ch d d2 r e, is_challenge m s1 s2 ch -> d <= T ->
    d2 <= T -> rx_typed r -> not_a_message r ->
    sess_chal b m key rs
      [EvRand 8 (Some s1); EvRand 32 (Some s2); EvSend d ch TxOk; EvRecv d2 r]
      (SRet (Err e))
| sc_bad_response : forall b m key rs s1 s2 ch d d2 b2 m2 tr p,
    is_challenge m s1 s2 ch -> d <= T -> d2 <= T -> rx_typed (RxBuf b2) ->
    try_msg_deserialize b2 = Ok m2 -> bad_response m key ch m2 ->
    rej (st_basic m) tr p ->
    sess_chal b m key rs
      (EvRand 8 (Some s1) :: EvRand 32 (Some s2) :: EvSend d ch TxOk
         :: EvRecv d2 (RxBuf b2) :: tr) p
| sc_auth : forall b m key rs s1 s2 ch d d2 b2 m2 tr p,
    is_challenge m s1 s2 ch -> d <= T -> d2 <= T -> rx_typed (RxBuf b2) ->
    responded b m key ch b2 m2 ->
    sess_open m rs tr p ->
    sess_chal b m key rs
      (EvRand 8 (Some s1) :: EvRand 32 (Some s2) :: EvSend d ch TxOk
         :: EvRecv d2 (RxBuf b2) :: tr) p
with sess_open : message -> resource -> list sevent -> sprog -> Prop :=
| so_none : forall m rs, port_type_of (rs_tcp rs) (rs_udp rs) = None ->
    sess_open m rs [] (SRet Panic)
| so_start : forall m rs pt k, port_type_of (rs_tcp rs) (rs_udp rs) = Some pt ->
    sess_open m rs [] (SFwConnect k)
| so_no_fw : forall m rs pt tr p, port_type_of (rs_tcp rs) (rs_udp rs) = Some pt ->
    rej (st_full m) tr p -> sess_open m rs (EvFwConnect false :: tr) p
| so_conn : forall m rs pt k, port_type_of (rs_tcp rs) (rs_udp rs) = Some pt ->
    sess_open m rs [EvFwConnect true] (SFwSend (fw_new_open peer pt (rs_port rs)) k)
| so_req_fail : forall m rs pt tr p, port_type_of (rs_tcp rs) (rs_udp rs) = Some pt ->
    rej (st_full m) tr p ->
    sess_open m rs
      (EvFwConnect true :: EvFwSend (fw_new_open peer pt (rs_port rs)) false :: tr) p
| so_req : forall m rs pt k, port_type_of (rs_tcp rs) (rs_udp rs) = Some pt ->
    sess_open m rs
      [EvFwConnect true; EvFwSend (fw_new_open peer pt (rs_port rs)) true] (SFwRecv k)
| so_nack : forall m rs pt r tr p, port_type_of (rs_tcp rs) (rs_udp rs) = Some pt ->
    not_ack r -> fw_rx_typed r -> rej (st_full m) tr p ->
    sess_open m rs
      (EvFwConnect true :: EvFwSend (fw_new_open peer pt (rs_port rs)) true
         :: EvFwRecv r :: tr) p
| so_ack : forall m rs pt b f tr p, port_type_of (rs_tcp rs) (rs_udp rs) = Some pt ->
    fw_deserialize b = Ok f -> f_op f = FwAck -> fw_rx_typed (FwRxBuf b) ->
    sess_come m tr p ->
    sess_open m rs
      (EvFwConnect true :: EvFwSend (fw_new_open peer pt (rs_port rs)) true
         :: EvFwRecv (FwRxBuf b) :: tr) p
with sess_come : message -> list sevent -> sprog -> Prop :=
| sm_start : forall m k, sess_come m [] (SRand 8 k)
| sm_rand : forall m os, rand_typed 8 os -> secure_random 8 os = Panic ->
    sess_come m [EvRand 8 os] (SRet Panic)
| sm_send : forall m s ci k, rand_typed 8 (Some s) ->
    ci = Msg MAGIC ComeIn (m_user m) (m_resource m) s ZERO_AUTH ->
    sess_come m [EvRand 8 (Some s)] (SSend ci k)
| sm_done : forall m s ci d, rand_typed 8 (Some s) -> d <= T ->
    ci = Msg MAGIC ComeIn (m_user m) (m_resource m) s ZERO_AUTH ->
    sess_come m [EvRand 8 (Some s); EvSend d ci TxOk] (SRet (Ok tt))
| sm_fail : forall m s ci d r e, rand_typed 8 (Some s) -> d <= T -> r <> TxOk ->
    ci = Msg MAGIC ComeIn (m_user m) (m_resource m) s ZERO_AUTH ->
    sess_come m [EvRand 8 (Some s); EvSend d ci r] (SRet (Err e)).

(** All keys have the right size (guaranteed by the type [[u8; KEY_SIZE]]). *)
Hypothesis keys_sized : forall u k, conf_key conf u = Some k -> length k = 32%nat.

Lemma send_come_in_runs : forall m tr p,
  srun T (send_come_in (m_user m) (m_resource m)) tr p -> sess_come m tr p.
Proof.
  intros m tr p R. unfold send_come_in, new_msg in R. apply srun_rand in R.
  change SALT_SIZE with 8%nat in *.
  destruct R as [[-> ->]|(os & tr1 & -> & Ty & R)]; [apply sm_start|].
  destruct (msg_new_cases ComeIn (m_user m) (m_resource m) os)
    as [(E1 & E2)|(s & -> & E1 & E2)]; rewrite E2 in R.
  - apply srun_ret in R. destruct R as [-> ->]. apply sm_rand; auto.
  - unfold send_msg in R. apply srun_send in R.
    destruct R as [[-> ->]|(d & r & tr2 & -> & Hd & R)]; [eapply sm_send; eauto|].
    destruct r; apply srun_ret in R; destruct R as [-> ->];
      solve [eapply sm_fail; eauto; discriminate | eapply sm_done; eauto].
Qed.

Lemma open_runs : forall m rs tr p,
  srun T (open_firewall conf peer (st_full m) rs (m_user m) (m_resource m)) tr p ->
  sess_open m rs tr p.
Proof.
  intros m rs tr p R. unfold open_firewall in R.
  destruct (port_type_of (rs_tcp rs) (rs_udp rs)) as [pt|] eqn:PT.
  2:{ apply srun_ret in R. destruct R as [-> ->]. apply so_none; auto. }
  apply srun_fwc in R. destruct R as [[-> ->]|(ok & tr1 & -> & R)]; [eapply so_start; eauto|].
  destruct ok; cbn [negb] in R.
  2:{ eapply so_no_fw; eauto. eapply reject_runs; eauto. }
  cbn [st_full ps_auth auth_eqb negb] in R.
  unfold fw_open_port in R. apply srun_fws in R.
  destruct R as [[-> ->]|(ok & tr2 & -> & R)]; [eapply so_conn; eauto|].
  destruct ok; cbn [negb] in R.
  2:{ eapply so_req_fail; eauto. eapply reject_runs; eauto. }
  apply srun_fwr in R. destruct R as [[-> ->]|(r & tr3 & -> & Ty & R)]; [eapply so_req; eauto|].
  destruct r as [| |b];
    [eapply so_nack; eauto; solve [exact I|eapply reject_runs; eauto]
    |eapply so_nack; eauto; solve [exact I|eapply reject_runs; eauto]|].
  destruct (fw_deserialize b) as [f|e|] eqn:D.
  - destruct (f_op f) eqn:O.
    + eapply so_nack; eauto; [|eapply reject_runs; eauto]. intros f' E. congruence.
    + eapply so_ack; eauto. eapply send_come_in_runs; eauto.
    + eapply so_nack; eauto; [|eapply reject_runs; eauto]. intros f' E. congruence.
  - eapply so_nack; eauto; [|eapply reject_runs; eauto]. intros f' E. congruence.
  - exfalso. destruct Ty as [L B]. apply bytes_ok_spec in B.
    destruct (fw_decode_total b B) as [(? & ? & _)|(? & ? & _)]; congruence.
Qed.

Lemma decode_cases : forall b, rx_typed (RxBuf b) ->
  (exists m, try_msg_deserialize b = Ok m /\ api_message m)
  \/ exists e, try_msg_deserialize b = Err e.
Proof.
  intros b [L B]. apply bytes_ok_spec in B.
  destruct (try_msg_deserialize b) as [m|e|] eqn:E; eauto.
  - left. exists m. split; auto. eapply decode_canonical; eauto.
  - exfalso. eapply decode_no_panic; eauto.
Qed.

Lemma recv_msg_runs : forall st o k tr p,
  srun T (recv_msg conf st o k) tr p ->
  (exists k', tr = [] /\ p = SRecv k')
  \/ exists d r tr1, tr = EvRecv d r :: tr1 /\ d <= T /\ rx_typed r
     /\ ((not_a_message r /\ tr1 = [] /\ exists e, p = SRet (Err e))
         \/ exists b m, r = RxBuf b /\ try_msg_deserialize b = Ok m /\ api_message m
            /\ (((m_op m <> o \/ (exists u, ps_user st = Some u /\ m_user m <> u)
                 \/ (exists x, ps_resource st = Some x /\ m_resource m <> x))
                 /\ rej st tr1 p)
                \/ (m_op m = o
                    /\ (forall u, ps_user st = Some u -> m_user m = u)
                    /\ (forall x, ps_resource st = Some x -> m_resource m = x)
                    /\ srun T (k m) tr1 p))).
Proof.
  intros st o k tr p R. unfold recv_msg in R. apply srun_recv in R.
  destruct R as [[-> ->]|(d & r & tr1 & -> & Hd & Ty & R)]; [left; eauto|right].
  exists d, r, tr1. split; [reflexivity|]. split; [exact Hd|]. split; [exact Ty|].
  destruct r as [| | |b];
    try (left; apply srun_ret in R; destruct R as [-> ->]; repeat split; eauto; exact I).
  destruct (decode_cases b Ty) as [(m & E & A)|(e & E)]; unfold decode_rx in R; rewrite E in R.
  2:{ left. apply srun_ret in R. destruct R as [-> ->]. repeat split; eauto. exists e; auto. }
  right. exists b, m. split; [reflexivity|]. split; [exact E|]. split; [exact A|].
  destruct (op_eqb (m_op m) o) eqn:O; cbn [negb] in R.
  2:{ left. split; [left|eapply reject_runs; eauto].
      intro X. apply op_eqb_spec in X. congruence. }
  apply op_eqb_spec in O.
  destruct (ps_user st) as [u|] eqn:PU.
  - destruct (m_user m =? u) eqn:U; cbn [negb] in R.
    2:{ left. split; [right; left; exists u; split; auto; now apply N.eqb_neq|
                      eapply reject_runs; eauto]. }
    apply N.eqb_eq in U.
    destruct (ps_resource st) as [x|] eqn:PX.
    + destruct (m_resource m =? x) eqn:X; cbn [negb] in R.
      2:{ left. split; [right; right; exists x; split; auto; now apply N.eqb_neq|
                        eapply reject_runs; eauto]. }
      apply N.eqb_eq in X. right. repeat split; auto; intros ? E'; congruence.
    + right. repeat split; auto; intros ? E'; congruence.
  - destruct (ps_resource st) as [x|] eqn:PX.
    + destruct (m_resource m =? x) eqn:X; cbn [negb] in R.
      2:{ left. split; [right; right; exists x; split; auto; now apply N.eqb_neq|
                        eapply reject_runs; eauto]. }
      apply N.eqb_eq in X. right. repeat split; auto; intros ? E'; congruence.
    + right. repeat split; auto; intros ? E'; congruence.
Qed.

Lemma challenge_runs : forall b m key rs tr p,
  conf_key conf (m_user m) = Some key ->
  srun T (challenge_response mac conf peer (st_basic m) key rs (m_user m) (m_resource m)) tr p ->
  sess_chal b m key rs tr p.
Proof.
  intros b m key rs tr p HK R. unfold challenge_response, new_msg in R. apply srun_rand in R.
  change SALT_SIZE with 8%nat in *. change AUTH_SIZE with 32%nat in *.
  destruct R as [[-> ->]|(os & tr1 & -> & Ty & R)]; [apply sc_start|].
  destruct (msg_new_cases Challenge (m_user m) (m_resource m) os)
    as [(E1 & E2)|(s1 & -> & E1 & E2)]; rewrite E2 in R.
  { apply srun_ret in R. destruct R as [-> ->]. apply sc_rand1; auto. }
  apply srun_rand in R. change AUTH_SIZE with 32%nat in *.
  destruct R as [[-> ->]|(os & tr2 & -> & Ty2 & R)]; [apply sc_salt; auto|].
  unfold generate_challenge in R. cbn [m_op op_eqb] in R.
  change (op_eqb Challenge Challenge) with true in R. cbn [assert_] in R.
  change AUTH_SIZE with 32%nat in *.
  destruct (secure_random_cases 32 os) as [E3|(s2 & E3 & ->)]; rewrite E3 in R; cbn [bind] in R.
  { apply srun_ret in R. destruct R as [-> ->]. apply sc_rand2; auto. }
  change (set_auth (Msg MAGIC Challenge (m_user m) (m_resource m) s1 ZERO_AUTH) s2)
    with (Msg MAGIC Challenge (m_user m) (m_resource m) s1 s2) in R.
  remember (Msg MAGIC Challenge (m_user m) (m_resource m) s1 s2) as ch eqn:Hch.
  assert (IC : is_challenge m s1 s2 ch) by (repeat split; auto; apply Ty || apply Ty2).
  unfold send_msg in R. apply srun_send in R.
  destruct R as [[-> ->]|(d & r & tr3 & -> & Hd & R)]; [eapply sc_send; eauto|].
  destruct r;
    try (apply srun_ret in R; destruct R as [-> ->]; eapply sc_send_fail; eauto; discriminate).
  apply recv_msg_runs in R.
  destruct R as [(k' & -> & ->)|(d2 & r & tr4 & -> & Hd2 & Ty4 & R)]; [eapply sc_sent; eauto|].
  destruct R as [(NM & -> & e & ->)|(b2 & m2 & -> & D2 & A2 & R)];
    [eapply sc_nothing; eauto|].
  destruct R as [(BAD & RJ)|(O2 & U2 & X2 & R)].
  { eapply sc_bad_response; eauto. unfold bad_response.
    destruct BAD as [?|[(u & E & N)|(x & E & N)]]; [auto| |];
      cbn [st_basic ps_user ps_resource] in E; inversion E; subst; auto. }
  specialize (U2 _ eq_refl). specialize (X2 _ eq_refl).
  assert (L2 : length s2 = 32%nat) by apply Ty2.
  assert (CH : m_op ch = Challenge /\ m_auth ch = s2) by (subst ch; auto).
  destruct CH as [CHo CHa].
  pose proof (check_response_iff mac m2 key ch O2 CHo (keys_sized _ _ HK)
                ltac:(rewrite CHa; exact L2)) as CK.
  destruct (list_eqb (m_auth m2) (mac key (mac_input m2 (m_auth ch)))) eqn:V; rewrite CK in R.
  - apply (sc_auth b m key rs s1 s2 ch d d2 b2 m2); auto; [repeat split; auto|].
    apply open_runs. exact R.
  - eapply sc_bad_response; eauto; [|eapply reject_runs; eauto].
    unfold bad_response. auto 10.
Qed.

Theorem server_runs : forall tr p,
  srun T (server_run mac conf peer) tr p -> sess tr p.
Proof.
  intros tr p R. unfold server_run in R. cbv zeta in R. apply recv_msg_runs in R.
  destruct R as [(k' & -> & ->)|(d & r & tr1 & -> & Hd & Ty & R)]; [apply ss_start|].
  destruct R as [(NM & -> & e & ->)|(b & m & -> & D & A & R)]; [apply ss_nothing; auto|].
  destruct R as [(BAD & RJ)|(O & _ & _ & R)].
  { eapply ss_not_knock; eauto.
    destruct BAD as [?|[(u & E & _)|(u & E & _)]]; auto; discriminate E. }
  destruct (conf_key conf (m_user m)) as [key|] eqn:HK.
  2:{ eapply ss_bad_knock; eauto. eapply reject_runs; eauto. }
  pose proof (check_knock_iff mac m key O (keys_sized _ _ HK)) as CK.
  destruct (list_eqb (m_auth m) (mac key (mac_input m ZERO_AUTH))) eqn:V; rewrite CK in R.
  2:{ eapply ss_bad_knock; eauto. eapply reject_runs; eauto. }
  assert (B : basic b m key) by (repeat split; auto).
  destruct (conf_resource conf (m_resource m)) as [rs|] eqn:HR.
  2:{ eapply ss_not_granted; eauto; [|eapply reject_runs; eauto].
      intros (rs & G & _). congruence. }
  destruct (contains_user rs (m_user m)) eqn:CU; cbn [negb] in R.
  2:{ eapply ss_not_granted; eauto; [|eapply reject_runs; eauto].
      intros (rs' & G & C & _). congruence. }
  destruct (rs_port rs =? cp_port (c_port conf)) eqn:CP.
  { apply N.eqb_eq in CP. eapply ss_not_granted; eauto; [|eapply reject_runs; eauto].
    intros (rs' & G & C & P). congruence. }
  apply N.eqb_neq in CP.
  apply (ss_granted d b m key rs); auto; [repeat split; auto|]. apply challenge_runs; auto.
Qed.

End Shape.
