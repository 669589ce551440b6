(** Properties of a control session: C07, C08, C09, C10, C11, C13. *)

From Coq Require Import String NArith List Lia.
From Verif Require Import M_Base M_Proto M_IpAddr M_FwProto M_ConfTypes M_Server M_Sha3
  S_Wire S_Session P_Base P_FwProto P_Session P_Server P_Exec.
Import ListNotations.
Local Open Scope N_scope.

(** *** C07 *)

(** Whenever an opening request is sent, the whole session up to then was: a
    valid knock, a fresh challenge, a valid response to that challenge, and the
    connection to the firewall daemon. *)
Theorem C07_open_only_after_full_authentication :
  forall mac conf peer T tr p,
  keys_sized conf ->
  srun T (server_run mac conf peer) tr p ->
  forall pre fm ok post, tr = pre ++ EvFwSend fm ok :: post ->
  exists user resource pre0,
    authenticated mac conf user resource pre0 /\ pre = pre0 ++ [EvFwConnect true].
Proof.
  intros mac conf peer T tr p KS R pre fm ok post E.
  destruct (request_facts mac conf peer T KS tr p pre fm ok post (runs mac conf peer T KS _ _ R) E)
    as (u & r & rs & pt & pre0 & A & B & _). eauto.
Qed.
Print Assumptions C07_open_only_after_full_authentication.

Lemma ex_keys_sized : forall pol, keys_sized (ex_conf pol).
Proof.
  intros pol user key [E|[]]. inversion E; subst. split; [reflexivity|].
  apply bytes_ok_spec. reflexivity.
Qed.

(** A complete session with the real MAC function that opens port 22. *)
Example C07_nonvacuous : exists tr p,
  srun 10 (server_run hmac_sha3_256 (ex_conf PolAlways) ex_peer) tr p
  /\ fw_requests tr = [fw_new_open ex_peer PtTcp 22] /\ p = SRet (Ok tt).
Proof.
  eexists _, _. split; [apply (drive_sound _ (ex_good 3)); vm_compute; reflexivity|].
  split; reflexivity.
Qed.

(** *** C08 *)

(** The request names the peer's address, and the port and protocols of a
    resource that the configuration grants to the user; user and resource are
    those of the knock that the session received. *)
Theorem C08_opens_what_is_granted :
  forall mac conf peer T tr p,
  keys_sized conf -> ip_address peer ->
  srun T (server_run mac conf peer) tr p ->
  forall fm, In fm (fw_requests tr) ->
  exists user res_id r t d kb rest salt auth,
    tr = EvRecv d (RxBuf kb) :: rest
    /\ wire_layout kb Knock user res_id salt auth
    /\ grants conf user res_id r
    /\ f_op fm = FwOpen
    /\ fw_addr fm = Some peer
    /\ fw_port fm = Some (t, rs_port r)
    /\ covers_tcp t = rs_tcp r /\ covers_udp t = rs_udp r.
Proof. exact opens_granted. Qed.
Print Assumptions C08_opens_what_is_granted.

(** At most one request per session. *)
Theorem C08_at_most_one_request :
  forall mac conf peer T tr p,
  keys_sized conf ->
  srun T (server_run mac conf peer) tr p -> (length (fw_requests tr) <= 1)%nat.
Proof. exact one_request. Qed.
Print Assumptions C08_at_most_one_request.

Example C08_nonvacuous : exists tr p,
  srun 10 (server_run hmac_sha3_256 (ex_conf PolAlways) ex_peer) tr p
  /\ fw_requests tr = [fw_new_open ex_peer PtTcpUdp 80]
  /\ ip_address ex_peer /\ keys_sized (ex_conf PolAlways).
Proof.
  eexists _, _. split; [apply (drive_sound _ (ex_good 5)); vm_compute; reflexivity|].
  split; [reflexivity|]. split; [|apply ex_keys_sized].
  split; [reflexivity|]. apply bytes_ok_spec. reflexivity.
Qed.

(** A resource that uses the control port is not opened, even for an authentic
    knock: the session has nothing left to do but to send its GoAway. *)
Example C08_control_port_rejected : exists tr p m k,
  srun 10 (server_run hmac_sha3_256 (ex_conf PolAlways) ex_peer) tr p
  /\ tr = [EvRecv 1 (RxBuf (ex_knock 7 4)); EvRand 8 (Some ex_salt)]
  /\ p = SSend m k /\ m_op m = GoAway.
Proof.
  eexists _, _, _, _. split; [|split; [|split]].
  - apply (drive_sound _ [ARecv 1 (RxBuf (ex_knock 7 4)); ARand (Some ex_salt)]).
    vm_compute. reflexivity.
  - vm_compute. reflexivity.
  - reflexivity.
  - reflexivity.
Qed.

(** *** C09 *)

(** Unless the policy is "always", everything the server sends comes after a
    knock with a valid MAC. *)
Theorem C09_silent_without_valid_knock :
  forall mac conf peer T tr p,
  keys_sized conf -> c_policy conf <> PolAlways ->
  srun T (server_run mac conf peer) tr p ->
  forall pre d m r post, tr = pre ++ EvSend d m r :: post ->
  exists user res_id key d' kb pre',
    pre = EvRecv d' (RxBuf kb) :: pre' /\ In (user, key) (c_keys conf)
    /\ valid_knock mac key user res_id kb.
Proof.
  intros mac conf peer T tr p KS PA R pre d m r post E.
  exact (stealth mac conf peer T KS tr p pre d m r post PA (runs mac conf peer T KS _ _ R) E).
Qed.
Print Assumptions C09_silent_without_valid_knock.

(** With "full-auth", a GoAway comes only after a complete authentication. *)
Theorem C09_full_auth_no_go_away :
  forall mac conf peer T tr p,
  keys_sized conf -> c_policy conf = PolFullAuth ->
  srun T (server_run mac conf peer) tr p ->
  forall pre d m r post, tr = pre ++ EvSend d m r :: post -> m_op m = GoAway ->
  exists user res_id pre0 pre1,
    authenticated mac conf user res_id pre0 /\ pre = pre0 ++ pre1.
Proof.
  intros mac conf peer T tr p KS PA R pre d m r post E.
  exact (full_auth_stealth mac conf peer T KS tr p pre d m r post PA
           (runs mac conf peer T KS _ _ R) E).
Qed.
Print Assumptions C09_full_auth_no_go_away.

(** With "always", every session that ends in an error although the
    communication itself worked ends with an attempt to send a GoAway. *)
Theorem C09_always_answers :
  forall mac conf peer T tr e,
  keys_sized conf -> NoDup (map fst (c_keys conf)) -> c_policy conf = PolAlways ->
  srun T (server_run mac conf peer) tr (SRet (Err e)) ->
  Exists comm_failure tr \/ ends_with_go_away tr.
Proof. exact (fun mac conf peer T tr e KS KU => answered_always mac conf peer T KS KU tr e). Qed.
Print Assumptions C09_always_answers.

(** With "basic-auth" the same holds for peers whose knock was authentic, with
    "full-auth" for peers that also answered the challenge. *)
Theorem C09_basic_auth_answers :
  forall mac conf peer T tr e user res_id key d kb rest,
  keys_sized conf -> NoDup (map fst (c_keys conf)) -> c_policy conf = PolBasicAuth ->
  srun T (server_run mac conf peer) tr (SRet (Err e)) ->
  tr = EvRecv d (RxBuf kb) :: rest ->
  In (user, key) (c_keys conf) -> valid_knock mac key user res_id kb ->
  Exists comm_failure tr \/ ends_with_go_away tr.
Proof.
  exact (fun mac conf peer T tr e user res_id key d kb rest KS KU =>
           answered_basic mac conf peer T KS KU tr e user res_id key d kb rest).
Qed.
Print Assumptions C09_basic_auth_answers.

Theorem C09_full_auth_answers :
  forall mac conf peer T tr e user res_id pre0 rest,
  keys_sized conf -> NoDup (map fst (c_keys conf)) -> c_policy conf = PolFullAuth ->
  srun T (server_run mac conf peer) tr (SRet (Err e)) ->
  authenticated mac conf user res_id pre0 -> tr = pre0 ++ rest ->
  Exists comm_failure tr \/ ends_with_go_away tr.
Proof.
  exact (fun mac conf peer T tr e user res_id pre0 rest KS KU =>
           answered_full mac conf peer T KS KU tr e user res_id pre0 rest).
Qed.
Print Assumptions C09_full_auth_answers.

(** A wrong knock: silent with "basic-auth", answered with "always". *)
Example C09_wrong_knock_silent : exists e,
  srun 10 (server_run hmac_sha3_256 (ex_conf PolBasicAuth) ex_peer)
    [EvRecv 1 (RxBuf (firstn 55 (ex_knock 7 3) ++ [0]))] (SRet (Err e)).
Proof.
  eexists. apply (drive_sound _ [ARecv 1 (RxBuf (firstn 55 (ex_knock 7 3) ++ [0]))]).
  vm_compute. reflexivity.
Qed.

Example C09_wrong_knock_answered : exists tr e,
  srun 10 (server_run hmac_sha3_256 (ex_conf PolAlways) ex_peer) tr (SRet (Err e))
  /\ ends_with_go_away tr.
Proof.
  eexists _, _. split.
  - apply (drive_sound _ [ARecv 1 (RxBuf (firstn 55 (ex_knock 7 3) ++ [0]));
                          ARand (Some ex_salt); ASend 1 TxOk]).
    vm_compute. reflexivity.
  - eexists [_; _], _, _, _. split; reflexivity.
Qed.

(** With "full-auth", a refusal of the firewall daemon is answered. *)
Example C09_full_auth_nonvacuous : exists tr e,
  srun 10 (server_run hmac_sha3_256 (ex_conf PolFullAuth) ex_peer) tr (SRet (Err e))
  /\ ends_with_go_away tr /\ length (sent tr) = 2%nat.
Proof.
  eexists _, _. split.
  - apply (drive_sound _ (firstn 7 (ex_good 3) ++ [AFwRecv (FwRxBuf ex_nack);
                          ARand (Some ex_salt); ASend 1 TxOk])).
    vm_compute. reflexivity.
  - split; [|reflexivity]. eexists [_; _; _; _; _; _; _; _; _], _, _, _. split; reflexivity.
Qed.

(** *** C10 *)

(** The messages of a session: nothing; or one GoAway with the "no id" values
    when the first frame is not a knock; or, echoing the ids of the knock, one
    of GoAway, Challenge, Challenge-GoAway, Challenge-ComeIn. *)
Theorem C10_message_discipline :
  forall mac conf peer T tr p,
  keys_sized conf ->
  srun T (server_run mac conf peer) tr p ->
  sent tr = []
  \/ exists d kb rest, tr = EvRecv d (RxBuf kb) :: rest /\ valid_frame kb
     /\ ((u32_at kb 4 <> 0
          /\ exists g, sent tr = [g] /\ is_message g GoAway 0xFFFFFFFF 0xFFFFFFFF)
         \/ (u32_at kb 4 = 0
             /\ let u := u32_at kb 8 in let r := u32_at kb 12 in
               (exists g, sent tr = [g] /\ is_message g GoAway u r)
               \/ (exists c, sent tr = [c] /\ is_message c Challenge u r)
               \/ (exists c g, sent tr = [c; g] /\ is_message c Challenge u r
                              /\ is_message g GoAway u r)
               \/ (exists c i, sent tr = [c; i] /\ is_message c Challenge u r
                              /\ is_message i ComeIn u r))).
Proof.
  intros mac conf peer T tr p KS R.
  exact (discipline mac conf peer T tr p (runs mac conf peer T KS _ _ R)).
Qed.
Print Assumptions C10_message_discipline.

(** ComeIn is the last event and comes after the complete authentication, the
    opening request and the acknowledgement of the firewall daemon. *)
Theorem C10_come_in_only_after_ack :
  forall mac conf peer T tr p,
  keys_sized conf ->
  srun T (server_run mac conf peer) tr p ->
  forall pre d m r post, tr = pre ++ EvSend d m r :: post -> m_op m = ComeIn ->
  post = [] /\ exists user res_id pre0 fm ok ev pre',
     authenticated mac conf user res_id pre0
     /\ pre = pre0 ++ EvFwConnect true :: EvFwSend fm ok :: ev :: pre' /\ is_ack ev.
Proof.
  intros mac conf peer T tr p KS R pre d m r post E O.
  exact (come_after_ack mac conf peer T KS tr p pre d m r post (runs mac conf peer T KS _ _ R) E O).
Qed.
Print Assumptions C10_come_in_only_after_ack.

(** After a GoAway nothing more happens. *)
Theorem C10_go_away_is_last :
  forall mac conf peer T tr p,
  keys_sized conf ->
  srun T (server_run mac conf peer) tr p ->
  forall pre d m r post, tr = pre ++ EvSend d m r :: post -> m_op m = GoAway -> post = [].
Proof.
  intros mac conf peer T tr p KS R pre d m r post E O.
  exact (go_away_last mac conf peer T tr p pre d m r post (runs mac conf peer T KS _ _ R) E O).
Qed.
Print Assumptions C10_go_away_is_last.

(** A session that returns success has authenticated its peer, has been
    acknowledged by the firewall daemon and has delivered the ComeIn. *)
Theorem C10_success_means_opened :
  forall mac conf peer T tr,
  keys_sized conf ->
  srun T (server_run mac conf peer) tr (SRet (Ok tt)) ->
  exists user res_id pre0 fm ev os d i,
    authenticated mac conf user res_id pre0 /\ is_ack ev
    /\ is_message i ComeIn user res_id
    /\ tr = pre0 ++ [EvFwConnect true; EvFwSend fm true; ev; EvRand 8 os; EvSend d i TxOk].
Proof.
  intros mac conf peer T tr KS R.
  exact (success_means mac conf peer T KS tr _ (runs mac conf peer T KS _ _ R) eq_refl).
Qed.
Print Assumptions C10_success_means_opened.

Example C10_nonvacuous : exists tr c i,
  srun 10 (server_run hmac_sha3_256 (ex_conf PolFullAuth) ex_peer) tr (SRet (Ok tt))
  /\ sent tr = [c; i] /\ m_op c = Challenge /\ m_op i = ComeIn /\ m_user i = 7.
Proof.
  eexists _, _, _. split; [apply (drive_sound _ (ex_good 3)); vm_compute; reflexivity|].
  repeat split.
Qed.

(** *** C11 *)

(** With a loaded configuration and a working random generator no behaviour of
    the peer, the network and the firewall daemon makes the session panic. *)
Theorem C11_session_never_panics :
  forall mac conf peer T tr p,
  keys_sized conf -> resources_have_transport conf ->
  srun T (server_run mac conf peer) tr p ->
  Forall good_random tr -> p <> SRet Panic.
Proof.
  intros mac conf peer T tr p KS RT R.
  exact (no_panic mac conf peer T tr p RT (runs mac conf peer T KS _ _ R)).
Qed.
Print Assumptions C11_session_never_panics.

Example C11_nonvacuous :
  keys_sized (ex_conf PolAlways) /\ resources_have_transport (ex_conf PolAlways)
  /\ good_random (EvRand 8 (Some ex_salt)) /\ good_random (EvRand 32 (Some ex_nonce)).
Proof.
  split; [apply ex_keys_sized|]. split.
  - intros id r [H|[H|[H|[]]]]; inversion H; auto.
  - split; intros c H; vm_compute in H; injection H; intros; congruence.
Qed.

(** Without the two hypotheses the session can panic: a resource without a
    transport (which the loader never produces), or a degenerate generator. *)
Example C11_hypotheses_needed : exists tr,
  srun 10 (server_run hmac_sha3_256 (ex_conf PolAlways) ex_peer) tr (SRet Panic).
Proof.
  eexists. apply (drive_sound _ [ARecv 1 (RxBuf (ex_knock 7 3)); ARand (Some (repeat 9 8))]).
  vm_compute. reflexivity.
Qed.

(** *** C13 *)

(** Each communication step with the peer takes at most the control timeout;
    at most four timeouts are spent with the peer in the whole session, at most
    three as long as neither ComeIn nor GoAway has been sent; and the session
    makes at most ten external calls. *)
Theorem C13_bounded_time :
  forall mac conf peer T tr p,
  keys_sized conf ->
  srun T (server_run mac conf peer) tr p ->
  peer_time tr <= 4 * T
  /\ ((forall m, In m (sent tr) -> m_op m = Challenge) -> peer_time tr <= 3 * T)
  /\ (forall d r, In (EvRecv d r) tr -> d <= T)
  /\ (forall d m r, In (EvSend d m r) tr -> d <= T)
  /\ (length tr <= 10)%nat.
Proof.
  intros mac conf peer T tr p KS R.
  destruct (session_time mac conf peer T tr p (runs mac conf peer T KS _ _ R)) as (A & B & C).
  pose proof (step_time mac conf peer T tr p) as S.
  split; [exact A|]. split; [exact C|]. split; [|split; [|exact B]].
  - intros d r I. exact (S _ R I).
  - intros d m r I. exact (S _ R I).
Qed.
Print Assumptions C13_bounded_time.

(** The bound is reached: a peer that always answers in the last moment. *)
Example C13_bound_is_tight : exists tr,
  srun 4 (server_run hmac_sha3_256 (ex_conf PolAlways) ex_peer) tr (SRet (Ok tt))
  /\ peer_time tr = 4 * 4.
Proof.
  eexists. split.
  - apply (drive_sound _
      [ARecv 4 (RxBuf (ex_knock 7 3)); ARand (Some ex_salt); ARand (Some ex_nonce);
       ASend 4 TxOk; ARecv 4 (RxBuf (ex_response 7 3)); AFwConnect true; AFwSend true;
       AFwRecv (FwRxBuf ex_ack); ARand (Some ex_salt); ASend 4 TxOk]).
    vm_compute. reflexivity.
  - reflexivity.
Qed.
