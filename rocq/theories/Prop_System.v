(** Properties of the whole system with a network attacker: C14, C15. *)

From Coq Require Import String NArith List Lia.
From Verif Require Import M_Base M_Proto M_IpAddr M_FwProto M_ConfTypes M_Server M_Client M_Sha3
  S_Wire S_Session S_Client S_System P_Base P_Sha3 P_System P_Exec P_CExec P_Relay.
Import ListNotations.
Local Open Scope N_scope.

(** *** C14 *)

(** Every opening request of every session is caused by a response that a client
    using the user's key computed for exactly this user, this resource and this
    session's challenge. *)
Theorem C14_agreement :
  forall mac parse_ip conf T w,
  (forall x y, length (mac x y) = 32%nat /\ all_bytes (mac x y)) ->
  keys_sized conf -> (forall cid, sane_identity (w_client w cid)) ->
  forall tr, execution mac parse_ip conf T w tr -> unforgeable mac conf w tr ->
  (forall sid, ip_address (w_peer w sid)) ->
  forall pre sid fm ok post, tr = pre ++ GServer sid (EvFwSend fm ok) :: post ->
  exists user key res_id r t nonce salt text cid n,
    In (user, key) (c_keys conf) /\ grants conf user res_id r
    /\ f_op fm = FwOpen /\ fw_addr fm = Some (w_peer w sid) /\ fw_port fm = Some (t, rs_port r)
    /\ covers_tcp t = rs_tcp r /\ covers_udp t = rs_udp r
    /\ session_nonce sid pre nonce
    /\ protected_text text Response user res_id salt nonce
    /\ kq_key (w_client w cid) = key /\ kq_user (w_client w cid) = user
    /\ kq_resource (w_client w cid) = res_id
    /\ computed (client_events cid pre) n text.
Proof. exact agreement. Qed.
Print Assumptions C14_agreement.

(** One computation of a client never serves the challenges of two sessions.  A
    session performs at most one opening (C08), so two openings never rest on
    the same computation. *)
Theorem C14_injective :
  forall tr, distinct_nonces tr ->
  forall sid1 sid2 nonce1 nonce2 o1 o2 u1 u2 r1 r2 s1 s2 text1 text2 cid n,
  session_nonce sid1 tr nonce1 -> session_nonce sid2 tr nonce2 ->
  protected_text text1 o1 u1 r1 s1 nonce1 -> protected_text text2 o2 u2 r2 s2 nonce2 ->
  computed (client_events cid tr) n text1 -> computed (client_events cid tr) n text2 ->
  sid1 = sid2.
Proof. exact injective. Qed.
Print Assumptions C14_injective.

(** If challenges are unpredictable, the key holder's client sent the response
    between the drawing of the challenge and the opening: old responses are
    worthless. *)
Theorem C14_recent :
  forall mac parse_ip conf T w,
  (forall x y, length (mac x y) = 32%nat /\ all_bytes (mac x y)) ->
  keys_sized conf -> (forall cid, sane_identity (w_client w cid)) ->
  forall tr, execution mac parse_ip conf T w tr -> unforgeable mac conf w tr ->
  unpredictable tr ->
  forall pre sid fm ok post, tr = pre ++ GServer sid (EvFwSend fm ok) :: post ->
  exists user key res_id nonce cid before between d m r,
    In (user, key) (c_keys conf)
    /\ pre = before ++ GServer sid (EvRand 32 (Some nonce)) :: between
    /\ In (GClient cid (CeSend d m r)) between
    /\ kq_key (w_client w cid) = key /\ kq_user (w_client w cid) = user
    /\ kq_resource (w_client w cid) = res_id
    /\ exists b, wire m b /\ valid_response mac key user res_id nonce b.
Proof. exact recent. Qed.
Print Assumptions C14_recent.

Lemma relay_sane : forall cid, sane_identity (w_client relay_world cid).
Proof. intro cid. repeat split; vm_compute; reflexivity. Qed.

(** All hypotheses hold together for an execution that opens a port. *)
Example C14_nonvacuous :
  (forall x y, length (hmac_sha3_256 x y) = 32%nat /\ all_bytes (hmac_sha3_256 x y))
  /\ keys_sized (ex_conf PolAlways)
  /\ (forall cid, sane_identity (w_client relay_world cid))
  /\ execution hmac_sha3_256 ex_parse_ip (ex_conf PolAlways) 10 relay_world relay_tr
  /\ unforgeable hmac_sha3_256 (ex_conf PolAlways) relay_world relay_tr
  /\ distinct_nonces relay_tr /\ unpredictable relay_tr
  /\ (forall sid, ip_address (w_peer relay_world sid))
  /\ fw_requests (server_events 0 relay_tr) = [fw_new_open relay_addr PtTcp 22].
Proof.
  split; [intros; apply hmac_ok|].
  split. { intros user key [E|[]]. inversion E; subst. split; [reflexivity|].
           apply bytes_ok_spec. reflexivity. }
  split; [exact relay_sane|].
  split; [exact relay_execution|]. split; [exact relay_unforgeable|].
  split; [exact relay_distinct|]. split; [exact relay_unpredictable|].
  split. { intro sid. split; [reflexivity|]. apply bytes_ok_spec. reflexivity. }
  vm_compute. reflexivity.
Qed.

(** *** C15 *)

(** Even with unforgeable messages and unpredictable, distinct challenges, a port
    can be opened for an address that belongs to no key holder: a man in the
    middle relays the messages of a knock through a session of its own.  The
    authenticated text contains neither address. *)
Theorem C15_opened_address_is_the_holders_refuted :
  exists mac parse_ip conf T w tr pre sid fm ok post,
    (forall x y, length (mac x y) = 32%nat /\ all_bytes (mac x y))
    /\ keys_sized conf /\ (forall cid, sane_identity (w_client w cid))
    /\ execution mac parse_ip conf T w tr /\ unforgeable mac conf w tr
    /\ distinct_nonces tr /\ unpredictable tr
    /\ tr = pre ++ GServer sid (EvFwSend fm ok) :: post
    /\ forall cid, fw_addr fm <> Some (w_home w cid).
Proof.
  exists hmac_sha3_256, ex_parse_ip, (ex_conf PolAlways), 10, relay_world, relay_tr.
  exists (firstn 12 relay_tr), 0%nat, (fw_new_open relay_addr PtTcp 22), true, (skipn 13 relay_tr).
  destruct C14_nonvacuous as (A & B & C & D & E & F & G & _).
  do 7 (split; [assumption|]). split; [reflexivity|].
  intros cid X. vm_compute in X. discriminate X.
Qed.
Print Assumptions C15_opened_address_is_the_holders_refuted.

(** What holds: without relaying the opened address is that of the client that
    computed the response with the user's key. *)
Theorem C15_without_relay_partial :
  forall mac parse_ip conf T w,
  (forall x y, length (mac x y) = 32%nat /\ all_bytes (mac x y)) ->
  keys_sized conf -> (forall cid, sane_identity (w_client w cid)) ->
  forall tr, execution mac parse_ip conf T w tr -> unforgeable mac conf w tr ->
  unrelayed w tr -> (forall sid, ip_address (w_peer w sid)) ->
  forall pre sid fm ok post, tr = pre ++ GServer sid (EvFwSend fm ok) :: post ->
  exists user cid, In (user, kq_key (w_client w cid)) (c_keys conf)
    /\ kq_user (w_client w cid) = user /\ fw_addr fm = Some (w_home w cid).
Proof. exact unrelayed_address. Qed.
Print Assumptions C15_without_relay_partial.

(** The same execution, with the client at the peer address, is unrelayed. *)
Example C15_nonvacuous :
  unrelayed (World (fun _ => relay_addr) (fun _ => relay_client) (fun _ => RmIpv4)
                   (fun _ => relay_addr)) relay_tr.
Proof. red. intros. reflexivity. Qed.
