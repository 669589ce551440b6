(** C93: replay and forgery protection across restarts of letmeind with changed
    configurations. *)

From Coq Require Import String NArith List Lia.
From Verif Require Import M_Base M_Proto M_IpAddr M_FwProto M_ConfTypes M_Server M_Client M_Firewall M_Text
  M_IpParse M_Sha3 S_Wire S_Ip S_Session S_Client S_System S_Firewall S_Host
  P_Base P_Sha3 P_IpParse P_System P_Exec P_CExec P_Relay P_Host Prop_System.
Import ListNotations.
Local Open Scope N_scope.

Lemma alone : forall mac parse_ip conf_of T w tr sid, restarting_execution mac parse_ip conf_of T w tr ->
  execution mac parse_ip (conf_of sid) T w (filter (concerns sid) tr).
Proof.
  intros mac parse_ip conf_of T w tr sid [ES EC]. split.
  - intro i. destruct (PeanoNat.Nat.eq_dec i sid) as [->|NE].
    + rewrite only_server. exact (ES sid).
    + rewrite only_others by exact NE. eexists. apply sr_nil.
  - intro cid. rewrite only_clients. exact (EC cid).
Qed.

(** A request to the firewall rests on a response to the challenge of this very session,
    computed before by a client that uses the key which the configuration of this
    session's letmeind has for the user. *)
Theorem C93_agreement :
  forall mac parse_ip conf_of T w,
  (forall x y, length (mac x y) = 32%nat /\ all_bytes (mac x y)) ->
  (forall sid, keys_sized (conf_of sid)) -> (forall cid, sane_identity (w_client w cid)) ->
  forall tr, restarting_execution mac parse_ip conf_of T w tr -> unforgeable_keys mac conf_of w tr ->
  (forall sid, ip_address (w_peer w sid)) ->
  forall pre sid fm ok post, tr = pre ++ GServer sid (EvFwSend fm ok) :: post ->
  exists user key res_id r t nonce salt text cid n,
    In (user, key) (c_keys (conf_of sid)) /\ grants (conf_of sid) user res_id r
    /\ f_op fm = FwOpen /\ fw_addr fm = Some (w_peer w sid) /\ fw_port fm = Some (t, rs_port r)
    /\ covers_tcp t = rs_tcp r /\ covers_udp t = rs_udp r
    /\ session_nonce sid pre nonce
    /\ protected_text text Response user res_id salt nonce
    /\ kq_key (w_client w cid) = key /\ kq_user (w_client w cid) = user
    /\ kq_resource (w_client w cid) = res_id
    /\ computed (client_events cid pre) n text.
Proof.
  intros mac parse_ip conf_of T w MAC KS SANE tr EX UF PEERS pre sid fm ok post E.
  assert (E1 : filter (concerns sid) tr
               = filter (concerns sid) pre ++ GServer sid (EvFwSend fm ok) :: filter (concerns sid) post).
  { rewrite E, filter_app. simpl. rewrite PeanoNat.Nat.eqb_refl. reflexivity. }
  destruct (agreement mac parse_ip (conf_of sid) T w MAC (KS sid) SANE _ (alone _ _ _ _ _ _ sid EX)
              (one_unforgeable mac conf_of w _ sid UF) PEERS _ _ _ _ _ E1)
    as (user & key & res_id & r & t & nonce & salt & text & cid & n & H).
  unfold session_nonce in H. rewrite only_server, only_clients in H.
  exists user, key, res_id, r, t, nonce, salt, text, cid, n. exact H.
Qed.
Print Assumptions C93_agreement.

(** No two openings rest on one computation, whatever letmeind processes serve them. *)
Theorem C93_one_response_one_opening :
  forall tr, distinct_nonces tr ->
  forall sid1 sid2 nonce1 nonce2 u1 u2 r1 r2 s1 s2 text1 text2 cid n pre1 post1 pre2 post2,
  tr = pre1 ++ post1 -> tr = pre2 ++ post2 ->
  session_nonce sid1 pre1 nonce1 -> session_nonce sid2 pre2 nonce2 ->
  protected_text text1 Response u1 r1 s1 nonce1 -> protected_text text2 Response u2 r2 s2 nonce2 ->
  computed (client_events cid pre1) n text1 -> computed (client_events cid pre2) n text2 ->
  sid1 = sid2.
Proof.
  intros tr DN sid1 sid2 nonce1 nonce2 u1 u2 r1 r2 s1 s2 text1 text2 cid n pre1 post1 pre2 post2 E1 E2 N1 N2 P1 P2 C1 C2.
  eapply (C14_injective tr DN sid1 sid2 nonce1 nonce2); [| |exact P1|exact P2| |].
  - red. rewrite E1, server_events_app. apply in_or_app. left. exact N1.
  - red. rewrite E2, server_events_app. apply in_or_app. left. exact N2.
  - rewrite E1, client_events_app. apply computed_app. exact C1.
  - rewrite E2, client_events_app. apply computed_app. exact C2.
Qed.
Print Assumptions C93_one_response_one_opening.

(** If challenges are unpredictable, the response was sent between the drawing of the
    challenge and the opening: what was recorded before a restart is worthless. *)
Theorem C93_recent :
  forall mac parse_ip conf_of T w,
  (forall x y, length (mac x y) = 32%nat /\ all_bytes (mac x y)) ->
  (forall sid, keys_sized (conf_of sid)) -> (forall cid, sane_identity (w_client w cid)) ->
  forall tr, restarting_execution mac parse_ip conf_of T w tr -> unforgeable_keys mac conf_of w tr ->
  unpredictable tr ->
  forall pre sid fm ok post, tr = pre ++ GServer sid (EvFwSend fm ok) :: post ->
  exists user key res_id nonce cid before between d m r,
    In (user, key) (c_keys (conf_of sid))
    /\ pre = before ++ GServer sid (EvRand 32 (Some nonce)) :: between
    /\ In (GClient cid (CeSend d m r)) between
    /\ kq_key (w_client w cid) = key /\ kq_user (w_client w cid) = user
    /\ kq_resource (w_client w cid) = res_id
    /\ exists b, wire m b /\ valid_response mac key user res_id nonce b.
Proof.
  intros mac parse_ip conf_of T w MAC KS SANE tr EX UF UP pre sid fm ok post E.
  assert (E1 : filter (concerns sid) tr
               = filter (concerns sid) pre ++ GServer sid (EvFwSend fm ok) :: filter (concerns sid) post).
  { rewrite E, filter_app. simpl. rewrite PeanoNat.Nat.eqb_refl. reflexivity. }
  assert (UP' : unpredictable (filter (concerns sid) tr)).
  { intros pre' i nonce post' E' cid d b u r s I.
    destruct (filter_split _ _ _ _ _ _ E') as (q1 & q2 & EQ & <- & <-).
    rewrite only_clients in I. exact (UP _ _ _ _ EQ _ _ _ _ _ _ I). }
  destruct (C14_recent mac parse_ip (conf_of sid) T w MAC (KS sid) SANE _ (alone _ _ _ _ _ _ sid EX)
              (one_unforgeable mac conf_of w _ sid UF) UP' _ _ _ _ _ E1)
    as (user & key & res_id & nonce & cid & before & between & d & m & r & K & EP & I & H).
  destruct (filter_split _ _ _ _ _ _ EP) as (q1 & q2 & EQ & E2 & E3).
  exists user, key, res_id, nonce, cid, q1, q2, d, m, r. split; [exact K|]. split; [exact EQ|].
  split; [|exact H]. rewrite <- E3 in I. apply filter_In in I. apply I.
Qed.
Print Assumptions C93_recent.

(** Example: the session of C14; all other sessions belong to a letmeind without users. *)
Definition replay_conf (sid : nat) : config :=
  match sid with
  | O => ex_conf PolAlways
  | _ => Config VarServer None false (ControlPort 5800 true true) 5 PolAlways ScOff [] [] 0
           (lit "nft") (lit "inet") (lit "filter") (lit "INPUT") 600
  end.

Example C93_witness :
  restarting_execution hmac_sha3_256 ex_parse_ip replay_conf 10 relay_world relay_tr
  /\ unforgeable_keys hmac_sha3_256 replay_conf relay_world relay_tr
  /\ (forall sid, keys_sized (replay_conf sid)) /\ replay_conf 0 <> replay_conf 1
  /\ distinct_nonces relay_tr /\ unpredictable relay_tr
  /\ (exists pre post, relay_tr = pre ++ GServer 0 (EvFwSend (fw_new_open relay_addr PtTcp 22) true) :: post).
Proof.
  destruct C14_nonvacuous as (_ & KS & _ & [ES EC] & UF & DN & UP & _).
  split; [split; [|exact EC]|].
  - intros [|sid]; [exact (ES 0%nat)|]. assert (server_events (S sid) relay_tr = []) as -> by (vm_compute; reflexivity).
    eexists. apply sr_nil.
  - split; [|split; [|split; [discriminate|split; [exact DN|split; [exact UP|]]]]].
    + intros pre [|sid] d b post user key resource nonce salt text E K.
      * exact (UF pre 0%nat d b post user key resource nonce salt text E K).
      * destruct K.
    + intros [|sid]; [exact KS|]. intros user key [].
    + exists (firstn 12 relay_tr), (skipn 13 relay_tr). reflexivity.
Qed.
