(** A concrete execution with the real MAC: a key holder's client at
    192.0.2.55 knocks through a man in the middle, whose own address
    203.0.113.66 is the peer of the server's session. *)

From Coq Require Import String ZArith NArith List Bool Lia.
From Verif Require Import M_Base M_Proto M_IpAddr M_FwProto M_ConfTypes M_Server M_Client M_Sha3
  S_Wire S_Session S_Client S_System P_Base P_Proto P_Sha3 P_Session P_Exec P_CExec.
Import ListNotations.
Local Open Scope N_scope.

Definition relay_addr : ip := V4 [203; 0; 113; 66].
Definition home_addr : ip := V4 [192; 0; 2; 55].
Definition relay_client : knock_seq :=
  KnockSeq ex_literal ex_srv ex_crypt (ControlPort 5800 true false) 7 3 ex_key.
Definition relay_world : world :=
  World (fun _ => relay_addr) (fun _ => relay_client) (fun _ => RmIpv4) (fun _ => home_addr).

Definition relay_srv : list sevent := Eval vm_compute in
  match drive 10 (server_run hmac_sha3_256 (ex_conf PolAlways) relay_addr) (ex_good 3) with
  | Some (tr, _) => tr | None => [] end.
Definition relay_cl : list cevent := Eval vm_compute in
  match cdrive 10 (knock_sequence hmac_sha3_256 ex_parse_ip relay_client RmIpv4) ex_exchange with
  | Some (tr, _) => tr | None => [] end.

Definition relay_tr : list gevent := Eval vm_compute in
  (map (GClient 0) (firstn 3 relay_cl) ++ map (GServer 0) (firstn 4 relay_srv)
   ++ map (GClient 0) (firstn 3 (skipn 3 relay_cl)) ++ map (GServer 0) (skipn 4 relay_srv)
   ++ map (GClient 0) (skipn 6 relay_cl))%list.

Lemma relay_proj_s : server_events 0 relay_tr = relay_srv.
Proof. reflexivity. Qed.
Lemma relay_proj_c : client_events 0 relay_tr = relay_cl.
Proof. reflexivity. Qed.

Lemma relay_execution :
  execution hmac_sha3_256 ex_parse_ip (ex_conf PolAlways) 10 relay_world relay_tr.
Proof.
  split.
  - intros [|sid].
    + rewrite relay_proj_s. eexists. apply (drive_sound 10 (ex_good 3)). vm_compute. reflexivity.
    + exists (server_run hmac_sha3_256 (ex_conf PolAlways) relay_addr). exact (sr_nil _ _).
  - intros [|cid].
    + rewrite relay_proj_c. eexists. apply (cdrive_sound 10 ex_exchange). vm_compute. reflexivity.
    + exists (knock_sequence hmac_sha3_256 ex_parse_ip relay_client RmIpv4). exact (cr_nil _ _).
Qed.

(** The response. *)
Definition relay_resp : message := Eval vm_compute in
  match nth 5 relay_cl (CeRand 0 None) with CeSend _ m _ => m | _ => no_msg end.
Definition relay_respb : list byte := Eval vm_compute in get [] (msg_serialize relay_resp).
Definition relay_text : list byte := Eval vm_compute in mac_input relay_resp ex_nonce.
Definition relay_mac : list byte := Eval vm_compute in m_auth relay_resp.
Definition relay_chalb : list byte := Eval vm_compute in
  match nth 3 relay_cl (CeRand 0 None) with CeRecv _ (RxBuf b) => b | _ => [] end.

Lemma relay_layout : wire_layout relay_respb Response 7 3 ex_salt relay_mac.
Proof. constructor; try (vm_compute; reflexivity). apply bytes_ok_spec. vm_compute. reflexivity. Qed.
Lemma relay_protected : protected_text relay_text Response 7 3 ex_salt ex_nonce.
Proof. constructor; try (vm_compute; reflexivity). apply bytes_ok_spec. vm_compute. reflexivity. Qed.
Lemma relay_chal_layout : wire_layout relay_chalb Challenge 7 3 ex_salt ex_nonce.
Proof. constructor; try (vm_compute; reflexivity). apply bytes_ok_spec. vm_compute. reflexivity. Qed.

Definition relay_pre : list gevent := firstn 11 relay_tr.

Lemma relay_computed : forall cid, cid = 0%nat ->
  computed (client_events cid (firstn 10 relay_tr)) 5 relay_text.
Proof.
  intros cid ->.
  eapply computed_later with (pre := firstn 3 relay_cl) (cb := relay_chalb)
    (mid := [CeRand 8 (Some ex_salt)]) (m := relay_resp) (b := relay_respb).
  - vm_compute. reflexivity.
  - reflexivity.
  - intros d r [E|[]]. discriminate.
  - exact relay_chal_layout.
  - vm_compute. reflexivity.
  - exact relay_layout.
  - exact relay_protected.
Qed.

(** The receives of the server: the knock at 3 and the response at 10. *)
Lemma relay_recvs : forall pre sid d b post,
  relay_tr = pre ++ GServer sid (EvRecv d (RxBuf b)) :: post ->
  (sid = 0%nat /\ pre = firstn 3 relay_tr)
  \/ (sid = 0%nat /\ pre = firstn 10 relay_tr /\ b = relay_respb).
Proof.
  intros pre sid d b post E. unfold relay_tr in E.
  do 3 (destruct pre as [|? pre]; [discriminate E|cbn [app] in E; injection E as <- E]).
  destruct pre as [|? pre].
  { cbn [app] in E. left. assert (sid = 0%nat) by congruence. split; auto. }
  cbn [app] in E; injection E as <- E.
  do 6 (destruct pre as [|? pre]; [discriminate E|cbn [app] in E; injection E as <- E]).
  destruct pre as [|? pre].
  { cbn [app] in E. right. assert (sid = 0%nat) by congruence. split; auto. split; [reflexivity|].
    injection E; intros; subst. reflexivity. }
  cbn [app] in E; injection E as <- E.
  do 6 (destruct pre as [|? pre]; [discriminate E|cbn [app] in E; injection E as <- E]).
  exfalso. destruct pre; discriminate E.
Qed.

Lemma relay_unforgeable : unforgeable hmac_sha3_256 (ex_conf PolAlways) relay_world relay_tr.
Proof.
  intros pre sid d b post user key res nonce salt text E KI SN WL PT.
  destruct (relay_recvs _ _ _ _ _ E) as [(-> & ->)|(-> & -> & ->)].
  - exfalso. unfold session_nonce in SN. cbn in SN. destruct SN as [].
  - assert (nonce = ex_nonce) as ->.
    { unfold session_nonce in SN. cbn in SN.
      destruct SN as [X|[X|[X|[X|[]]]]]; try discriminate X. injection X; intros <-. reflexivity. }
    destruct (wire_layout_unique _ _ _ _ _ _ _ _ _ _ _ WL relay_layout) as (_ & -> & -> & -> & _).
    pose proof (protected_text_unique _ _ _ _ _ _ _ PT relay_protected) as ->.
    exists 0%nat, 5%nat. split.
    + destruct KI as [X|[]]. injection X; intros <-. reflexivity.
    + apply relay_computed. reflexivity.
Qed.

Lemma relay_distinct : distinct_nonces relay_tr.
Proof.
  intros [|i] [|j] nonce A B; auto; exfalso; try exact A; exact B.
Qed.

Lemma relay_unpredictable : unpredictable relay_tr.
Proof.
  intros pre sid nonce post E cid d b u r s I WL.
  assert (pre = firstn 5 relay_tr) as ->.
  { unfold relay_tr in E.
    do 5 (destruct pre as [|? pre]; [discriminate E|cbn [app] in E; injection E as <- E]).
    destruct pre as [|? pre]; [reflexivity|].
    exfalso.
    do 12 (cbn [app] in E; injection E as <- E; destruct pre as [|? pre]; [discriminate E|]).
    cbn [app] in E. discriminate E. }
  destruct cid; cbn in I.
  - intuition discriminate.
  - exact I.
Qed.
