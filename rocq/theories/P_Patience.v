(** Proofs about the time that a knock command takes (C94). *)

From Coq Require Import String ZArith NArith List Bool Lia ZifyBool ZifyNat ZifyN.
From Verif Require Import M_Base M_Proto M_IpAddr M_ConfTypes M_Server M_Client
  S_Wire S_Session S_Client S_Patience P_Base P_Client.
Import ListNotations.
Local Open Scope N_scope.

(** At most [l] lookups, [k] connects, [n] messages in either direction, [r] calls of
    the random generator. *)
Inductive lim : nat -> nat -> nat -> nat -> cprog -> Prop :=
| lim_ret : forall l c n r x, lim l c n r (CRet x)
| lim_lookup : forall l c n r s m k, (forall a, lim l c n r (k a)) -> lim (S l) c n r (CLookup s m k)
| lim_connect : forall l c n r t a p k, (forall o, lim l c n r (k o)) -> lim l (S c) n r (CConnect t a p k)
| lim_rand : forall l c n r sz k, (forall o, lim l c n r (k o)) -> lim l c n (S r) (CRand sz k)
| lim_send : forall l c n r m k, (forall o, lim l c n r (k o)) -> lim l c (S n) r (CSend m k)
| lim_recv : forall l c n r k, (forall o, lim l c n r (k o)) -> lim l c (S n) r (CRecv k).

Lemma lim_more : forall l c n r p, lim l c n r p -> forall l' c' n' r',
  (l <= l' -> c <= c' -> n <= n' -> r <= r' -> lim l' c' n' r' p)%nat.
Proof.
  induction 1 as [|l c n r s m k H IH|l c n r t a p k H IH|l c n r sz k H IH|l c n r m k H IH|l c n r k H IH];
    intros l' c' n' r' L C N0 R.
  - constructor.
  - destruct l'; [lia|]. constructor. intro. apply IH; lia.
  - destruct c'; [lia|]. constructor. intro. apply IH; lia.
  - destruct r'; [lia|]. constructor. intro. apply IH; lia.
  - destruct n'; [lia|]. constructor. intro. apply IH; lia.
  - destruct n'; [lia|]. constructor. intro. apply IH; lia.
Qed.

Lemma lim_bind : forall l c n r p, lim l c n r p -> forall l' c' n' r' f,
  (forall x, lim l' c' n' r' (f x)) -> lim (l + l') (c + c') (n + n') (r + r') (cbind p f).
Proof.
  induction 1 as [l c n r x|l c n r s m k H IH|l c n r t a p k H IH|l c n r sz k H IH|l c n r m k H IH|l c n r k H IH];
    intros l' c' n' r' f F; cbn [cbind].
  - destruct x; try (eapply lim_more; [apply F|lia|lia|lia|lia]). constructor.
  - cbn [Nat.add]. constructor. intro. apply IH. exact F.
  - cbn [Nat.add]. constructor. intro. apply IH. exact F.
  - cbn [Nat.add]. constructor. intro. apply IH. exact F.
  - cbn [Nat.add]. constructor. intro. apply IH. exact F.
  - cbn [Nat.add]. constructor. intro. apply IH. exact F.
Qed.

Lemma lim_run : forall T l c n r p, lim l c n r p -> forall tr p', crun T p tr p' ->
  (lookups tr <= l)%nat /\ (connects tr <= c)%nat /\ server_time tr <= N.of_nat n * T
  /\ (length tr <= l + c + n + r)%nat.
Proof.
  intros T. unfold lookups, connects.
  induction 1 as [l c n r x|l c n r s m k H IH|l c n r t a p k H IH|l c n r sz k H IH|l c n r m k H IH|l c n r k H IH];
    intros tr p' R; (inversion R as [q|q ev p1 tr' q' S R']; subst; [cbn; lia|]); inversion S; subst;
    destruct (IH _ _ _ R') as (A & B & C & D); cbn [filter is_lookup is_connect server_time length]; lia.
Qed.

(** Nothing is asked twice, and the client is never stuck. *)
Lemma client_moves : forall T p, (exists r, p = CRet r) \/ exists ev p', cstep T p ev p'.
Proof.
  intros T [r|s m k|t a q k|sz k|m k|k]; [left; eauto|right..].
  - exists (CeLookup s m None). eexists. constructor. exact I.
  - exists (CeConnect t a q true). eexists. constructor.
  - exists (CeRand sz None). eexists. constructor. exact I.
  - exists (CeSend 0 m TxOk). eexists. constructor. lia.
  - exists (CeRecv 0 RxNone). eexists. constructor; [lia|exact I].
Qed.

Section Client.
Variable mac : list N -> list N -> list N.
Variable parse_ip : list N -> option ip.

Lemma lim_ask : forall l c n r en s m k next, (forall x, lim 0 c n r (k x)) -> lim l c n r next ->
  lim (S l) c n r (ask en s m k next).
Proof.
  intros l c n r en s m k next K X. unfold ask. destruct en.
  - constructor. intros [a|]; [|exact X]. eapply lim_more; [apply K|lia|lia|lia|lia].
  - eapply lim_more; [exact X|lia|lia|lia|lia].
Qed.

Lemma lim_resolve : forall host cfg c n r k, (forall x, lim 0 c n r (k x)) -> lim 10 c n r (resolve parse_ip host cfg k).
Proof.
  intros host cfg c n r k K. unfold resolve. destruct (parse_ip host) as [a|].
  - assert (forall x, lim 10 c n r (k x)) as K' by (intro; eapply lim_more; [apply K|lia|lia|lia|lia]).
    destruct (rc_mode cfg); match goal with |- context [if ?b then _ else _] => destruct b end; apply K'.
  - do 10 (apply lim_ask; [exact K|]). apply K.
Qed.

Lemma lim_recv_specific : forall o l c n r k, (forall m, lim l c n r (k m)) -> lim l c (S n) r (recv_specific o k).
Proof.
  intros o l c n r k K. unfold recv_specific. constructor. intros [| | |b]; try constructor.
  destruct (decode_rx b) as [m|e|]; try constructor.
  destruct (op_eqb (m_op m) GoAway); [constructor|]. destruct (negb (op_eqb (m_op m) o)); [constructor|apply K].
Qed.

Lemma lim_msg : forall o u re l c n r k, (forall m, lim l c n r (k m)) -> lim l c n (S r) (client_msg o u re k).
Proof.
  intros o u re l c n r k K. unfold client_msg. constructor. intro os.
  destruct (msg_new o u re os); [apply K|constructor|constructor].
Qed.

Lemma lim_client_send : forall m l c n r k, lim l c n r k -> lim l c (S n) r (client_send m k).
Proof. intros m l c n r k K. unfold client_send. constructor. intros []; first [exact K|constructor]. Qed.

Lemma lim_unres : forall (A : Type) (x : res A) l c n r k, (forall a, lim l c n r (k a)) -> lim l c n r (unres x k).
Proof. intros A [a|e|] l c n r k K; cbn [unres]; [apply K|constructor|constructor]. Qed.

Lemma lim_sequence : forall q mode, lim 10 1 4 2 (knock_sequence mac parse_ip q mode).
Proof.
  intros q mode. unfold knock_sequence, client_new. apply lim_resolve. intros [a|e|]; [|constructor|constructor].
  assert (forall tcp, lim 0 1 4 2 (CConnect tcp a (cp_port (kq_port q)) (fun ok =>
    match (if ok then Ok tt else Err "Connect to server") with
    | Panic => CRet Panic
    | Err e => CRet (Err e)
    | Ok _ =>
        client_msg Knock (kq_user q) (kq_resource q) (fun m =>
          unres (generate_auth_no_challenge mac m (kq_key q)) (fun knock =>
            client_send knock
              (recv_specific Challenge (fun challenge =>
                client_msg Response (kq_user q) (kq_resource q) (fun m2 =>
                  unres (generate_auth mac m2 (kq_key q) challenge) (fun response =>
                    client_send response
                      (recv_specific ComeIn (fun comein => CRet (Ok tt)))))))))
    end))) as B.
  { intro tcp. constructor. intros [|]; [|constructor].
    apply lim_msg. intro. apply lim_unres. intro. apply lim_client_send. apply lim_recv_specific. intro.
    apply lim_msg. intro. apply lim_unres. intro. apply lim_client_send. apply lim_recv_specific. intro. constructor. }
  destruct (cp_tcp (kq_port q)).
  - destruct (cp_udp (kq_port q)); [constructor|apply B].
  - destruct (negb (cp_udp (kq_port q))); [constructor|apply B].
Qed.

Lemma lim_knock : forall conf host server port user srv crypt,
  lim 20 2 8 4 (run_knock mac parse_ip conf host server port user srv crypt).
Proof.
  intros conf host server port user srv crypt. unfold run_knock.
  destruct (conf_key conf _) as [key|]; [|constructor].
  destruct (resource_id_by_port conf port _) as [re|]; [|constructor].
  set (q := KnockSeq _ _ _ _ _ _ _). clearbody q.
  assert (forall mode, lim 20 2 8 4 (knock_sequence mac parse_ip q mode)) as ONE
    by (intro; eapply lim_more; [apply lim_sequence|lia|lia|lia|lia]).
  unfold run_modes. destruct (ks_addr_mode server); try apply ONE.
  - destruct (is_ipv4_addr parse_ip (kq_addr q)); [apply ONE|]. destruct (is_ipv6_addr parse_ip (kq_addr q)); [apply ONE|].
    change (lim (10 + 10) (1 + 1) (4 + 4) (2 + 2) (cbind (knock_sequence mac parse_ip q RmIpv6) (fun res6 =>
          cbind (knock_sequence mac parse_ip q RmIpv4) (fun res4 =>
            match res6, res4 with
            | Err _, Err _ => CRet res6
            | _, _ => CRet (Ok tt)
            end)))).
    apply lim_bind; [apply lim_sequence|]. intro x.
    change (lim (10 + 0) (1 + 0) (4 + 0) (2 + 0) (cbind (knock_sequence mac parse_ip q RmIpv4) (fun res4 =>
            match x, res4 with
            | Err _, Err _ => CRet x
            | _, _ => CRet (Ok tt)
            end))).
    apply lim_bind; [apply lim_sequence|]. intro y. destruct x, y; constructor.
  - unfold and_then.
    change (lim (10 + 10) (1 + 1) (4 + 4) (2 + 2) (cbind (knock_sequence mac parse_ip q RmIpv6)
      (fun r => match r with Ok _ => knock_sequence mac parse_ip q RmIpv4 | _ => CRet r end))).
    apply lim_bind; [apply lim_sequence|]. intros [x|e|]; [apply lim_sequence|constructor|constructor].
Qed.

End Client.
