(** Executing a session on concrete answers; used for the examples that show
    that the hypotheses of the theorems can be met. *)

From Coq Require Import String ZArith NArith List Bool Lia.
From Verif Require Import M_Base M_Proto M_IpAddr M_FwProto M_ConfTypes M_Server M_Sha3
  P_Server.
Import ListNotations.
Local Open Scope N_scope.

Inductive answer :=
| ARecv (d : N) (r : rx_result)
| ASend (d : N) (r : tx_result)
| ARand (os : option (list byte))
| AFwConnect (ok : bool)
| AFwSend (ok : bool)
| AFwRecv (r : fw_rx_result).

Definition buf_okb (n : nat) (b : list byte) : bool := Nat.eqb (length b) n && bytes_ok b.

Fixpoint drive (T : N) (p : sprog) (l : list answer) : option (list sevent * sprog) :=
  match l with
  | [] => Some ([], p)
  | a :: l =>
      match
        match p, a with
        | SRecv k, ARecv d r =>
            if (d <=? T) && (match r with RxBuf b => buf_okb MSG_SIZE b | _ => true end)
            then Some (EvRecv d r, k r) else None
        | SSend m k, ASend d r => if d <=? T then Some (EvSend d m r, k r) else None
        | SRand sz k, ARand os =>
            if match os with Some b => buf_okb sz b | None => true end
            then Some (EvRand sz os, k os) else None
        | SFwConnect k, AFwConnect ok => Some (EvFwConnect ok, k ok)
        | SFwSend m k, AFwSend ok => Some (EvFwSend m ok, k ok)
        | SFwRecv k, AFwRecv r =>
            if match r with FwRxBuf b => buf_okb FWMSG_SIZE b | _ => true end
            then Some (EvFwRecv r, k r) else None
        | _, _ => None
        end
      with
      | None => None
      | Some (ev, p') =>
          match drive T p' l with
          | None => None
          | Some (tr, q) => Some (ev :: tr, q)
          end
      end
  end.

Lemma drive_sound : forall T l p tr q, drive T p l = Some (tr, q) -> srun T p tr q.
Proof.
  intros T l. induction l as [|a l IH]; intros p tr q H; simpl in H.
  - inversion H; subst. constructor.
  - assert (B : forall n b, buf_okb n b = true -> length b = n /\ bytes_ok b = true).
    { intros n b E. apply andb_true_iff in E. destruct E as [E1 E2].
      apply Nat.eqb_eq in E1. auto. }
    destruct p, a; try discriminate.
    + destruct ((d <=? T) && _) eqn:E; [|discriminate]. apply andb_true_iff in E.
      destruct E as [E1 E2]. apply N.leb_le in E1.
      destruct (drive T (k r) l) as [[tr' q']|] eqn:D; [|discriminate]. inversion H; subst.
      eapply srun_front; [constructor; auto|eauto]. destruct r; simpl; auto.
    + destruct (d <=? T) eqn:E; [|discriminate]. apply N.leb_le in E.
      destruct (drive T (k r) l) as [[tr' q']|] eqn:D; [|discriminate]. inversion H; subst.
      eapply srun_front; [constructor; auto|eauto].
    + destruct (match os with Some b => buf_okb sz b | None => true end) eqn:E; [|discriminate].
      destruct (drive T (k os) l) as [[tr' q']|] eqn:D; [|discriminate]. inversion H; subst.
      eapply srun_front; [constructor; auto|eauto]. destruct os; simpl; auto.
    + destruct (drive T (k ok) l) as [[tr' q']|] eqn:D; [|discriminate]. inversion H; subst.
      eapply srun_front; [constructor; auto|eauto].
    + destruct (drive T (k ok) l) as [[tr' q']|] eqn:D; [|discriminate]. inversion H; subst.
      eapply srun_front; [constructor; auto|eauto].
    + destruct (match r with FwRxBuf b => buf_okb FWMSG_SIZE b | _ => true end) eqn:E;
        [|discriminate].
      destruct (drive T (k r) l) as [[tr' q']|] eqn:D; [|discriminate]. inversion H; subst.
      eapply srun_front; [constructor; auto|eauto]. destruct r; simpl; auto.
Qed.

(** *** A concrete configuration and a concrete session *)

Definition ex_key : list byte := map N.of_nat (seq 1 32).
Definition ex_conf (pol : error_policy) : config :=
  Config VarServer None false (ControlPort 5800 true true) 5000000000 pol ScOff
    [(7, ex_key)] [(3, ResPort 22 true false [7]); (4, ResPort 5800 true false []);
                   (5, ResPort 80 true true [])]
    7 [] [] [] [] 600000000000.
Definition ex_peer : ip := V4 [192; 0; 2; 1].

Definition get {A : Type} (d : A) (r : res A) : A := match r with Ok a => a | _ => d end.
Definition no_msg : message := Msg 0 Knock 0 0 [] [].

Definition ex_salt : list byte := [1; 2; 3; 4; 5; 6; 7; 8].
Definition ex_nonce : list byte := map N.of_nat (seq 100 32).

Definition ex_knock (user resource : N) : list byte :=
  get [] (msg_serialize
            (get no_msg (generate_auth_no_challenge hmac_sha3_256
                           (get no_msg (msg_new Knock user resource (Some ex_salt))) ex_key))).
Definition ex_challenge (user resource : N) : message :=
  get no_msg (generate_challenge
                (get no_msg (msg_new Challenge user resource (Some ex_salt))) (Some ex_nonce)).
Definition ex_response (user resource : N) : list byte :=
  get [] (msg_serialize
            (get no_msg (generate_auth hmac_sha3_256
                           (get no_msg (msg_new Response user resource (Some ex_salt))) ex_key
                           (ex_challenge user resource)))).
Definition ex_ack : list byte := get [] (fw_serialize fw_new_ack).
Definition ex_nack : list byte := get [] (fw_serialize fw_new_nack).

(** A complete successful session. *)
Definition ex_good (res : N) : list answer :=
  [ARecv 1 (RxBuf (ex_knock 7 res)); ARand (Some ex_salt); ARand (Some ex_nonce);
   ASend 2 TxOk; ARecv 3 (RxBuf (ex_response 7 res)); AFwConnect true; AFwSend true;
   AFwRecv (FwRxBuf ex_ack); ARand (Some ex_salt); ASend 4 TxOk].
