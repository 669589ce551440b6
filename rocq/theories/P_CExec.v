(** Executing the client on concrete answers; used for examples. *)

From Coq Require Import String ZArith NArith List Bool Lia.
From Verif Require Import M_Base M_Proto M_IpAddr M_FwProto M_ConfTypes M_Server M_Client M_Sha3
  S_Wire S_Session S_Client P_Base P_Exec.
Import ListNotations.
Local Open Scope N_scope.

Inductive canswer :=
| BLookup (r : lookup_result)
| BConnect (ok : bool)
| BRand (os : option (list byte))
| BSend (d : N) (r : tx_result)
| BRecv (d : N) (r : rx_result).

Definition rdata_okb (x : rdata) : bool :=
  match x with
  | RAAAA o => buf_okb 16 o
  | RA o => buf_okb 4 o
  | ROther => true
  end.

Fixpoint cdrive (T : N) (p : cprog) (l : list canswer) : option (list cevent * cprog) :=
  match l with
  | [] => Some ([], p)
  | a :: l =>
      match
        match p, a with
        | CLookup s m k, BLookup r =>
            if match r with Some x => forallb rdata_okb x | None => true end
            then Some (CeLookup s m r, k r) else None
        | CConnect t a q k, BConnect ok => Some (CeConnect t a q ok, k ok)
        | CRand sz k, BRand os =>
            if match os with Some b => buf_okb sz b | None => true end
            then Some (CeRand sz os, k os) else None
        | CSend m k, BSend d r => if d <=? T then Some (CeSend d m r, k r) else None
        | CRecv k, BRecv d r =>
            if (d <=? T) && (match r with RxBuf b => buf_okb MSG_SIZE b | _ => true end)
            then Some (CeRecv d r, k r) else None
        | _, _ => None
        end
      with
      | None => None
      | Some (ev, p') =>
          match cdrive T p' l with
          | None => None
          | Some (tr, q) => Some (ev :: tr, q)
          end
      end
  end.

Lemma cdrive_sound : forall T l p tr q, cdrive T p l = Some (tr, q) -> crun T p tr q.
Proof.
  intros T l. induction l as [|a l IH]; intros p tr q H; simpl in H.
  - inversion H; subst. constructor.
  - assert (B : forall n b, buf_okb n b = true -> length b = n /\ bytes_ok b = true).
    { intros n b E. apply andb_true_iff in E. destruct E as [E1 E2].
      apply Nat.eqb_eq in E1. auto. }
    destruct p, a; try discriminate.
    + destruct (match r with Some x => forallb rdata_okb x | None => true end) eqn:E; [|discriminate].
      destruct (cdrive T (k r) l) as [[tr' q']|] eqn:D; [|discriminate]. inversion H; subst.
      econstructor; [constructor|eauto]. destruct r as [x|]; simpl; auto.
      intros y I. rewrite forallb_forall in E. specialize (E y I). destruct y; simpl in *; auto.
    + destruct (cdrive T (k ok) l) as [[tr' q']|] eqn:D; [|discriminate]. inversion H; subst.
      econstructor; [constructor|eauto].
    + destruct (match os with Some b => buf_okb sz b | None => true end) eqn:E; [|discriminate].
      destruct (cdrive T (k os) l) as [[tr' q']|] eqn:D; [|discriminate]. inversion H; subst.
      econstructor; [constructor|eauto]. destruct os; simpl; auto.
    + destruct (d <=? T) eqn:E; [|discriminate]. apply N.leb_le in E.
      destruct (cdrive T (k r) l) as [[tr' q']|] eqn:D; [|discriminate]. inversion H; subst.
      econstructor; [constructor; auto|eauto].
    + destruct ((d <=? T) && _) eqn:E; [|discriminate]. apply andb_true_iff in E.
      destruct E as [E1 E2]. apply N.leb_le in E1.
      destruct (cdrive T (k r) l) as [[tr' q']|] eqn:D; [|discriminate]. inversion H; subst.
      econstructor; [constructor; auto|eauto]. destruct r; simpl; auto.
Qed.

(** A client that knocks for user 7 and port 22 (resource 3 of [ex_conf]). *)
Definition ex_host : text := [104; 111; 115; 116].       (* "host" *)
(** Only this text is a literal address (192.0.2.9). *)
Definition ex_literal : text := [49; 46; 50].
Definition ex_parse_ip (h : text) : option ip :=
  if list_eqb h ex_literal then Some (V4 [192; 0; 2; 9]) else None.
Definition ex_srv := ResSrv true true true true.
Definition ex_crypt := ResCrypt true true true.
Definition ex_knock_prog (host : text) (ipv4 ipv6 : bool) : cprog :=
  run_knock hmac_sha3_256 ex_parse_ip (ex_conf PolAlways) host
    (KnockServer (addr_mode_of ipv4 ipv6) None false false) 22 None ex_srv ex_crypt.

Definition ex_chal_bytes : list byte := get [] (msg_serialize (ex_challenge 7 3)).
Definition ex_comein : list byte :=
  get [] (msg_serialize (get no_msg (msg_new ComeIn 7 3 (Some ex_salt)))).
Definition ex_goaway : list byte :=
  get [] (msg_serialize (get no_msg (msg_new GoAway 7 3 (Some ex_salt)))).

Definition ex_exchange : list canswer :=
  [BConnect true; BRand (Some ex_salt); BSend 1 TxOk; BRecv 1 (RxBuf ex_chal_bytes);
   BRand (Some ex_salt); BSend 1 TxOk; BRecv 1 (RxBuf ex_comein)].
Definition ex_refused : list canswer :=
  [BConnect true; BRand (Some ex_salt); BSend 1 TxOk; BRecv 1 (RxBuf ex_goaway)].
