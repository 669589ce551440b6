(** C94: a knock command ends, and takes no more than eight control timeouts with the
    server. *)

From Coq Require Import String NArith List Lia.
From Verif Require Import M_Base M_Proto M_IpAddr M_ConfTypes M_Server M_Client M_Sha3
  S_Wire S_Session S_Client S_Patience P_Base P_Client P_Exec P_CExec P_Patience.
Import ListNotations.
Local Open Scope N_scope.

(** At most ten lookups, one connection and four timeouts for each of the two address
    families, whatever the servers answer. *)
Theorem C94_bounded_time :
  forall mac parse_ip T conf host server port user srv crypt tr p,
  crun T (run_knock mac parse_ip conf host server port user srv crypt) tr p ->
  server_time tr <= 8 * T /\ (lookups tr <= 20)%nat /\ (connects tr <= 2)%nat /\ (length tr <= 34)%nat
  /\ (forall d m r, In (CeSend d m r) tr -> d <= T) /\ (forall d r, In (CeRecv d r) tr -> d <= T).
Proof.
  intros mac parse_ip T conf host server port user srv crypt tr p R.
  destruct (lim_run T _ _ _ _ _ (lim_knock mac parse_ip conf host server port user srv crypt) _ _ R) as (A & B & C & D).
  change (N.of_nat 8) with 8 in C. cbn [Nat.add] in D.
  repeat (split; [assumption|]).
  assert (forall ev, In ev tr -> match ev with CeSend d _ _ => d <= T | CeRecv d _ => d <= T | _ => True end) as S.
  { clear - R. induction R as [|q ev p1 tr q' S R IH]; [intros ? []|].
    intros e [<-|I]; [destruct S; cbn; auto|exact (IH e I)]. }
  split; [intros d m r I; exact (S _ I)|intros d r I; exact (S _ I)].
Qed.
Print Assumptions C94_bounded_time.

(** One address family: half of that. *)
Theorem C94_bounded_time_of_one_knock :
  forall mac parse_ip T q mode tr p, crun T (knock_sequence mac parse_ip q mode) tr p ->
  server_time tr <= 4 * T /\ (lookups tr <= 10)%nat /\ (connects tr <= 1)%nat /\ (length tr <= 17)%nat.
Proof.
  intros mac parse_ip T q mode tr p R.
  destruct (lim_run T _ _ _ _ _ (lim_sequence mac parse_ip q mode) _ _ R) as (A & B & C & D).
  change (N.of_nat 4) with 4 in C. cbn [Nat.add] in D. auto.
Qed.
Print Assumptions C94_bounded_time_of_one_knock.

(** The command is at every point either over or waiting for an answer with which it
    goes on; so, since it makes at most 34 calls, it ends if all its calls return. *)
Theorem C94_ends :
  forall mac parse_ip T conf host server port user srv crypt tr p,
  crun T (run_knock mac parse_ip conf host server port user srv crypt) tr p ->
  (forall ev p', ~ cstep T p ev p') -> exists r, p = CRet r.
Proof.
  intros mac parse_ip T conf host server port user srv crypt tr p _ N0.
  destruct (client_moves T p) as [E|(ev & p' & S)]; [exact E|]. destruct (N0 _ _ S).
Qed.
Print Assumptions C94_ends.

(** The bounds are reached: all services but the last fail, the server answers at the
    last moment, over both families. *)
Definition slow_exchange (a : rdata) : list canswer :=
  repeat (BLookup None) 9 ++ [BLookup (Some [a]); BConnect true; BRand (Some ex_salt); BSend 10 TxOk;
   BRecv 10 (RxBuf ex_chal_bytes); BRand (Some ex_salt); BSend 10 TxOk; BRecv 10 (RxBuf ex_comein)].

Example C94_tight : exists tr,
  crun 10 (ex_knock_prog ex_host true true) tr (CRet (Ok tt))
  /\ server_time tr = 8 * 10 /\ lookups tr = 20%nat /\ connects tr = 2%nat /\ length tr = 34%nat.
Proof.
  destruct (cdrive 10 (ex_knock_prog ex_host true true)
              (slow_exchange (RAAAA (repeat 1 16)) ++ slow_exchange (RA [192; 0; 2; 9]))) as [[tr p]|] eqn:D;
    [|vm_compute in D; discriminate D].
  exists tr. pose proof (cdrive_sound _ _ _ _ _ D) as R.
  assert (p = CRet (Ok tt) /\ server_time tr = 80 /\ lookups tr = 20%nat /\ connects tr = 2%nat /\ length tr = 34%nat)
    as (-> & X).
  { vm_compute in D. injection D as <- <-. vm_compute. auto. }
  split; [exact R|exact X].
Qed.
