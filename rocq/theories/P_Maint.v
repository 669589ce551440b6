(** How long a lease can outlive its time. *)

From Coq Require Import String ZArith NArith List Bool Lia ZifyBool ZifyNat ZifyN.
From Verif Require Import M_Base M_FwProto M_ConfTypes M_Server M_Firewall S_Firewall S_Maint P_FwdProps.
Import ListNotations.
Local Open Scope N_scope.

Lemma times_in : forall h m, In m (maintenance_times h) ->
  exists o1 o2 b1 b2 b3 reply, In (FwMaintain m o1 o2 b1 b2 b3, reply) h.
Proof.
  induction h as [|[ev reply] h IH]; intros m I; [destruct I|].
  destruct ev; simpl in I; try (destruct (IH m I) as (o1 & o2 & b1 & b2 & b3 & rp & J);
    exists o1, o2, b1, b2, b3, rp; right; exact J; fail).
  destruct I as [<- | I]; [do 6 eexists; left; reflexivity|].
  destruct (IH m I) as (o1 & o2 & b1 & b2 & b3 & rp & J). exists o1, o2, b1, b2, b3, rp. right. exact J.
Qed.

(** A run that is late enough for the last tick. *)
Lemma last_run : forall start delay h now, on_schedule start delay h now ->
  now < start + delay
  \/ exists m, In m (maintenance_times h) /\ now < m + FW_MAINTAIN_PERIOD + delay.
Proof.
  intros start delay h now S. unfold on_schedule, FW_MAINTAIN_PERIOD in *.
  destruct (N.lt_ge_cases now (start + delay)) as [L|L]; [left; exact L|right].
  pose (k := (now - start - delay) / 5000000000).
  assert (k * 5000000000 <= now - start - delay) as K1.
  { unfold k. rewrite N.mul_comm. apply N.mul_div_le. discriminate. }
  assert (now - start - delay < 5000000000 * N.succ k) as K2.
  { unfold k. apply N.mul_succ_div_gt. discriminate. }
  destruct (S (N.to_nat k)) as (m & NE & M1 & M2); rewrite N2Nat.id in *; [lia|].
  exists m. split; [eapply nth_error_In; exact NE|]. lia.
Qed.

(** A lease that maintenance has not expired is not much over its time. *)
Lemma overstay : forall start delay h now pre x post t timeout,
  on_schedule start delay h now -> since start h -> clock_monotone h ->
  h = pre ++ x :: post -> event_time (fst x) = Some t ->
  (forall u o1 o2 b1 b2 b3 reply, In (FwMaintain u o1 o2 b1 b2 b3, reply) post -> u < t + timeout) ->
  now < t + timeout + FW_MAINTAIN_PERIOD + delay.
Proof.
  intros start delay h now pre x post t timeout S SI MONO E ET NE.
  assert (start <= t) as L1. { apply (SI x t); [|exact ET]. rewrite E. apply in_or_app. right. left. reflexivity. }
  destruct (last_run _ _ _ _ S) as [L|(m & I & L)]; unfold FW_MAINTAIN_PERIOD in *; [lia|].
  destruct (times_in _ _ I) as (o1 & o2 & b1 & b2 & b3 & reply & J).
  rewrite E in J. apply in_app_or in J. destruct J as [J|[J|J]].
  - apply in_split in J. destruct J as (p & q & ->).
    assert (m <= t) as L2.
    { eapply (MONO p (FwMaintain m o1 o2 b1 b2 b3, reply) q x post); [|reflexivity|exact ET].
      rewrite E, <- app_assoc. reflexivity. }
    lia.
  - rewrite J in ET. simpl in ET. injection ET as ->. lia.
  - specialize (NE _ _ _ _ _ _ _ J). lia.
Qed.
