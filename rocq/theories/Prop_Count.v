(** How large the rule set can get: C98. *)

From Coq Require Import String NArith List Bool Lia Permutation.
From Verif Require Import M_Base M_IpAddr M_FwProto M_ConfTypes M_Server M_Text M_Firewall
  M_IpParse S_Wire S_Ip S_Firewall S_Count P_Base P_FwProto P_Firewall P_Fwd P_FwdProps P_Count Prop_Firewall.
Import ListNotations.
Local Open Scope nat_scope.

(** *** C98 *)

(** Whatever has happened, the chain of the running firewall daemon holds one rule per
    transport of the control port and one rule per transport of every live grant, and
    no more: however often a grant was renewed, however many requests were refused and
    however many grants have expired. *)
Theorem C98_rules_are_as_many_as_grants : forall conf c d h,
  history conf c d h -> clock_monotone h -> d_phase d = PhRun ->
  forall gs, NoDup gs -> (forall a pt port, In (a, pt, port) gs <-> live_grant conf h a pt port) ->
  length (rules_of c (d_kernel d)) = control_rule_count conf + list_sum (map grant_rule_count gs).
Proof. exact rule_count_exact. Qed.
Print Assumptions C98_rules_are_as_many_as_grants.

(** So the number of addresses with a live grant and the number of configured resources
    bound the number of rules. *)
Theorem C98_rules_are_bounded : forall conf c d h,
  history conf c d h -> clock_monotone h -> d_phase d = PhRun ->
  forall hosts, (forall a pt port, live_grant conf h a pt port -> In a hosts) ->
  length (rules_of c (d_kernel d)) <= 2 + 4 * (length hosts * length (c_resources conf)).
Proof. exact rule_count_bounded. Qed.
Print Assumptions C98_rules_are_bounded.

Example ex_monotone2 : clock_monotone (ex_hist 2).
Proof.
  intros p x q y r t u E. apply (ex_monotone p x q y (r ++ [(FwMaintain 1600 same same true false true, None)])).
  change (ex_hist 3) with (ex_hist 2 ++ [(FwMaintain 1600 same same true false true, None : option fw_message)]).
  rewrite E, <- !app_assoc. simpl. rewrite <- app_assoc. reflexivity.
Qed.

(** The daemon of the examples has two grants and five rules. *)
Example C98_witness :
  history ex_conf ex_chain (fst (ex_run 2)) (ex_hist 2) /\ clock_monotone (ex_hist 2)
  /\ d_phase (fst (ex_run 2)) = PhRun
  /\ NoDup [(host_b, PtTcpUdp, 53%N); (host_a, PtTcp, 22%N)]
  /\ (forall a pt port, In (a, pt, port) [(host_b, PtTcpUdp, 53%N); (host_a, PtTcp, 22%N)]
        <-> live_grant ex_conf (ex_hist 2) a pt port)
  /\ length (rules_of ex_chain (d_kernel (fst (ex_run 2)))) = 5.
Proof.
  split; [apply ex_history2|]. split; [apply ex_monotone2|]. split; [reflexivity|].
  split; [|split; [|reflexivity]].
  - constructor; [intros [E|[]]; discriminate E|]. constructor; [intros []|constructor].
  - intros a pt port.
    rewrite <- (grants_live ex_conf ex_chain _ _ ex_history2 ex_monotone2 (or_introl eq_refl)). reflexivity.
Qed.
