(** What one host can do to another one: C96. *)

From Coq Require Import String NArith List Bool Lia Permutation.
From Verif Require Import M_Base M_IpAddr M_FwProto M_ConfTypes M_Server M_Text M_Firewall
  M_IpParse S_Wire S_Ip S_Firewall S_Apart P_Base P_FwProto P_Firewall P_Fwd P_FwdProps P_Apart Prop_Firewall.
Import ListNotations.
Local Open Scope N_scope.

(** *** C96 *)

(** Take two running firewall daemons with the same configuration, on any two kernels,
    that got the same requests for the address [src] and did their maintenance at the same
    times.  Whatever they got for other addresses, the chain lets in the same packets
    from [src]. *)
Theorem C96_access_depends_on_own_requests_only : forall conf c src h1 h2 d1 d2,
  differ_elsewhere c src h1 h2 ->
  history conf c d1 h1 -> history conf c d2 h2 -> d_phase d1 = PhRun -> d_phase d2 = PhRun ->
  forall pk, pk_src pk = src -> ip_address src ->
  (chain_accepts (d_kernel d1) c pk <-> chain_accepts (d_kernel d2) c pk).
Proof. exact access_apart. Qed.
Print Assumptions C96_access_depends_on_own_requests_only.

(** And the next request for [src] gets the same reply from both. *)
Theorem C96_reply_depends_on_own_requests_only : forall conf c src h1 h2 d1 d2,
  differ_elsewhere c src h1 h2 ->
  forall b a pt port t ok s1 s2 r1 r2, asks b a pt port -> same_host a src ->
  history conf c d1 (h1 ++ [(FwMessage (FwRxBuf b) t ok s1, r1)]) ->
  history conf c d2 (h2 ++ [(FwMessage (FwRxBuf b) t ok s2, r2)]) ->
  d_phase d1 = PhRun -> d_phase d2 = PhRun -> r1 = r2.
Proof. exact reply_apart. Qed.
Print Assumptions C96_reply_depends_on_own_requests_only.

(** The daemon of the examples, with and without the request of the other host. *)
Example C96_witness :
  differ_elsewhere ex_chain host_a (ex_hist 2) (ex_hist 1)
  /\ history ex_conf ex_chain (fst (ex_run 2)) (ex_hist 2)
  /\ history ex_conf ex_chain (fst (ex_run 1)) (ex_hist 1)
  /\ d_phase (fst (ex_run 2)) = PhRun /\ d_phase (fst (ex_run 1)) = PhRun
  /\ leases (fst (ex_run 2)) <> leases (fst (ex_run 1))
  /\ chain_accepts (d_kernel (fst (ex_run 1))) ex_chain (Packet host_a Tcp 22).
Proof.
  assert (asks open_b53 host_b PtTcpUdp 53) as AB.
  { exists (FwMsg FwOpen PtTcpUdp 53 AtIpv6 [32;1;13;184;0;0;0;0;0;0;0;0;0;0;0;1]).
    repeat split; try reflexivity. apply bytes_ok_spec. reflexivity. }
  assert (differ_elsewhere ex_chain host_a (ex_hist 2) (ex_hist 1)) as D.
  { change (ex_hist 2) with (ex_hist 1 ++ [(FwMessage (FwRxBuf open_b53) 1500 true true, Some fw_new_ack)]).
    apply de_left.
    - change (ex_hist 1) with (([] : hist) ++ [(FwMessage (FwRxBuf open_a22) 1000 true true, Some fw_new_ack)]).
      apply de_message. constructor.
    - intros a pt port AK S.
      destruct (asks_unique open_b53 host_b PtTcpUdp 53 a pt port) as (-> & _); auto.
      { apply bytes_ok_spec. reflexivity. }
      destruct S as [(o & L & E & _)|(E & _)]; [|discriminate E].
      unfold host_b, mapped_prefix in E. simpl in E. discriminate E. }
  split; [exact D|]. split; [apply ex_history2|]. split; [apply ex_history1|].
  split; [reflexivity|]. split; [reflexivity|]. split; [vm_compute; discriminate|].
  apply (C96_access_depends_on_own_requests_only ex_conf ex_chain host_a _ _ _ _ D ex_history2 ex_history1
    eq_refl eq_refl (Packet host_a Tcp 22) eq_refl).
  { split; [reflexivity|]. apply bytes_ok_spec. reflexivity. }
  apply C23_witness.
Qed.
