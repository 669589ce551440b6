(** Simulation of the byte streams (S_Bytes.v) by the channels that carry whole
    messages (S_E2e.v). *)

From Coq Require Import String ZArith NArith List Bool Lia Permutation.
From Verif Require Import M_Base M_Proto M_IpAddr M_FwProto M_ConfTypes M_Server M_Client M_Firewall
  S_Wire S_Session S_Client S_Pair S_Firewall S_E2e S_Bytes
  P_Base P_Proto P_FwProto P_E2e.
Import ListNotations.
Local Open Scope N_scope.

Lemma put_length : forall b off x r, put b off x = Ok r -> length r = length b.
Proof.
  intros b off x r H. unfold put in H. destruct (Nat.leb_spec (off + length x) (length b)) as [L|]; [|discriminate H].
  injection H as <-. rewrite !app_length, firstn_length, skipn_length. lia.
Qed.

Ltac binds H :=
  repeat match type of H with
  | bind ?x _ = Ok _ => let E := fresh "E" in destruct x eqn:E; cbn [bind] in H; try discriminate H; try apply put_length in E
  end.

Lemma wire_length : forall m b, wire m b -> length b = MSG_SIZE.
Proof.
  intros m b H. unfold wire, msg_serialize in H. cbn zeta in H. binds H. injection H as <-.
  repeat match goal with E : length _ = length _ |- _ => rewrite E; clear E end. apply repeat_length.
Qed.

Lemma fw_wire_length : forall m b, fw_serialize m = Ok b -> length b = FWMSG_SIZE.
Proof.
  intros m b H. unfold fw_serialize in H. cbn zeta in H. binds H. injection H as <-.
  repeat match goal with E : length _ = length _ |- _ => rewrite E; clear E end. apply repeat_length.
Qed.

Definition sized (n : nat) (l : list (list N)) : Prop := Forall (fun b => length b = n) l.

Lemma sized_app : forall n l b, sized n l -> length b = n -> sized n (l ++ [b]).
Proof. intros n l b H E. apply Forall_app. split; [exact H|]. constructor; [exact E|constructor]. Qed.

Lemma concat_snoc : forall (l : list (list N)) b, concat (l ++ [b]) = concat l ++ b.
Proof. intros l b. rewrite concat_app. cbn. rewrite app_nil_r. reflexivity. Qed.

(** A complete message is the first one on the way. *)
Lemma take_first : forall n l i x r, (0 < n)%nat -> sized n l -> concat l = i ++ x ++ r -> length (i ++ x) = n ->
  exists l', l = (i ++ x) :: l' /\ sized n l' /\ concat l' = r.
Proof.
  intros n l i x r P Z E L. rewrite app_assoc in E. destruct l as [|b l].
  - cbn in E. destruct (i ++ x); [cbn in L; lia|discriminate E].
  - inversion Z as [|? ? Lb Z']. subst n. cbn [concat] in E.
    assert (b = i ++ x) as ->.
    { apply (f_equal (firstn (length b))) in E. rewrite firstn_app, Nat.sub_diag, firstn_all, firstn_O, app_nil_r in E.
      rewrite Lb, firstn_app, Nat.sub_diag, firstn_all, firstn_O, app_nil_r in E. exact E. }
    apply app_inv_head in E. exists l. auto.
Qed.

(** Bytes are missing in the stream as long as a message is not complete. *)
Lemma first_waits : forall n b l i r, sized n (b :: l) -> concat (b :: l) = i ++ r -> (length i < n)%nat -> r <> [].
Proof.
  intros n b l i r Z E L ->. inversion Z as [|? ? Lb _]. rewrite app_nil_r in E. cbn [concat] in E.
  apply (f_equal (@length N)) in E. rewrite app_length in E. lia.
Qed.

Inductive crel : cprog -> to_write -> cprog -> list N -> Prop :=
| cr_none : forall p, crel p None p []
| cr_send : forall m k r, crel (CSend m k) (Some r) (k TxOk) r.

Inductive cin : cprog -> list N -> Prop :=
| ci_nil : forall p, cin p []
| ci_recv : forall k i, cin (CRecv k) i.

Inductive srel : sprog -> to_write -> sprog -> list N -> list N -> Prop :=
| sr_none : forall p, srel p None p [] []
| sr_send : forall m k r, srel (SSend m k) (Some r) (k TxOk) r []
| sr_fw : forall m k r, srel (SFwSend m k) (Some r) (k true) [] r.

Inductive sin : sprog -> list N -> list N -> list N -> Prop :=
| si_nil : forall p, sin p [] [] []
| si_recv : forall k i, sin (SRecv k) i i []
| si_fw : forall k i, sin (SFwRecv k) i [] i.

Definition rest (o : to_write) : list N := match o with None => [] | Some r => r end.

Inductive simr : streams -> full -> Prop :=
| Sim : forall cl co ci p so si d h do_ di up dn rq rp cl' co' p' no fo ni fi ups dns op rqs rps,
    crel cl co cl' co' -> cin cl ci -> srel p so p' no fo -> sin p si ni fi ->
    (length ci < MSG_SIZE)%nat -> (length ni < MSG_SIZE)%nat ->
    (length fi < FWMSG_SIZE)%nat -> (length di < FWMSG_SIZE)%nat ->
    concat ups = ni ++ up ++ co' -> concat dns = ci ++ dn ++ no ->
    concat rqs = di ++ rq ++ fo -> concat rps = fi ++ rp ++ rest do_ ->
    sized MSG_SIZE ups -> sized MSG_SIZE dns -> sized FWMSG_SIZE rqs -> sized FWMSG_SIZE rps ->
    simr (Streams cl co ci p so si d h do_ di up dn rq rp) (Full (Pair cl' p' ups dns op) d h rqs rps).

(** What is still to be moved. *)
Definition weight (o : to_write) : nat := match o with None => 0 | Some r => 1 + 2 * length r end.
Definition load (s : streams) : nat :=
  weight (sb_cout s) + weight (sb_sout s) + weight (sb_dout s)
  + length (sb_up s) + length (sb_down s) + length (sb_request s) + length (sb_reply s).

Lemma nonempty : forall (x : list N), x <> [] -> (1 <= length x)%nat.
Proof. intros [|] H; [contradiction|cbn; lia]. Qed.

Section Sim.
Variable conf : config.
Variable c : chain_name.

Lemma one : forall i f f', full_step conf c i f f' -> full_steps conf c i f f'.
Proof. intros i f f' H. change i with (0 + i)%nat. econstructor; [constructor|exact H]. Qed.

Lemma away_same : forall cl cl' p u u' w w' o, away_from_socket (Pair cl p u w o) (Pair cl' p u' w' o).
Proof. intros. destruct p; cbn; auto. Qed.

Ltac split_app := rewrite <- ?app_assoc in *; cbn [app] in *.

Ltac finish :=
  unfold load; cbn [sb_cout sb_sout sb_dout sb_up sb_down sb_request sb_reply weight];
  rewrite ?app_length in *;
  repeat match goal with
  | H : ?x <> [] |- _ => apply nonempty in H
  | H : wire _ _ |- _ => apply wire_length in H
  | H : fw_serialize _ = Ok _ |- _ => apply fw_wire_length in H
  end; unfold MSG_SIZE, FWMSG_SIZE, ADDR_SIZE, AUTH_SIZE, SALT_SIZE in *; lia.

Ltac sim := eapply Sim;
  [first [eassumption|constructor]|first [eassumption|constructor]|first [eassumption|constructor]|first [eassumption|constructor]|..];
  try eassumption; try (cbn; lia); try constructor; rewrite ?app_nil_r in *; split_app;
  try eassumption; try congruence;
  try (rewrite concat_snoc; match goal with H : concat ?l = _ |- concat ?l ++ _ = _ => rewrite H end; rewrite <- ?app_assoc; reflexivity);
  try (apply sized_app; [assumption|first [eapply wire_length|eapply fw_wire_length]; eassumption]).

Ltac cinv := match goal with H : crel _ _ _ _ |- _ => inversion H; subst; clear H end.
Ltac sinv := match goal with H : srel _ _ _ _ _ |- _ => inversion H; subst; clear H end.
Ltac iinv := match goal with H : sin _ _ _ _ |- _ => inversion H; subst; clear H end.
Ltac zero := exists 0%nat; eexists; split; [constructor|]; split; [sim|finish].
Ltac stepp r := exists 1%nat; eexists; split; [apply one, fs_pair; [eapply r; eassumption|first [exact I|apply away_same]]|];
  split; [sim|finish].
Ltac stepf r := exists 1%nat; eexists; split; [apply one; eapply r; eassumption|]; split; [sim|finish].
Ltac first_of n l :=
  match goal with Z : sized n l, E : concat l = ?i ++ (?x ++ ?u) ++ ?o, L : length (?i ++ ?x) = n |- _ =>
    rewrite <- (app_assoc x) in E;
    let l' := fresh "l" in let E' := fresh "E" in let Z' := fresh "Z" in
    destruct (take_first n l i x (u ++ o) ltac:(assumption) Z E L) as (l' & -> & Z' & E'); clear E Z
  end.

Lemma sim_step : forall i s s', byte_step conf c i s s' -> forall f, simr s f ->
  exists j f', full_steps conf c j f f' /\ simr s' f' /\ (i + load s' <= load s + 114 * j)%nat.
Proof.
  intros i s s' ST f S.
  assert (ZM : (0 < MSG_SIZE)%nat) by (cbv; lia). assert (ZF : (0 < FWMSG_SIZE)%nat) by (cbv; lia).
  inversion ST; subst; inversion S; subst; clear ST S.
  - (* lookup *) cinv. stepp ps_lookup.
  - (* connect *) cinv. stepp ps_connect.
  - (* random *) cinv. stepp ps_crand.
  - (* send *) cinv. stepp ps_csend.
  - cinv. zero.
  - cinv. zero.
  - cinv. zero.
  - cinv. first_of MSG_SIZE dns. stepp ps_crecv.
  - sinv. iinv. stepp ps_srand.
  - sinv. iinv. stepp ps_fwconnect.
  - sinv. iinv. stepp ps_ssend.
  - sinv. iinv. zero.
  - sinv. iinv. zero.
  - sinv. iinv; zero.
  - sinv. iinv; first_of MSG_SIZE ups; stepp ps_srecv.
  - sinv. iinv. stepf fs_send.
  - sinv. iinv. zero.
  - sinv. iinv. zero.
  - sinv. iinv; zero.
  - sinv. iinv; first_of FWMSG_SIZE rps; stepf fs_receive.
  - zero.
  - first_of FWMSG_SIZE rqs; stepf fs_handle.
  - zero.
  - zero.
  - exists 0%nat. eexists. split; [apply one; eapply fs_other; eassumption|]. split; [sim|finish].
Qed.

Lemma sim_steps : forall s0 f0, simr s0 f0 -> forall n s, byte_steps conf c n s0 s ->
  exists m f, full_steps conf c m f0 f /\ simr s f /\ (n + load s <= load s0 + 114 * m)%nat.
Proof.
  intros s0 f0 S0 n s R. induction R as [s|n i s s1 s2 R IH ST].
  - exists 0%nat, f0. split; [constructor|]. split; [exact S0|lia].
  - destruct (IH S0) as (m & f & RF & S & L). destruct (sim_step _ _ _ ST _ S) as (j & f' & RF' & S' & L').
    exists (m + j)%nat, f'. split; [eapply steps_more; eassumption|]. split; [exact S'|lia].
Qed.

(** A sender in a call can go on. *)
Lemma sim_send : forall s f, simr s f -> sb_cout s <> None \/ sb_sout s <> None \/ sb_dout s <> None ->
  exists s', byte_step conf c 1 s s' /\ sb_hist s' = sb_hist s.
Proof.
  intros s f S O. inversion S; subst. cbn in O. destruct O as [O|[O|O]].
  - cinv; [contradiction|]. match goal with H : cin _ _ |- _ => inversion H; subst end. destruct co' as [|x y].
    + eexists. split; [apply bs_csent|reflexivity].
    + eexists. split; [eapply (bs_cwrite _ _ _ _ _ _ _ _ _ _ _ _ _ _ _ [x] y); discriminate|reflexivity].
  - sinv; [contradiction|iinv..].
    + destruct no as [|x y].
      * eexists. split; [apply bs_ssent|reflexivity].
      * eexists. split; [eapply (bs_swrite _ _ _ _ _ _ _ _ _ _ _ _ _ _ _ [x] y); discriminate|reflexivity].
    + destruct fo as [|x y].
      * eexists. split; [apply bs_fwsent|reflexivity].
      * eexists. split; [eapply (bs_fwwrite _ _ _ _ _ _ _ _ _ _ _ _ _ _ _ [x] y); discriminate|reflexivity].
  - destruct do_ as [[|x y]|]; [| |contradiction].
    + eexists. split; [apply bs_dsent|reflexivity].
    + eexists. split; [eapply (bs_dwrite _ _ _ _ _ _ _ _ _ _ _ _ _ _ _ [x] y); discriminate|reflexivity].
Qed.

(** Cutting what has arrived at the end of the message. *)
Lemma cut : forall n i (u : list N), (length i < n)%nat -> u <> [] ->
  exists x r, u = x ++ r /\ x <> [] /\ ((length (i ++ x) < n)%nat \/ length (i ++ x) = n).
Proof.
  intros n i u L N. exists (firstn (n - length i) u), (skipn (n - length i) u).
  split; [symmetry; apply firstn_skipn|]. split.
  - destruct u; [contradiction|]. destruct (n - length i)%nat eqn:E; [lia|discriminate].
  - rewrite app_length, firstn_length. lia.
Qed.

Lemma not_itself : forall p k b, p = SFwRecv k -> k (FwRxBuf b) <> p.
Proof.
  induction p as [r|k IH|m k IH|sz k IH|k IH|m k IH|k IH]; intros k' b E; try discriminate E.
  injection E as <-. intros E. exact (IH (FwRxBuf b) k b E (eq_refl _)).
Qed.

Lemma snoc_neq : forall (A : Type) (l : list A) x, l ++ [x] <> l.
Proof. intros A l x H. apply (f_equal (@length A)) in H. rewrite app_length in H. cbn in H. lia. Qed.

Ltac cini := match goal with H : cin _ _ |- _ => inversion H; subst; clear H end.

Lemma sim_go : forall s f f', simr s f -> sb_cout s = None -> sb_sout s = None -> sb_dout s = None ->
  full_step conf c 1 f f' ->
  exists s', byte_step conf c 1 s s' /\ (sb_hist s' = sb_hist s \/ sb_hist s' = fu_hist f').
Proof.
  intros s f f' S OC OS OD ST. inversion S; subst; cbn in OC, OS, OD; subst. cinv. sinv.
  rewrite ?app_nil_r in *. cbn [rest] in *. rewrite ?app_nil_r in *.
  inversion ST; subst; clear ST.
  - match goal with H : pair_step _ _ |- _ => inversion H; subst; clear H end.
    + cini. eexists. split; [eapply bs_lookup; eassumption|left; reflexivity].
    + cini. eexists. split; [eapply bs_connect; eassumption|left; reflexivity].
    + cini. eexists. split; [eapply bs_crand; eassumption|left; reflexivity].
    + cini. eexists. split; [eapply bs_csend; eassumption|left; reflexivity].
    + match goal with Z : sized _ (?b :: ?l), E : concat (?b :: ?l) = ?i ++ ?u |- _ =>
        pose proof (first_waits _ _ _ _ _ Z E ltac:(assumption)) as NE end.
      destruct (cut MSG_SIZE ci dn) as (x & r & -> & X & [L|L]); [assumption..| |];
        eexists; (split; [first [eapply bs_cread; eassumption|eapply bs_crecv; eassumption]|left; reflexivity]).
    + assert (si = ni) as -> by (iinv; reflexivity).
      match goal with Z : sized _ (?b :: ?l), E : concat (?b :: ?l) = ?i ++ ?u |- _ =>
        pose proof (first_waits _ _ _ _ _ Z E ltac:(assumption)) as NE end.
      destruct (cut MSG_SIZE ni up) as (x & r & -> & X & [L|L]); [assumption..| |];
        eexists; (split; [first [eapply bs_sread; eassumption|eapply bs_srecv; eassumption]|left; reflexivity]).
    + iinv. eexists. split; [eapply bs_ssend; eassumption|left; reflexivity].
    + iinv. eexists. split; [eapply bs_srand; eassumption|left; reflexivity].
    + iinv. eexists. split; [eapply bs_fwconnect; eassumption|left; reflexivity].
    + match goal with H : away_from_socket _ _ |- _ => destruct H as (_ & H); cbn in H end. exfalso. eapply snoc_neq; eassumption.
    + match goal with H : away_from_socket _ _ |- _ => destruct H as (H & _); cbn in H end. exfalso. eapply not_itself; [reflexivity|eassumption].
  - iinv. eexists. split; [eapply bs_fwsend; eassumption|left; reflexivity].
  - match goal with Z : sized _ (?b :: ?l), E : concat (?b :: ?l) = ?i ++ ?u |- _ =>
      pose proof (first_waits _ _ _ _ _ Z E ltac:(assumption)) as NE end.
    destruct (cut FWMSG_SIZE di rq) as (x & r & -> & X & [L|L]); [assumption..| |].
    + eexists. split; [eapply bs_dread; eassumption|left; reflexivity].
    + match goal with Z : sized _ (?b :: ?l), E : concat (?b :: ?l) = di ++ ?u |- _ =>
        destruct (take_first FWMSG_SIZE (b :: l) di x r ltac:(cbv; lia) Z E L) as (l' & EL & _) end.
      injection EL as -> _. eexists. split; [eapply bs_handle; eassumption|right; reflexivity].
  - assert (si = fi) as -> by (iinv; reflexivity).
    match goal with Z : sized _ (?b :: ?l), E : concat (?b :: ?l) = ?i ++ ?u |- _ =>
      pose proof (first_waits _ _ _ _ _ Z E ltac:(assumption)) as NE end.
    destruct (cut FWMSG_SIZE fi rp) as (x & r & -> & X & [L|L]); [assumption..| |];
      eexists; (split; [first [eapply bs_fwread; eassumption|eapply bs_fwrecv; eassumption]|left; reflexivity]).
Qed.
End Sim.
