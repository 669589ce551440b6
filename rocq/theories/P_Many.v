(** Simultaneous knocks: every one of them runs as if it were alone. *)

From Coq Require Import ZArith NArith List Lia ZifyBool ZifyNat ZifyN.
From Verif Require Import M_Base M_Proto M_IpAddr M_FwProto M_ConfTypes M_Server M_Client M_Firewall
  S_Wire S_Session S_Client S_Pair S_Firewall S_E2e S_Many P_Base P_E2e.
Import ListNotations.
Local Open Scope N_scope.

Section Many.
Variable mac : list N -> list N -> list N.
Variable parse_ip : list N -> option ip.
Variables (sc cf : config) (c : chain_name).
Hypothesis MS : forall x y, length (mac x y) = 32%nat /\ all_bytes (mac x y).
Variables (d0 : daemon) (h0 : hist).
Hypothesis H0 : history cf c d0 h0.
Hypothesis RUN0 : d_phase d0 = PhRun.
Hypothesis CHAIN0 : has_chain (d_kernel d0) c = true.

(** What one knock does, as seen by itself. *)
Definition own_run (q0 q : knock) (d : daemon) (h : hist) (n : nat) : Prop :=
  full_steps cf c n (Full (kn_pair q0) d0 h0 (kn_request q0) (kn_reply q0))
                    (Full (kn_pair q) d h (kn_request q) (kn_reply q)).

Lemma own_e2e : forall q0 peer rs q d h n, legitimate mac parse_ip sc cf c q0 peer rs ->
  own_run q0 q d h n -> clock_monotone h ->
  (n <= 19)%nat
  /\ (finished cf c h0 peer rs (Full (kn_pair q) d h (kn_request q) (kn_reply q))
      \/ exists f', full_step cf c 1 (Full (kn_pair q) d h (kn_request q) (kn_reply q)) f'
                    /\ clock_monotone (fu_hist f')).
Proof.
  intros q0 peer rs q d h n L R MONO. destruct L. unfold own_run in R. cbn [kn_pair kn_request kn_reply] in R.
  eapply e2e; try eassumption.
Qed.

(** The requests of a knock are well-formed bytes. *)
Lemma own_bytes : forall q0 peer rs q d h n, legitimate mac parse_ip sc cf c q0 peer rs ->
  own_run q0 q d h n -> forall b, In b (kn_request q) -> all_bytes b.
Proof.
  intros q0 peer rs q d h n L R b J. destruct L as [cc host ipv4 srv crypt user key res_id port rs peer kport tcp udp AG PL IA PP PB FF].
  unfold own_run in R. cbn [kn_pair kn_request kn_reply] in R.
  eapply sim_run in R; try eassumption. destruct R as (_ & _ & _ & n' & i & RP & S & _).
  cbn [fu_pair] in RP.
  inversion S as [p d' h' pre O F E|p d' h' pre m b1 O F E SE|p d' h' m b1 O F E SE|p d' h' m O F E]; subst;
    try (match goal with X : [] = kn_request q |- _ => rewrite <- X in J; contradiction end).
  match goal with X : [b1] = kn_request q |- _ => rewrite <- X in J end. destruct J as [<-|[]].
  eapply opened_what in O; try eassumption. destruct O as (t & _ & ->).
  destruct (request_bytes port peer IA PB t) as (b' & SE' & HB & _).
  rewrite SE in SE'. injection SE' as <-. exact HB.
Qed.

(** What another knock does to the firewall is what others may do. *)
Lemma others_do : forall q0 peer rs q d h n f', legitimate mac parse_ip sc cf c q0 peer rs ->
  own_run q0 q d h n -> full_step cf c 1 (Full (kn_pair q) d h (kn_request q) (kn_reply q)) f' ->
  (fu_daemon f' = d /\ fu_hist f' = h)
  \/ exists ev reply, event_ok c d ev /\ undisturbed c ev /\ fw_step cf d ev = Some (fu_daemon f', reply)
       /\ fu_hist f' = h ++ [(ev, reply)].
Proof.
  intros q0 peer rs q d h n f' L R ST. pose proof (own_bytes _ _ _ _ _ _ _ L R) as B.
  inversion ST; subst; cbn [fu_daemon fu_hist]; auto.
  right. eexists _, _. split; [|split; [|split; [eassumption|reflexivity]]]; [|exact Logic.I].
  simpl. apply B. match goal with E : _ = kn_request q |- _ => rewrite <- E end. left. reflexivity.
Qed.

Lemma own_step : forall q0 q d h n f', own_run q0 q d h n ->
  full_step cf c 1 (Full (kn_pair q) d h (kn_request q) (kn_reply q)) f' ->
  own_run q0 (alone f') (fu_daemon f') (fu_hist f') (n + 1).
Proof.
  intros q0 q d h n f' R ST. unfold own_run, alone in *. cbn [kn_pair kn_request kn_reply].
  destruct f' as [p' d' h' rq' rp']. econstructor; eassumption.
Qed.

Lemma own_other : forall q0 q d h n ev d' reply, own_run q0 q d h n ->
  event_ok c d ev -> undisturbed c ev -> fw_step cf d ev = Some (d', reply) ->
  own_run q0 q d' (h ++ [(ev, reply)]) n.
Proof.
  intros q0 q d h n ev d' reply R EV UN ST. unfold own_run in *.
  replace n with (n + 0)%nat by lia. econstructor; [exact R|]. apply fs_other; assumption.
Qed.

(** *** All of them *)

(** Each knock of the list is in the run that it sees. *)
Inductive all_run (d : daemon) (h : hist) : list knock -> list knock -> list nat -> Prop :=
| ar_nil : all_run d h [] [] []
| ar_cons : forall q0 q n l0 l ns, own_run q0 q d h n -> all_run d h l0 l ns ->
    all_run d h (q0 :: l0) (q :: l) (n :: ns).

Definition all_legitimate (l0 : list knock) : Prop :=
  forall q0, In q0 l0 -> exists peer rs, legitimate mac parse_ip sc cf c q0 peer rs.

Lemma all_run_start : forall l0, all_run d0 h0 l0 l0 (repeat 0%nat (length l0)).
Proof. induction l0 as [|q l IH]; constructor; [constructor|exact IH]. Qed.

Lemma all_run_other : forall d h l0 l ns ev d' reply, all_run d h l0 l ns ->
  event_ok c d ev -> undisturbed c ev -> fw_step cf d ev = Some (d', reply) ->
  all_run d' (h ++ [(ev, reply)]) l0 l ns.
Proof.
  intros d h l0 l ns ev d' reply R EV UN ST.
  induction R; constructor; auto. eapply own_other; eassumption.
Qed.

Lemma all_run_moved : forall q0 peer rs q d h n f' l0 l ns, legitimate mac parse_ip sc cf c q0 peer rs ->
  own_run q0 q d h n -> full_step cf c 1 (Full (kn_pair q) d h (kn_request q) (kn_reply q)) f' ->
  all_run d h l0 l ns -> all_run (fu_daemon f') (fu_hist f') l0 l ns.
Proof.
  intros q0 peer rs q d h n f' l0 l ns L R ST A.
  destruct (others_do _ _ _ _ _ _ _ _ L R ST) as [(-> & ->)|(ev & reply & EV & UN & FS & ->)]; [exact A|].
  eapply all_run_other; eassumption.
Qed.

Fixpoint sum (ns : list nat) : nat := match ns with [] => 0 | n :: r => n + sum r end.

Lemma all_run_step : forall d h l1 q l2 l0 ns f', all_legitimate l0 ->
  all_run d h l0 (l1 ++ q :: l2) ns ->
  full_step cf c 1 (Full (kn_pair q) d h (kn_request q) (kn_reply q)) f' ->
  exists ns', all_run (fu_daemon f') (fu_hist f') l0 (l1 ++ alone f' :: l2) ns' /\ sum ns' = S (sum ns).
Proof.
  intros d h l1 q l2 l0 ns f' LG A ST.
  assert (exists q0 n peer rs, legitimate mac parse_ip sc cf c q0 peer rs /\ own_run q0 q d h n) as (q1 & n1 & peer & rs & L & R).
  { revert l0 ns LG A. induction l1 as [|x l1 IH]; intros l0 ns LG A; inversion A; subst.
    - destruct (LG q0 (or_introl eq_refl)) as (peer & rs & L). eauto 6.
    - eapply IH; [|eassumption]. intros y Y. apply LG. right. exact Y. }
  clear LG. revert l0 ns A. induction l1 as [|x l1 IH]; intros l0 ns A; inversion A; subst.
  - exists ((n + 1)%nat :: ns0). split; [|simpl; lia]. simpl. constructor.
    + eapply own_step; eassumption.
    + eapply all_run_moved; eassumption.
  - match goal with X : all_run _ _ _ (l1 ++ q :: l2) _ |- _ => destruct (IH _ _ X) as (ns' & A' & E) end. exists (n :: ns'). split; [|simpl; lia].
    simpl. constructor; [|exact A'].
    assert (all_run (fu_daemon f') (fu_hist f') [q0] [x] [n]) as B.
    { eapply all_run_moved; [exact L|exact R|exact ST|]. constructor; [assumption|constructor]. }
    inversion B; assumption.
Qed.

Lemma knock_steps_app : forall a b, knock_steps (a ++ b) = (knock_steps a + knock_steps b)%nat.
Proof. induction a as [|[i|] a IH]; intros b; simpl; rewrite ?IH; reflexivity. Qed.

Lemma run_all : forall tr l0 s, all_legitimate l0 -> many_steps cf c tr (Many l0 d0 h0) s ->
  exists ns, all_run (my_daemon s) (my_hist s) l0 (my_knocks s) ns /\ sum ns = knock_steps tr.
Proof.
  intros tr l0 s LG R. remember (Many l0 d0 h0) as s0 eqn:E0. induction R as [s|tr i s s1 s2 R IH ST].
  - subst s. exists (repeat 0%nat (length l0)). split; [apply all_run_start|].
    simpl. induction (length l0); auto.
  - destruct (IH E0) as (ns & A & E). destruct ST as [l1 q l2 d h f' FS|l d h ev d' reply EV UN FS].
    + destruct (all_run_step _ _ _ _ _ _ _ _ LG A FS) as (ns' & A' & E'). exists ns'.
      split; [exact A'|]. rewrite knock_steps_app. simpl. lia.
    + exists ns. split; [eapply all_run_other; eassumption|]. rewrite knock_steps_app. simpl. lia.
Qed.

Lemma all_bound : forall d h l0 l ns, all_legitimate l0 -> all_run d h l0 l ns -> clock_monotone h ->
  (sum ns <= 19 * length l0)%nat.
Proof.
  intros d h l0 l ns LG A MONO. induction A as [|q0 q n l0 l ns R A IH]; [simpl; lia|].
  destruct (LG q0 (or_introl eq_refl)) as (peer & rs & L).
  destruct (own_e2e _ _ _ _ _ _ _ L R MONO) as (B & _).
  assert (sum ns <= 19 * length l0)%nat by (apply IH; intros y Y; apply LG; right; exact Y).
  simpl. lia.
Qed.

(** The clients with their addresses and the resources they want. *)
Definition who_ok (who : list (knock * (ip * resource))) : Prop :=
  forall q0 peer rs, In (q0, (peer, rs)) who -> legitimate mac parse_ip sc cf c q0 peer rs.

Lemma who_legitimate : forall who, who_ok who -> all_legitimate (map fst who).
Proof.
  intros who W q0 J. apply in_map_iff in J. destruct J as ([q [peer rs]] & <- & J). exists peer, rs. apply W. exact J.
Qed.

(** Each is over or can go on, whatever the others have done. *)
Lemma each : forall d h who l ns, who_ok who -> all_run d h (map fst who) l ns -> clock_monotone h ->
  Forall2 (fun w q => finished cf c h0 (fst (snd w)) (snd (snd w)) (Full (kn_pair q) d h (kn_request q) (kn_reply q))
      \/ exists f', full_step cf c 1 (Full (kn_pair q) d h (kn_request q) (kn_reply q)) f'
                    /\ clock_monotone (fu_hist f')) who l.
Proof.
  intros d h who l ns W A MONO. revert l ns A. induction who as [|[q0 [peer rs]] who IH]; intros l ns A; inversion A; subst.
  - constructor.
  - constructor.
    + destruct (own_e2e q0 peer rs q d h n) as (_ & Q); auto. apply W. left. reflexivity.
    + eapply IH; [|eassumption]. intros x y z J. apply W. right. exact J.
Qed.

Lemma settle : forall (A B : Type) (P : A -> B -> Prop) (Q : B -> Prop) la lb,
  Forall2 (fun a b => P a b \/ Q b) la lb ->
  Forall2 P la lb \/ exists l1 b l2, lb = l1 ++ b :: l2 /\ Q b.
Proof.
  intros A B P Q la lb H. induction H as [|a b la lb [X|X] H IH].
  - left. constructor.
  - destruct IH as [IH|(l1 & b' & l2 & -> & Y)]; [left; constructor; assumption|].
    right. exists (b :: l1), b', l2. split; [reflexivity|exact Y].
  - right. exists [], b, lb. split; [reflexivity|exact X].
Qed.

Lemma steps_app : forall tr1 tr2 s s1 s2, many_steps cf c tr1 s s1 -> many_steps cf c tr2 s1 s2 ->
  many_steps cf c (tr1 ++ tr2) s s2.
Proof.
  intros tr1 tr2 s s1 s2 A B. induction B as [s1|tr i s1 s3 s4 B IH ST].
  - rewrite app_nil_r. exact A.
  - rewrite app_assoc. econstructor; [apply IH; exact A|exact ST].
Qed.

Lemma all_end : forall k who tr s, who_ok who -> many_steps cf c tr (Many (map fst who) d0 h0) s ->
  clock_monotone (my_hist s) -> (knock_steps tr + k = S (19 * length who))%nat ->
  exists tr' s', many_steps cf c tr' s s' /\ clock_monotone (my_hist s')
    /\ Forall2 (fun w q => finished cf c h0 (fst (snd w)) (snd (snd w)) (seen_by q s')) who (my_knocks s').
Proof.
  induction k as [|k IH]; intros who tr s W R MONO E;
    destruct (run_all tr _ s (who_legitimate who W) R) as (ns & A & EN);
    pose proof (all_bound _ _ _ _ _ (who_legitimate who W) A MONO) as B; rewrite map_length in B; [lia|].
  pose proof (each _ _ _ _ _ W A MONO) as EA. apply settle in EA.
  destruct EA as [EA|(l1 & q & l2 & EL & f' & ST & MONO')].
  - exists [], s. split; [constructor|]. split; [exact MONO|]. exact EA.
  - destruct s as [l d h]. cbn [my_knocks my_daemon my_hist] in *. subst l.
    assert (many_step cf c (Some (length l1)) (Many (l1 ++ q :: l2) d h)
              (Many (l1 ++ alone f' :: l2) (fu_daemon f') (fu_hist f'))) as MST by (constructor; exact ST).
    destruct (IH who (tr ++ [Some (length l1)]) _ W (mys_snoc _ _ _ _ _ _ _ R MST) MONO') as (tr' & s' & R' & F).
    + rewrite knock_steps_app. simpl. lia.
    + exists ([Some (length l1)] ++ tr'), s'. split; [|exact F]. eapply steps_app; [|exact R'].
      change [Some (length l1)] with ([] ++ [Some (length l1)]). econstructor; [constructor|exact MST].
Qed.

End Many.
