(** A knock over a TCP byte stream to a busy letmeind: its executions are those of
    S_Bytes.v with the accepting tasks of S_Accept.v in between. *)

From Coq Require Import String ZArith NArith List Bool Lia ZifyBool ZifyNat ZifyN.
From Verif Require Import M_Base M_Proto M_IpAddr M_FwProto M_ConfTypes M_Server M_Client M_Firewall M_Udp M_Accept
  S_Wire S_Session S_Client S_Pair S_Firewall S_E2e S_Bytes S_Accept S_Rush
  P_Base P_Udp P_Both P_Bytes P_Dgram P_Accept P_Busy.
Import ListNotations.
Local Open Scope N_scope.

Lemma connect_moves : forall p tcp a port k b, p = CConnect tcp a port k -> k b <> p.
Proof.
  induction p as [r|s m k IH|t a0 po k IH|sz k IH|m k IH|k IH]; intros tcp a port k' b E; try discriminate E.
  injection E as <- <- <- <-. intros E. exact (IH b t a0 po k b E (eq_refl _)).
Qed.

Section Rush.
Variable mac : list byte -> list byte -> list byte.
Variable sc conf : config.
Variable c : chain_name.
Variable has_udp : bool.
Variable here : sockaddr.
Variable num : N.
Hypothesis NUM : 1 <= num.

Notation sv := (server_run mac sc (sa_ip here)).

Definition se_of (name : option N) (s : streams) : option (N * sprog) := option_map (fun n => (n, sb_server s)) name.

(** The connection is where the client's program says. *)
Definition spot (acc : acceptor) (name : option N) (s : streams) : Prop :=
  place here acc (sb_client s) (se_of name s) (match sb_up s with [] => [] | u => [u] end).

(** The streams as S_Bytes.v sees them: the session is there from the beginning. *)
Definition seen (r : rush) : streams :=
  match ru_name r with None => with_session (ru_streams r) sv | Some _ => ru_streams r end.

Record inv (r : rush) : Prop := Inv {
  in_spot : spot (ru_acc r) (ru_name r) (ru_streams r);
  in_clean : clean true num (ru_acc r);
  in_none : ru_name r = None -> sb_server (ru_streams r) = no_session
              /\ sb_sout (ru_streams r) = None /\ sb_sin (ru_streams r) = []
}.

(** Without a session the streams move in the same way with any session. *)
Lemma any_session : forall i s s' p, byte_step conf c i s s' -> sb_server s = no_session ->
  sb_sout s = None -> sb_sin s = [] ->
  byte_step conf c i (with_session s p) (with_session s' p)
  /\ sb_server s' = no_session /\ sb_sout s' = None /\ sb_sin s' = [].
Proof.
  intros i s s' p ST E O I. inversion ST; subst; cbn in E, O, I; try discriminate E; subst;
    (split; [cbn; econstructor; eassumption|cbn; auto]).
Qed.

Lemma step_place : forall acc name i s s', byte_step conf c i s s' ->
  (connecting (sb_client s) = true -> sb_client s' = sb_client s) ->
  (name = None -> sb_server s = no_session /\ sb_sout s = None /\ sb_sin s = []) ->
  spot acc name s -> spot acc name s'.
Proof.
  intros acc name i s s' ST NC NN P. unfold spot, se_of in *.
  assert (TALK : forall cl' up', (talks (sb_client s) -> talks cl') -> (dials (sb_client s) -> False) ->
    sb_server s' = sb_server s ->
    place here acc cl' (option_map (fun n => (n, sb_server s')) name) up').
  { intros cl' up' T D ->. eapply place_talk; eassumption. }
  assert (SESS : forall up', sb_client s' = sb_client s -> sb_server s <> no_session ->
    place here acc (sb_client s') (option_map (fun n => (n, sb_server s')) name) up').
  { intros up' -> N. destruct name as [n|]; [|destruct (NN eq_refl); congruence]. cbn in *. eapply place_session. exact P. }
  inversion ST; subst; cbn [sb_client sb_server sb_up sb_cout] in *; try exact P;
    try (apply TALK; [intros T; inversion T; subst; solve [auto]|intros D; solve [inversion D]|reflexivity]);
    try (apply SESS; [reflexivity|discriminate]).
  - inversion P as [cl0 D NI|cl0 up0 x y T|cl0 n p0 up0 T]; subst; [|inversion T|inversion T].
    apply pl_before; [inversion D; auto|exact NI].
  - exfalso. specialize (NC eq_refl). eapply connect_moves; [reflexivity|exact NC].
Qed.

Lemma inv_step : forall i r r', rush_step mac sc conf c has_udp here i r r' -> inv r ->
  byte_steps conf c i (seen r) (seen r') /\ inv r'.
Proof.
  assert (ONE : forall i s s', byte_step conf c i s s' -> byte_steps conf c i s s').
  { intros i s s' H. change i with (0 + i)%nat. econstructor; [constructor|exact H]. }
  intros i r r' ST [P CL NN].
  inversion ST as [acc name s s' a port k acc' EC BS EC' AS|acc name j s s' BS NC|acc s ev acc' name AS SS|acc name s ev acc' AS NS OE];
    subst; clear ST; cbn [ru_acc ru_name ru_streams] in *.
  - (* connect *)
    assert (X : spot acc' name s').
    { pose proof (head_step _ _ _ _ _ AS Logic.I) as HS.
      destruct HS as [(a0 & _ & X & _)|(_ & W & l & S)]; [discriminate|].
      unfold spot, se_of in *. rewrite EC' in *. rewrite EC in P.
      inversion P as [cl0 D NI EN|cl0 up0 x y T|cl0 n p0 up0 T]; subst; [|inversion T|inversion T].
      destruct name as [n|]; [discriminate|]. inversion D; subst. cbn in *. eapply pl_queue; [auto|exact W|exact NI|intros []]. }
    split.
    + apply ONE. unfold seen. cbn. destruct name; [exact BS|]. destruct (NN eq_refl) as (A & B & C). apply any_session; assumption.
    + constructor; cbn; [exact X|exact (clean_step _ _ _ _ (AeArrive here) _ CL Logic.I AS)|].
      intros ->. destruct (NN eq_refl) as (A & B & C). apply (any_session _ _ _ sv BS A B C).
  - (* a step on the streams *)
    split.
    + apply ONE. unfold seen. cbn. destruct name; [exact BS|]. destruct (NN eq_refl) as (A & B & C). apply any_session; assumption.
    + constructor; cbn; [exact (step_place _ _ _ _ _ BS NC NN P)|exact CL|].
      intros ->. destruct (NN eq_refl) as (A & B & C). apply (any_session _ _ _ sv BS A B C).
  - (* start *)
    destruct SS as (PC & ->).
    assert (OE : others_event here (se_of name s) AeTask) by (split; exact Logic.I).
    pose proof (place_step mac sc has_udp here num NUM _ _ _ _ _ _ P AS OE) as P'. unfold new_session in P'. rewrite PC, sa_eqb_refl in P'.
    assert (name = None) as ->.
    { destruct name as [n|]; [|reflexivity]. exfalso. unfold spot in P. cbn in P. inversion P as [| |cl0 n0 p0 up0 T NI NT]; subst.
      apply NI. unfold waiting_tcp, in_hand. rewrite PC. cbn. left. reflexivity. }
    split; [unfold seen; cbn; constructor|]. constructor; cbn; [exact P'|exact (clean_step _ _ _ _ _ _ CL (proj1 OE) AS)|discriminate].
  - (* accepting *)
    pose proof (place_step mac sc has_udp here num NUM _ _ _ _ _ _ P AS OE) as P'.
    assert (EN : new_session mac sc here acc ev (se_of name s) = se_of name s).
    { unfold new_session. destruct (ac_pc acc) as [| |[[|] a]| |] eqn:PC; try reflexivity. destruct ev; try reflexivity.
      destruct (sa_eqb a here) eqn:EA; [|reflexivity]. apply sa_eqb_spec in EA. subst a. exfalso. apply NS. split; [exact PC|reflexivity]. }
    unfold se_of in P' at 1. fold (se_of name s) in P'. rewrite EN in P'.
    split; [unfold seen; cbn; constructor|]. constructor; cbn; [exact P'|exact (clean_step _ _ _ _ _ _ CL (proj1 OE) AS)|exact NN].
Qed.

Lemma bytes_more : forall n m s s1 s2, byte_steps conf c n s s1 -> byte_steps conf c m s1 s2 -> byte_steps conf c (n + m) s s2.
Proof.
  intros n m s s1 s2 A B. induction B as [s1|m i s1 s3 s4 B IH ST].
  - rewrite Nat.add_0_r. exact A.
  - rewrite Nat.add_assoc. econstructor; [apply IH; exact A|exact ST].
Qed.

Lemma inv_run : forall n r r', rush_steps mac sc conf c has_udp here n r r' -> inv r ->
  byte_steps conf c n (seen r) (seen r') /\ inv r'.
Proof.
  intros n r r' R. induction R as [r|n i r r1 r2 R IH ST]; intros V; [split; [constructor|exact V]|].
  destruct (IH V) as (B & V1). destruct (inv_step _ _ _ ST V1) as (B2 & V2). split; [eapply bytes_more; eassumption|exact V2].
Qed.

(** If the streams can go on, so can this knock, or its connection waits in letmeind. *)
Lemma rush_go : forall r s', inv r -> byte_step conf c 1 (seen r) s' ->
  (exists r', rush_step mac sc conf c has_udp here 1 r r' /\ sb_hist (ru_streams r') = sb_hist s')
  \/ (ru_name r = None /\ In here (waiting_tcp (ru_acc r))).
Proof.
  intros [acc name s] s' [P CL NN] ST. cbn in P, CL, NN.
  assert (GO : forall s1, byte_step conf c 1 s s1 ->
    exists r', rush_step mac sc conf c has_udp here 1 (Rush acc name s) r' /\ sb_hist (ru_streams r') = sb_hist s1).
  { intros s1 B. destruct (connecting (sb_client s)) eqn:EC.
    - destruct (sb_client s) as [| |tcp a port k| | |] eqn:EK; try discriminate EC.
      assert (D : sb_client s1 = CConnect tcp a port k \/ sb_client s1 = k true).
      { inversion B; subst; cbn in EK |- *; try discriminate EK; auto; right; congruence. }
      destruct D as [D|D].
      + eexists. split; [apply rs_stream; [exact B|intros _; rewrite EK; exact D]|reflexivity].
      + assert (tcp = true) as ->.
        { unfold spot in P. rewrite EK in P.
          inversion P as [cl0 D0 NI|cl0 up0 x y T|cl0 n p0 up0 T]; subst; [|inversion T|inversion T]. inversion D0; reflexivity. }
        eexists. split; [eapply rs_connect; [exact EK|exact B|exact D|]; unfold astep; rewrite (cl_exit _ _ _ CL); reflexivity|reflexivity].
    - eexists. split; [apply rs_stream; [exact B|intros X; rewrite EC in X; discriminate X]|reflexivity]. }
  unfold seen in ST. cbn in ST. destruct name as [n|]; [left; apply GO; exact ST|].
  destruct (NN eq_refl) as (A & B & C).
  destruct s as [cl co ci p so si d h do_ di up dn rq rp]. cbn in A, B, C. subst p so si. unfold with_session in ST. cbn in ST.
  inversion ST; subst.
  all: try (match goal with H : _ = server_run _ _ _ |- _ => unfold server_run, recv_msg in H; discriminate H end).
  all: try (match goal with H : server_run _ _ _ = _ |- _ => unfold server_run, recv_msg in H; discriminate H end).
  all: try (left; match goal with |- exists r', _ /\ _ = sb_hist (Streams ?cl ?co ?ci _ ?so ?si ?d ?h ?o ?i ?u ?dn ?q ?p) =>
         edestruct (GO (Streams cl co ci no_session so si d h o i u dn q p)) as (r' & R & E);
           [econstructor; eassumption|exists r'; split; [exact R|exact E]] end).
  (* the session would read what the client has sent *)
  all: right; split; [reflexivity|]; unfold spot in P; cbn in P |- *;
    inversion P as [clq Dq NIq ENq|clq upq xq yq Tq Eq|]; subst;
    [match goal with H : [] = match ?l with [] => _ | _ => _ end |- _ => destruct l eqn:EL; [|discriminate] end;
     match goal with H : ?x <> [], E : ?x ++ _ = [] |- _ => destruct x; [contradiction|discriminate E] end
    |rewrite Eq; apply in_or_app; right; left; reflexivity].
Qed.

(** A waiting connection gets its session. *)
Lemma own_rush : forall h acc acc' s, Forall own_step h -> arun true has_udp acc h = Some acc' ->
  In here (waiting_tcp acc) ->
  (rush_steps mac sc conf c has_udp here 0 (Rush acc None s) (Rush acc' None s) /\ In here (waiting_tcp acc'))
  \/ exists n, rush_steps mac sc conf c has_udp here 0 (Rush acc None s) (Rush acc' (Some n) (with_session s sv)).
Proof.
  induction h as [|ev h IH] using rev_ind; intros acc acc' s F R W.
  - injection R as <-. left. split; [constructor|exact W].
  - apply arun_snoc in R. destruct R as (a1 & R & ST). apply Forall_app in F. destruct F as (F & G). inversion G as [|? ? OW]; subst.
    pose proof (own_no_failure _ OW) as NF.
    assert (D : starts a1 ev here \/ ~ starts a1 ev here).
    { unfold starts. destruct (ac_pc a1) as [| |[[|] a]| |]; try (right; intros (X & _); discriminate X).
      destruct ev; try (right; intros (_ & X); discriminate X).
      destruct (sa_eqb a here) eqn:EA; [apply sa_eqb_spec in EA; subst a; left; auto|].
      right. intros (X & _). injection X as ->. rewrite sa_eqb_refl in EA. discriminate. }
    assert (OE : forall se, others_event here se ev).
    { intros se. split; [exact NF|]. destruct ev; cbn in *; auto; contradiction. }
    destruct (IH acc a1 s F R W) as [(B & W1)|(n & B)]; destruct D as [D|D].
    + right. eexists. change 0%nat with (0 + 0)%nat. econstructor; [exact B|]. eapply rs_start; eassumption.
    + left. split; [change 0%nat with (0 + 0)%nat; econstructor; [exact B|]; eapply rs_accept; [exact ST|exact D|apply OE]|].
      destruct (head_step _ _ _ _ _ ST NF) as [(a & PC & -> & E & _)|(_ & E & _)].
      * rewrite E in W1. destruct W1 as [->|W1]; [|exact W1]. exfalso. apply D. split; [exact PC|reflexivity].
      * rewrite E. apply in_or_app. auto.
    + right. eexists. change 0%nat with (0 + 0)%nat. econstructor; [exact B|].
      match goal with |- rush_step _ _ _ _ _ _ _ _ (Rush _ _ ?x) => change x with (with_session (with_session s sv) sv) end.
      eapply rs_start; eassumption.
    + right. exists n. change 0%nat with (0 + 0)%nat. econstructor; [exact B|]. eapply rs_accept; [exact ST|exact D|apply OE].
Qed.

Lemma rush_gets_session : forall acc s, clean true num acc -> In here (waiting_tcp acc) ->
  (exists ev acc', own_step ev /\ astep true has_udp acc ev = Some acc')
  /\ exists acc' n, rush_steps mac sc conf c has_udp here 0 (Rush acc None s) (Rush acc' (Some n) (with_session s sv)).
Proof.
  intros acc s CL W. split.
  - apply (not_stuck true has_udp num acc CL NUM). intros Z. destruct (weightless _ _ _ CL Z) as (X & _). rewrite X in W. destruct W.
  - destruct (drain true has_udp num _ acc CL NUM eq_refl) as (h & acc' & F & R & WT & _).
    destruct (own_rush h acc acc' s F R W) as [(_ & X)|(n & B)]; [rewrite WT in X; destruct X|]. exists acc', n. exact B.
Qed.

Lemma rush_more : forall n m s s1 s2, rush_steps mac sc conf c has_udp here n s s1 -> rush_steps mac sc conf c has_udp here m s1 s2 ->
  rush_steps mac sc conf c has_udp here (n + m) s s2.
Proof.
  intros n m s s1 s2 A B. induction B as [s1|m i s1 s3 s4 B IH ST].
  - rewrite Nat.add_0_r. exact A.
  - rewrite Nat.add_assoc. econstructor; [apply IH; exact A|exact ST].
Qed.

End Rush.
