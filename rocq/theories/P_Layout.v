(** Proofs about the layout of a configuration file (C100). *)

From Coq Require Import String ZArith NArith List Bool Lia Permutation Relations.
From Verif Require Import M_Base M_ConfTypes M_Text M_Conf M_Str S_Wire S_Text S_Conf
  P_Base P_Text P_Str P_Ini P_Gen P_Conf P_Load P_ConfLoad P_Files S_Files S_Layout.
Import ListNotations.
Local Open Scope N_scope.

(** *** White space *)
Lemma respaced_iff : forall t t', respaced t t' <-> trim t = trim t'.
Proof.
  intros t t'. split.
  - intros (b & P & P'). apply padded_trim in P, P'. congruence.
  - intros E. exists (trim t). split; [apply trim_padded|rewrite E; apply trim_padded].
Qed.
Lemma respaced_refl : forall t, respaced t t.
Proof. intros. apply respaced_iff. reflexivity. Qed.
Lemma respaced_sym : forall t t', respaced t t' -> respaced t' t.
Proof. intros t t' R. apply respaced_iff in R. apply respaced_iff. auto. Qed.
Lemma respaced_trans : forall a b c, respaced a b -> respaced b c -> respaced a c.
Proof. intros a b c R S. apply respaced_iff in R, S. apply respaced_iff. congruence. Qed.
Lemma respaced_around : forall a x b, blank a -> blank b -> respaced x (a ++ x ++ b).
Proof.
  intros a x b A B. apply respaced_iff. unfold trim. symmetry.
  rewrite trim_start_blank by exact A.
  destruct (trim_start_spec x) as (w & E & BW & H).
  assert (X : trim_start (x ++ b) = trim_start (trim_start x ++ b)).
  { rewrite E at 1. rewrite <- app_assoc. apply trim_start_blank. exact BW. }
  rewrite X. destruct (trim_start x) as [|c r].
  - simpl. rewrite <- (app_nil_r b). rewrite trim_start_blank by exact B. reflexivity.
  - assert (N : ~ white_space c) by (eapply H; eauto).
    rewrite trim_start_tight by (intros d s [= <- _]; exact N). apply trim_end_blank. exact B.
Qed.
Lemma respaced_padded : forall t t' b, respaced t t' -> padded t b -> padded t' b.
Proof. intros t t' b R P. apply respaced_iff in R. apply padded_trim in P. apply padded_trim. congruence. Qed.

Lemma not_in_blank : forall a c, blank a -> ~ white_space c -> ~ In c a.
Proof. intros a c B N I. apply N, B, I. Qed.

Lemma cut_left : forall (c : N) a t k v, ~ In c a -> a ++ t = k ++ c :: v -> exists k0, k = a ++ k0 /\ t = k0 ++ c :: v.
Proof.
  intros c a. induction a as [|x a IH]; intros t k v N E; simpl in *; [exists k; auto|].
  destruct k as [|y k]; simpl in E; injection E as -> E; [exfalso; apply N; auto|].
  destruct (IH _ _ _ (fun I => N (or_intror I)) E) as (k0 & -> & ->). exists k0. auto.
Qed.
Lemma cut_right : forall (c : N) b t k v, ~ In c b -> t ++ b = k ++ c :: v -> exists v0, v = v0 ++ b /\ t = k ++ c :: v0.
Proof.
  intros c b t k. revert t. induction k as [|y k IH]; intros t v N E; simpl in *.
  - destruct t as [|x t]; simpl in E.
    + exfalso. apply N. rewrite E. left. reflexivity.
    + injection E as -> <-. exists t. auto.
  - destruct t as [|x t]; simpl in E.
    + exfalso. apply N. rewrite E. right. apply in_or_app. right. left. reflexivity.
    + injection E as -> E. destruct (IH _ _ N E) as (v0 & -> & ->). exists v0. auto.
Qed.
Lemma cut_respaced : forall c t t' k v, ~ white_space c -> respaced t t' -> t = k ++ c :: v -> ~ In c k ->
  exists k' v', t' = k' ++ c :: v' /\ ~ In c k' /\ respaced k k' /\ respaced v v'.
Proof.
  intros c t t' k v NW (body & (a & b & -> & BA & BB & _) & (a' & b' & -> & BA' & BB' & _)) E N.
  destruct (cut_left _ _ _ _ _ (not_in_blank _ _ BA NW) E) as (k0 & -> & E2).
  destruct (cut_right _ _ _ _ _ (not_in_blank _ _ BB NW) E2) as (v0 & -> & ->).
  assert (BN : blank []) by (intros ? []).
  exists (a' ++ k0), (v0 ++ b'). split; [rewrite <- !app_assoc; reflexivity|].
  split; [|split].
  - intros I. apply in_app_or in I. destruct I as [I|I]; [exact (not_in_blank _ _ BA' NW I)|].
    apply N, in_or_app. auto.
  - eapply respaced_trans; [apply respaced_sym|].
    + pose proof (respaced_around a k0 [] BA BN) as R. rewrite app_nil_r in R. exact R.
    + pose proof (respaced_around a' k0 [] BA' BN) as R. rewrite app_nil_r in R. exact R.
  - eapply respaced_trans; [apply respaced_sym; exact (respaced_around [] v0 b BN BB)|exact (respaced_around [] v0 b' BN BB')].
Qed.
Lemma in_respaced : forall c t t', ~ white_space c -> respaced t t' -> ~ In c t -> ~ In c t'.
Proof.
  intros c t t' NW (body & (a & b & -> & BA & BB & _) & (a' & b' & -> & BA' & BB' & _)) N I.
  apply N. apply in_app_or in I. destruct I as [I|I]; [exfalso; exact (not_in_blank _ _ BA' NW I)|].
  apply in_app_or in I. destruct I as [I|I]; [|exfalso; exact (not_in_blank _ _ BB' NW I)].
  apply in_or_app. right. apply in_or_app. auto.
Qed.

Lemma separated_respaced : forall sep, ~ white_space sep -> forall l t t', separated sep t l -> respaced t t' ->
  exists l', separated sep t' l' /\ Forall2 respaced l l'.
Proof.
  intros sep NW l. induction l as [|x l IH]; intros t t' (NE & NS & E) R; [congruence|].
  destruct l as [|y l].
  - simpl in E. subst t. exists [t']. split; [|constructor; [exact R|constructor]].
    split; [discriminate|]. split; [|reflexivity]. intros z [<-|[]]. apply (in_respaced _ _ _ NW R). apply NS. left. reflexivity.
  - change (join sep (x :: y :: l)) with (x ++ sep :: join sep (y :: l)) in E.
    destruct (cut_respaced _ _ _ _ _ NW R E (NS x (or_introl eq_refl))) as (k' & v' & -> & NK & RK & RV).
    destruct (IH (join sep (y :: l)) v') as (l' & (NE' & NS' & ->) & F); [|exact RV|].
    { split; [discriminate|]. split; [|reflexivity]. intros z I. apply NS. right. exact I. }
    exists (k' :: l'). split; [|constructor; assumption]. split; [discriminate|]. split.
    + intros z [<-|I]; auto.
    + destruct l'; [congruence|reflexivity].
Qed.

Ltac nw := let X := fresh in intros X; repeat (destruct X as [X|X]; [discriminate X|]); exact X.
Lemma nw_slash : ~ white_space 47. Proof. nw. Qed.
Lemma nw_comma : ~ white_space 44. Proof. nw. Qed.
Lemma nw_colon : ~ white_space 58. Proof. nw. Qed.

(** *** Values *)
Definition blind {A : Type} (means : text -> A -> Prop) : Prop :=
  forall t t' x, respaced t t' -> means t x -> means t' x.

Lemma blind_forall2 : forall (A : Type) (means : text -> A -> Prop), blind means ->
  forall l l' xs, Forall2 respaced l l' -> Forall2 means l xs -> Forall2 means l' xs.
Proof.
  intros A means B l l' xs F. revert xs. induction F as [|t t' l l' R F IH]; intros xs M; inversion M; subst; constructor; eauto.
Qed.
Lemma blind_padded : blind padded.
Proof. intros t t' x R P. eapply respaced_padded; eauto. Qed.
Lemma blind_id : blind id_text.
Proof. intros t t' x R (b & P & Q). exists b. split; [eapply respaced_padded; eauto|exact Q]. Qed.
Lemma blind_int : forall n, blind (int_text n).
Proof. intros n t t' x R (b & P & Q). exists b. split; [eapply respaced_padded; eauto|exact Q]. Qed.
Lemma blind_plain : forall n, blind (plain_int_text n).
Proof. intros n t t' x R (b & P & Q). exists b. split; [eapply respaced_padded; eauto|exact Q]. Qed.
Lemma blind_word : forall w t t', respaced t t' -> word_is w t -> word_is w t'.
Proof. intros w t t' R (b & P & Q). exists b. split; [eapply respaced_padded; eauto|exact Q]. Qed.
Lemma blind_bool : blind bool_text.
Proof.
  intros t t' [] R M; cbn [bool_text] in *; repeat (destruct M as [M|M]; [left; eapply blind_word; eauto|right]);
  eapply blind_word; eauto.
Qed.
Lemma blind_policy : blind policy_text.
Proof. intros t t' [] R M; eapply blind_word; eauto. Qed.
Lemma blind_seccomp : blind seccomp_text.
Proof. intros t t' [] R M; eapply blind_word; eauto. Qed.
Lemma blind_family : blind family_text.
Proof. intros t t' x R (P & Q). split; [eapply respaced_padded; eauto|exact Q]. Qed.
Lemma blind_key : blind key_text.
Proof. intros t t' x R (b & P & Q). exists b. split; [eapply respaced_padded; eauto|exact Q]. Qed.
Lemma blind_duration : forall f, blind (duration_text f).
Proof.
  intros f t t' x R [(s & I & E)|(N & b & P & Q)].
  - left. exists s. split; [eapply blind_int; eauto|exact E].
  - right. split; [|exists b; split; [eapply respaced_padded; eauto|exact Q]].
    intros s I. apply (N s). eapply blind_int; [apply respaced_sym; exact R|exact I].
Qed.
Lemma blind_transport : blind transport_word.
Proof. intros t t' [] R M; eapply blind_word; eauto. Qed.
Lemma blind_transports : blind transports_text.
Proof.
  intros t t' x R (ws & S & F). destruct (separated_respaced _ nw_comma _ _ _ S R) as (ws' & S' & F').
  exists ws'. split; [exact S'|]. eapply blind_forall2; eauto. exact blind_transport.
Qed.
Lemma keyed_respaced : forall t t' key v, respaced t t' -> keyed t key v -> exists v', keyed t' key v' /\ respaced v v'.
Proof.
  intros t t' key v R (k & E & N & P). destruct (cut_respaced _ _ _ _ _ nw_colon R E N) as (k' & v' & E' & N' & RK & RV).
  exists v'. split; [|exact RV]. exists k'. split; [exact E'|]. split; [exact N'|]. eapply respaced_padded; eauto.
Qed.
Lemma blind_part : blind part_text.
Proof.
  intros t t' [n|ids|l] R M; cbn [part_text] in *.
  - destruct M as (v & K & I). destruct (keyed_respaced _ _ _ _ R K) as (v' & K' & RV). exists v'.
    split; [exact K'|eapply blind_int; eauto].
  - destruct M as (v & us & K & S & F). destruct (keyed_respaced _ _ _ _ R K) as (v' & K' & RV).
    destruct (separated_respaced _ nw_comma _ _ _ S RV) as (us' & S' & F'). exists v', us'.
    split; [exact K'|]. split; [exact S'|]. eapply blind_forall2; eauto. exact blind_id.
  - destruct M as (N & T). split; [exact (in_respaced _ _ _ nw_colon R N)|eapply blind_transports; eauto].
Qed.
Lemma blind_resource : blind resource_text.
Proof.
  intros t t' r R (ts & ps & S & F & Q). destruct (separated_respaced _ nw_slash _ _ _ S R) as (ts' & S' & F').
  exists ts', ps. split; [exact S'|]. split; [|exact Q]. eapply blind_forall2; eauto. exact blind_part.
Qed.
Lemma blind_port_part : blind port_part_text.
Proof.
  intros t t' p R (N & M). split; [exact (in_respaced _ _ _ nw_colon R N)|]. destruct p.
  - destruct M as (N2 & M). split; [exact (in_respaced _ _ _ nw_comma R N2)|eapply blind_plain; eauto].
  - eapply blind_transports; eauto.
Qed.
Lemma blind_control : blind control_port_text.
Proof.
  intros t t' r R (ts & ps & S & F & Q). destruct (separated_respaced _ nw_slash _ _ _ S R) as (ts' & S' & F').
  exists ts', ps. split; [exact S'|]. split; [|exact Q]. eapply blind_forall2; eauto. exact blind_port_part.
Qed.

(** *** The parser *)
Definition isim (i j : ini) : Prop :=
  (forall s, sget i s = None <-> sget j s = None)
  /\ forall s k v, ini_get i s k = Some v -> exists v', ini_get j s k = Some v' /\ respaced v v'.
Lemma isim_refl : forall i, isim i i.
Proof. intros i. split; [tauto|]. intros s k v E. exists v. split; [exact E|apply respaced_refl]. Qed.
Lemma isim_trans : forall a b c, isim a b -> isim b c -> isim a c.
Proof.
  intros a b c (D1 & G1) (D2 & G2). split; [intros s; rewrite D1; apply D2|].
  intros s k v E. destruct (G1 _ _ _ E) as (v1 & E1 & R1). destruct (G2 _ _ _ E1) as (v2 & E2 & R2).
  exists v2. split; [exact E2|]. eapply respaced_trans; eauto.
Qed.
Lemma isim_eq : forall i j, (forall s, sget i s = sget j s) -> isim i j.
Proof.
  intros i j H. split; [intros s; rewrite H; tauto|]. intros s k v. unfold ini_get. rewrite H. intros E.
  exists v. split; [exact E|apply respaced_refl].
Qed.

Definition clsim (l l' : text) : Prop :=
  match classify l, classify l' with
  | LIgn, LIgn | LBad, _ => True
  | LHead n, LHead n' => n = n'
  | LOpt n v, LOpt n' v' => n = n' /\ respaced v v'
  | _, _ => False
  end.
Lemma clsim_refl : forall l, clsim l l.
Proof. intros l. unfold clsim. destruct (classify l); auto. split; [reflexivity|apply respaced_refl]. Qed.

Lemma line_sim : forall i j c l l' i' c', isim i j -> clsim l l' -> parse_line i c l = Ok (i', c') ->
  exists j', parse_line j c l' = Ok (j', c') /\ isim i' j'.
Proof.
  intros i j c l l' i' c' (D & G) CS E. unfold clsim in CS.
  pose proof (parse_line_class i c l) as P. pose proof (parse_line_class j c l') as P'.
  destruct (classify l) as [|n|n v|].
  - destruct (classify l'); try contradiction. rewrite E in P. injection P as -> ->. exists j. split; [exact P'|split; assumption].
  - destruct (classify l') as [|n'| |]; try contradiction. subst n'. destruct n as [|x n].
    { destruct P as (e & P). congruence. }
    destruct (sget i (x :: n)) eqn:GI; [destruct P as (e & P); congruence|].
    apply D in GI. rewrite GI in P'. rewrite E in P. injection P as -> ->. exists (sset j (x :: n) []). split; [exact P'|].
    split.
    + intros s. rewrite !sget_set. destruct (list_eqb (x :: n) s); [split; discriminate|apply D].
    + intros s k w. unfold ini_get. rewrite !sget_set. destruct (list_eqb (x :: n) s); [discriminate|apply G].
  - destruct (classify l') as [| |n' v'|]; try contradiction. destruct CS as (<- & R).
    destruct c as [c|]; [|destruct P as (e & P); congruence].
    destruct (sget i c) as [o|] eqn:GI; [|congruence]. destruct (sget j c) as [o'|] eqn:GJ.
    2:{ apply D in GJ. congruence. }
    rewrite E in P. injection P as -> ->. exists (sset j c (oset o' n v')). split; [exact P'|]. split.
    + intros s. rewrite !sget_set. destruct (list_eqb c s); [split; discriminate|apply D].
    + intros s k w. unfold ini_get. rewrite !sget_set. destruct (list_eqb c s) eqn:ES; [|apply G].
      rewrite !oget_set. destruct (list_eqb n k); [intros [= <-]; exists v'; auto|].
      intros E2. specialize (G c k w). unfold ini_get in G. rewrite GI, GJ in G. auto.
  - destruct P as (e & P). congruence.
Qed.
Lemma steps_sim : forall ls ls', Forall2 clsim ls ls' -> forall i j c i' c', isim i j -> steps i c ls = Ok (i', c') ->
  exists j', steps j c ls' = Ok (j', c') /\ isim i' j'.
Proof.
  intros ls ls' F. induction F as [|l l' ls ls' CS F IH]; intros i j c i' c' S E; simpl in *.
  - injection E as <- <-. exists j. auto.
  - destruct (parse_line i c l) as [[i1 c1]| |] eqn:P; try discriminate.
    destruct (line_sim _ _ _ _ _ _ _ S CS P) as (j1 & -> & S1). cbn [bind fst snd] in *. eapply IH; eauto.
Qed.
Lemma steps_sim_refl : forall ls i j c i' c', isim i j -> steps i c ls = Ok (i', c') ->
  exists j', steps j c ls = Ok (j', c') /\ isim i' j'.
Proof. intros ls. apply steps_sim. induction ls; constructor; auto. apply clsim_refl. Qed.

(** What follows a section does not depend on which one it was. *)
Lemma steps_end : forall b i c d r, section_ends b -> steps i c b = Ok r -> exists d', steps i d b = Ok (fst r, d').
Proof.
  intros b i c d r [->|(h & n & b' & -> & H)] E.
  - injection E as <-. eexists. reflexivity.
  - simpl in *. apply class_head in H. pose proof (parse_line_class i c h) as P. pose proof (parse_line_class i d h) as P'.
    rewrite H in P, P'. destruct n as [|x n]; [destruct P as (e & P); rewrite P in E; discriminate|].
    destruct (sget i (x :: n)); [destruct P as (e & P); rewrite P in E; discriminate|]. rewrite P in E. rewrite P'.
    exists (snd r). rewrite E. destruct r; reflexivity.
Qed.

Definition upd (i j : ini) (n : text) (o : list (text * text)) : Prop :=
  forall k, sget j k = if list_eqb n k then Some o else sget i k.
Lemma body_steps : forall body n, (forall m k, In m body -> ~ header_line m k) ->
  forall i o i' c', sget i n = Some o -> steps i (Some n) body = Ok (i', c') ->
  exists o', c' = Some n /\ upd i i' n o'
  /\ forall j, sget j n = Some o -> exists j', steps j (Some n) body = Ok (j', Some n) /\ upd j j' n o'.
Proof.
  induction body as [|l body IH]; intros n NH i o i' c' G E; simpl in E.
  - injection E as <- <-. exists o. split; [reflexivity|].
    assert (U : forall j, sget j n = Some o -> upd j j n o).
    { intros j GJ k. destruct (list_eqb n k) eqn:X; [|reflexivity]. apply list_eqb_spec in X. subst k. exact GJ. }
    split; [auto|]. intros j GJ. exists j. split; [reflexivity|auto].
  - destruct (parse_line i (Some n) l) as [[i1 c1]| |] eqn:P; try discriminate. cbn [bind fst snd] in E.
    assert (NHB : forall m k, In m body -> ~ header_line m k) by (intros m k I; apply NH; right; exact I).
    pose proof (parse_line_class i (Some n) l) as PC. destruct (classify l) as [|m|m v|] eqn:CL.
    + rewrite P in PC. injection PC as -> ->. destruct (IH n NHB _ _ _ _ G E) as (o' & -> & U & J). exists o'.
      split; [reflexivity|]. split; [exact U|]. intros j GJ. simpl. pose proof (parse_line_class j (Some n) l) as PJ.
      rewrite CL in PJ. rewrite PJ. cbn [bind fst snd]. auto.
    + exfalso. apply (NH l m (or_introl eq_refl)). apply class_head. exact CL.
    + rewrite G, P in PC. injection PC as -> ->.
      assert (G1 : sget (sset i n (oset o m v)) n = Some (oset o m v)) by (rewrite sget_set, list_eqb_refl; reflexivity).
      destruct (IH n NHB _ _ _ _ G1 E) as (o' & -> & U & J). exists o'. split; [reflexivity|]. split.
      * intros k. rewrite U, sget_set. destruct (list_eqb n k); reflexivity.
      * intros j GJ. simpl. pose proof (parse_line_class j (Some n) l) as PJ. rewrite CL, GJ in PJ. rewrite PJ. cbn [bind fst snd].
        destruct (J (sset j n (oset o m v))) as (j' & E' & U'); [rewrite sget_set, list_eqb_refl; reflexivity|].
        exists j'. split; [exact E'|]. intros k. rewrite U', sget_set. destruct (list_eqb n k); reflexivity.
    + destruct PC as (e & PC). congruence.
Qed.
Lemma section_steps : forall s i c i' c', section_lines s -> steps i c s = Ok (i', c') ->
  exists n o, sget i n = None /\ upd i i' n o
  /\ forall j d, sget j n = None -> exists j' d', steps j d s = Ok (j', d') /\ upd j j' n o.
Proof.
  intros s i c i' c' (h & n & body & -> & H & NH) E. simpl in E. apply class_head in H.
  pose proof (parse_line_class i c h) as P. rewrite H in P.
  destruct n as [|x n]; [destruct P as (e & P); rewrite P in E; discriminate|]. set (nm := x :: n) in *.
  destruct (sget i nm) eqn:G; [destruct P as (e & P); rewrite P in E; discriminate|]. rewrite P in E. cbn [bind fst snd] in E.
  assert (G1 : sget (sset i nm []) nm = Some []) by (rewrite sget_set, list_eqb_refl; reflexivity).
  destruct (body_steps body nm NH _ _ _ _ G1 E) as (o & -> & U & J). exists nm, o. split; [exact G|]. split.
  - intros k. rewrite U, sget_set. destruct (list_eqb nm k); reflexivity.
  - intros j d GJ. simpl. pose proof (parse_line_class j d h) as PJ. rewrite H in PJ. fold nm in PJ. cbv beta iota in PJ.
    change (match nm with [] => exists e, parse_line j d h = Err e | _ :: _ => match sget j nm with
       | Some _ => exists e, parse_line j d h = Err e | None => parse_line j d h = Ok (sset j nm [], Some nm) end end) in PJ.
    unfold nm in PJ at 1. rewrite GJ in PJ. rewrite PJ. cbn [bind fst snd].
    destruct (J (sset j nm [])) as (j' & E' & U'); [rewrite sget_set, list_eqb_refl; reflexivity|].
    exists j', (Some nm). split; [exact E'|]. intros k. rewrite U', sget_set. destruct (list_eqb nm k); reflexivity.
Qed.
Lemma swap_sections : forall s s' b i c r, section_lines s -> section_lines s' -> section_ends b ->
  steps i c (s ++ s' ++ b) = Ok r -> exists j d, steps i c (s' ++ s ++ b) = Ok (j, d) /\ isim (fst r) j.
Proof.
  intros s s' b i c r S1 S2 SE E. rewrite !steps_app in E.
  destruct (steps i c s) as [[i1 c1]| |] eqn:E1; try discriminate. cbn [bind fst snd] in E. rewrite steps_app in E.
  destruct (steps i1 c1 s') as [[i2 c2]| |] eqn:E2; try discriminate. cbn [bind fst snd] in E.
  destruct (section_steps _ _ _ _ _ S1 E1) as (n1 & o1 & G1 & U1 & J1).
  destruct (section_steps _ _ _ _ _ S2 E2) as (n2 & o2 & G2 & U2 & J2).
  rewrite U1 in G2. destruct (list_eqb n1 n2) eqn:NE; [discriminate|].
  destruct (J2 i c G2) as (j1 & d1 & F1 & V1).
  assert (NE2 : list_eqb n2 n1 = false).
  { destruct (list_eqb n2 n1) eqn:X; [|reflexivity]. apply list_eqb_spec in X. subst. rewrite list_eqb_refl in NE. discriminate. }
  destruct (J1 j1 d1) as (j2 & d2 & F2 & V2); [rewrite V1, NE2; exact G1|].
  rewrite !steps_app, F1. cbn [bind fst snd]. rewrite steps_app, F2. cbn [bind fst snd].
  assert (EQ : forall k, sget i2 k = sget j2 k).
  { intros k. rewrite U2, U1, V2, V1. destruct (list_eqb n2 k) eqn:A, (list_eqb n1 k) eqn:B; try reflexivity.
    apply list_eqb_spec in A, B. subst. rewrite list_eqb_refl in NE. discriminate. }
  destruct (steps_end b i2 c2 d2 r SE E) as (d' & E').
  destruct (steps_sim_refl _ _ _ _ _ _ (isim_eq _ _ EQ) E') as (j' & -> & SM). eauto.
Qed.

Definition still_parses (ls ls' : list text) : Prop :=
  forall i c, steps [] None ls = Ok (i, c) -> exists j d, steps [] None ls' = Ok (j, d) /\ isim i j.
Lemma local_edit : forall a x y,
  (forall i c r, steps i c x = Ok r -> exists j d, steps i c y = Ok (j, d) /\ isim (fst r) j) -> still_parses (a ++ x) (a ++ y).
Proof.
  intros a x y H i c E. rewrite steps_app in *. destruct (steps [] None a) as [[i1 c1]| |]; try discriminate.
  cbn [bind fst snd] in *. apply (H _ _ _ E).
Qed.
Lemma edit_parses : forall ls ls', layout_edit ls ls' -> still_parses ls ls' /\ still_parses ls' ls.
Proof.
  assert (ONE : forall a l l' b, clsim l l' -> still_parses (a ++ l :: b) (a ++ l' :: b)).
  { intros a l l' b C. apply local_edit. intros i c [i' c'] E.
    destruct (steps_sim (l :: b) (l' :: b)) with (i := i) (j := i) (c := c) (i' := i') (c' := c') as (j & E' & S).
    - constructor; [exact C|]. clear. induction b; constructor; auto. apply clsim_refl.
    - apply isim_refl.
    - exact E.
    - eauto. }
  intros ls ls' [a l b IG|a l l' b n H H'|a l l' b n v v' O O' R|a l l' b n n' v v' O O' NE|a s s' b S S' SE].
  - apply class_ign in IG. assert (P : forall i c, parse_line i c l = Ok (i, c)).
    { intros i c. pose proof (parse_line_class i c l) as P. rewrite IG in P. exact P. }
    split; apply local_edit; intros i c [i' c'] E; simpl in *; rewrite ?P in *; cbn [bind fst snd] in *; exists i', c';
      (split; [exact E|apply isim_refl]).
  - apply class_head in H, H'. split; apply ONE; unfold clsim; rewrite H, H'; reflexivity.
  - apply class_opt in O, O'. split; apply ONE; unfold clsim; rewrite O, O'; (split; [reflexivity|]); [exact R|apply respaced_sym; exact R].
  - assert (SW : forall a l l' b n n' v v', classify l = LOpt n v -> classify l' = LOpt n' v' -> n <> n' ->
       still_parses (a ++ l :: l' :: b) (a ++ l' :: l :: b)).
    { clear. intros a l l' b n n' v v' O O' NE. apply local_edit. intros i c [i' c'] E. simpl in *.
      pose proof (parse_line_class i c l) as P. pose proof (parse_line_class i c l') as P'. rewrite O in P. rewrite O' in P'.
      destruct c as [c|]; [|destruct P as (e & P); rewrite P in E; discriminate].
      destruct (sget i c) as [o|] eqn:G; [|rewrite P in E; discriminate].
      rewrite P in E. rewrite P'. cbn [bind fst snd] in *.
      pose proof (parse_line_class (sset i c (oset o n v)) (Some c) l') as Q. rewrite O', sget_set, list_eqb_refl in Q. rewrite Q in E.
      pose proof (parse_line_class (sset i c (oset o n' v')) (Some c) l) as Q'. rewrite O, sget_set, list_eqb_refl in Q'. rewrite Q'.
      cbn [bind fst snd] in *.
      match type of E with steps ?x _ _ = _ => match goal with |- context [steps ?y _ _] => assert (SM : isim x y) end end.
      { split.
        - intros s. rewrite !sget_set. destruct (list_eqb c s); [split; discriminate|tauto].
        - intros s k w. unfold ini_get. rewrite !sget_set. destruct (list_eqb c s).
          + rewrite !oget_set. intros E2. exists w. split; [|apply respaced_refl]. rewrite <- E2.
            destruct (list_eqb n k) eqn:A, (list_eqb n' k) eqn:B; try reflexivity.
            apply list_eqb_spec in A, B. congruence.
          + intros E2. exists w. split; [exact E2|apply respaced_refl]. }
      destruct (steps_sim_refl _ _ _ _ _ _ SM E) as (j & E' & S). eauto. }
    apply class_opt in O, O'. split; eapply SW; eauto.
  - split; apply local_edit; intros i c r E; eapply swap_sections; eauto.
Qed.

Lemma still_refl : forall ls, still_parses ls ls.
Proof. intros ls i c E. exists i, c. split; [exact E|apply isim_refl]. Qed.
Lemma still_trans : forall a b c, still_parses a b -> still_parses b c -> still_parses a c.
Proof.
  intros a b c A B i x E. destruct (A _ _ E) as (j & y & E1 & S1). destruct (B _ _ E1) as (k & z & E2 & S2).
  exists k, z. split; [exact E2|]. eapply isim_trans; eauto.
Qed.
Lemma relaid_parses : forall ls ls', relaid ls ls' -> still_parses ls ls' /\ still_parses ls' ls.
Proof.
  intros ls ls' R. induction R as [ls ls' E|ls|ls ls' R (A & B)|a b c R1 (A1 & B1) R2 (A2 & B2)].
  - apply edit_parses. exact E.
  - split; apply still_refl.
  - auto.
  - split; eapply still_trans; eauto.
Qed.

Lemma parses_means : forall ls ls', still_parses ls ls' -> well_formed ls ->
  well_formed ls' /\ forall s o v, has_option ls s o v -> exists v', has_option ls' s o v' /\ respaced v v'.
Proof.
  intros ls ls' SP W. destruct (steps_spec ls) as [(e & _ & NW)|(i & c & E & _ & I)]; [contradiction|].
  destruct (SP _ _ E) as (j & d & E' & (_ & G)).
  destruct (steps_spec ls') as [(e & X & _)|(j2 & d2 & E2 & W' & I')]; [congruence|].
  rewrite E' in E2. injection E2 as <- <-. split; [exact W'|].
  assert (IG : forall ls i c, iinv ls i c -> forall s o v, ini_get i s o = Some v <-> has_option ls s o v).
  { clear. intros ls i c [IS IN IO IC] s o v. unfold ini_get. destruct (sget i s) as [m|] eqn:G; [apply IO; exact G|].
    split; [discriminate|]. intros X. exfalso. apply has_header in X. apply IS in X. destruct X as (m & X). congruence. }
  intros s o v H. apply (IG _ _ _ I) in H. destruct (G _ _ _ H) as (v' & H' & R). exists v'. split; [|exact R].
  apply (IG _ _ _ I'). exact H'.
Qed.

Lemma configures_relaid : forall f ls ls' c, relaid ls ls' -> well_formed ls -> configures (duration_text f) ls c ->
  well_formed ls' /\ configures (duration_text f) ls' c.
Proof.
  intros f ls ls' c R W CF. destruct (relaid_parses _ _ R) as (SP & SP').
  destruct (parses_means _ _ SP W) as (W' & H1). destruct (parses_means _ _ SP' W') as (_ & H2). split; [exact W'|].
  assert (SE : forall (A : Type) s k (means : text -> A -> Prop) d x, blind means ->
             setting ls s k means d x -> setting ls' s k means d x).
  { intros A s k means d x B [(w & H & M)|(N & E)].
    - left. destruct (H1 _ _ _ H) as (w' & H' & R'). exists w'. split; [exact H'|eapply B; eauto].
    - right. split; [|exact E]. intros w H. destruct (H2 _ _ _ H) as (w' & H' & _). eapply N; eauto. }
  assert (TB : forall (A : Type) s (means : text -> A -> Prop) lk, blind means ->
             table ls s means lk -> table ls' s means lk).
  { intros A s means lk B (T1 & T2 & T3). split; [|split].
    - intros k x H. destruct (H2 _ _ _ H) as (w' & H' & R'). destruct (T1 _ _ H') as (id & y & I & M). exists id, y.
      split; [exact I|]. eapply B; [apply respaced_sym; exact R'|exact M].
    - intros k1 k2 v1 v2 id A1 A2. destruct (H2 _ _ _ A1) as (w1 & B1 & _). destruct (H2 _ _ _ A2) as (w2 & B2 & _). eauto.
    - intros id x. rewrite T3. split; intros (k & w & H & I & M).
      + destruct (H1 _ _ _ H) as (w' & H' & R'). exists k, w'. split; [exact H'|]. split; [exact I|eapply B; eauto].
      + destruct (H2 _ _ _ H) as (w' & H' & R'). exists k, w'. split; [exact H'|]. split; [exact I|eapply B; eauto]. }
  destruct CF as [A1 A2 A3 A4 A5 A6 A7 A8 A9 A10]. constructor.
  - apply SE; [exact blind_bool|assumption].
  - apply SE; [exact blind_control|assumption].
  - apply SE; [apply blind_duration|assumption].
  - apply SE; [exact blind_policy|assumption].
  - apply SE; [exact blind_seccomp|assumption].
  - apply TB; [exact blind_key|assumption].
  - apply TB; [exact blind_resource|assumption].
  - exact A8.
  - intros V. apply SE; [exact blind_id|auto].
  - intros V. destruct (A10 V) as (B1 & B2 & B3 & B4 & B5 & B6). split; [exact B1|].
    split; [apply SE; [exact blind_padded|exact B2]|]. split; [apply SE; [exact blind_family|exact B3]|].
    split; [apply SE; [exact blind_padded|exact B4]|]. split; [apply SE; [exact blind_padded|exact B5]|].
    apply SE; [apply blind_duration|exact B6].
Qed.

Lemma entry_relaid : forall ls ls' (A : Type) s (means : text -> A -> Prop) id x, relaid ls ls' -> well_formed ls -> blind means ->
  entry ls s means id x -> entry ls' s means id x.
Proof.
  intros ls ls' A s means id x R W B (k & w & H & J & M). destruct (relaid_parses _ _ R) as (SP & _).
  destruct (parses_means _ _ SP W) as (_ & H1). destruct (H1 _ _ _ H) as (w' & H' & R').
  exists k, w'. split; [exact H'|]. split; [exact J|]. eapply B; eauto.
Qed.
Lemma control_relaid : forall ls ls' cp, relaid ls ls' -> well_formed ls -> control_port_is ls cp -> control_port_is ls' cp.
Proof.
  intros ls ls' cp R W CP. destruct (relaid_parses _ _ R) as (SP & SP').
  destruct (parses_means _ _ SP W) as (W' & H1). destruct (parses_means _ _ SP' W') as (_ & H2).
  destruct CP as [(w & H & M)|(N & E)].
  - left. destruct (H1 _ _ _ H) as (w' & H' & R'). exists w'. split; [exact H'|eapply blind_control; eauto].
  - right. split; [|exact E]. intros w H. destruct (H2 _ _ _ H) as (w' & H' & _). eapply N; eauto.
Qed.
Lemma relaid_sym : forall ls ls', relaid ls ls' -> relaid ls' ls.
Proof. intros. apply rst_sym. assumption. Qed.
Lemma relaid_wf : forall ls ls', relaid ls ls' -> well_formed ls -> well_formed ls'.
Proof. intros ls ls' R W. destruct (relaid_parses _ _ R) as (SP & _). exact (proj1 (parses_means _ _ SP W)). Qed.

Lemma agree_relaid : forall cls cls' sls sls' user port rs, relaid cls cls' -> relaid sls sls' ->
  well_formed cls -> well_formed sls -> files_agree cls sls user port rs -> files_agree cls' sls' user port rs.
Proof.
  intros cls cls' sls sls' user port rs RC RS WC WS [(k & K1 & K2) (id & crs & E1 & E2 & E3 & E4 & E5 & E6) NC].
  constructor.
  - exists k. split; [apply (entry_relaid _ _ _ _ _ _ _ RC WC blind_key K1)|apply (entry_relaid _ _ _ _ _ _ _ RS WS blind_key K2)].
  - exists id, crs. split; [apply (entry_relaid _ _ _ _ _ _ _ RC WC blind_resource E1)|]. split; [exact E2|]. split; [exact E3|].
    split; [apply (entry_relaid _ _ _ _ _ _ _ RS WS blind_resource E4)|]. auto.
  - intros cp CP. apply NC. apply (control_relaid _ _ _ (relaid_sym _ _ RS) (relaid_wf _ _ RS WS) CP).
Qed.

Lemma same_path : forall a b p q, same_config a b -> same_config (with_path a p) (with_path b q).
Proof. intros [] [] p q H. exact H. Qed.
Lemma same_refl : forall a p q, same_config (with_path a p) (with_path a q).
Proof. intros [] p q. unfold same_config. cbn. repeat (split; [reflexivity|]). auto. Qed.

Lemma loads_alike : forall fraction order order' variant path path' file file' ls ls' c c' r r',
  (forall m, Permutation m (order m)) -> (forall m, Permutation m (order' m)) ->
  relaid ls ls' -> file_lines file ls -> file_lines file' ls' ->
  conf_load fraction order (conf_new variant) path file = (c, r) ->
  conf_load fraction order' (conf_new variant) path' file' = (c', r') ->
  r = Ok tt -> r' = Ok tt /\ same_config c c'.
Proof.
  intros fraction order order' variant path path' file file' ls ls' c c' r r' P P' R FL FL' L L' ->.
  apply (load_cases _ _ P) in L. apply (load_cases _ _ P') in L'.
  destruct L as [(l1 & c0 & FL1 & W & CF & V & -> & _)|[(l1 & e & _ & _ & _ & _ & X)|(NW & L)]]; [|discriminate X|].
  - rewrite (file_lines_fun _ _ _ FL1 FL) in *. destruct (configures_relaid _ _ _ _ R W CF) as (W' & CF').
    destruct L' as [(l2 & c2 & FL2 & W2 & CF2 & V2 & -> & ->)|[(l2 & e & FL2 & _ & N & _ & _)|(NW & _)]].
    + rewrite (file_lines_fun _ _ _ FL2 FL') in *. split; [reflexivity|]. apply same_path.
      eapply configures_fun; [exact W'|exact CF'|exact CF2|congruence].
    + rewrite (file_lines_fun _ _ _ FL2 FL') in *. exfalso. eapply N; eauto.
    + exfalso. eapply NW; eauto.
  - destruct L as [(_ & _ & e & X)|(V & -> & _)]; [discriminate X|].
    assert (NW' : ~ well_formed ls').
    { intros W'. apply (NW _ FL). apply (relaid_wf _ _ (relaid_sym _ _ R) W'). }
    destruct L' as [(l2 & c2 & FL2 & W2 & _)|[(l2 & e & FL2 & W2 & _)|(_ & [(V2 & _)|(_ & -> & ->)])]].
    + exfalso. apply NW'. rewrite (file_lines_fun _ _ _ FL' FL2). exact W2.
    + exfalso. apply NW'. rewrite (file_lines_fun _ _ _ FL' FL2). exact W2.
    + congruence.
    + split; [reflexivity|apply same_refl].
Qed.
