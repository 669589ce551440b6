(** Lemmas about string operations. *)

From Coq Require Import String ZArith NArith List Bool Lia ZifyBool ZifyNat ZifyN.
From Verif Require Import M_Base M_IpAddr M_ConfTypes M_Text M_Str S_Wire S_Text P_Base P_Text.
Import ListNotations.
Local Open Scope N_scope.

(** *** White space *)

Lemma is_white_spec : forall c, is_white c = true <-> white_space c.
Proof.
  intros c. unfold is_white, white_space. split.
  - intros H. simpl.
    repeat rewrite Bool.orb_true_iff in H. repeat rewrite Bool.andb_true_iff in H. 
    repeat rewrite N.eqb_eq in H. repeat rewrite N.leb_le in H. lia.
  - intros H. repeat (destruct H as [<-|H]; [reflexivity|]). contradiction.
Qed.
Lemma is_white_false : forall c, is_white c = false <-> ~ white_space c.
Proof. intros c. rewrite <- is_white_spec. destruct (is_white c); split; congruence. Qed.

Lemma trim_start_spec : forall t, exists a, t = a ++ trim_start t /\ blank a
  /\ forall c r, trim_start t = c :: r -> ~ white_space c.
Proof.
  induction t as [|c t (a & E & B & N)].
  - exists []. simpl. split; [reflexivity|]. split; [intros ? []|]. intros. discriminate.
  - simpl. destruct (is_white c) eqn:W.
    + exists (c :: a). split; [simpl; congruence|]. split; [|exact N].
      intros x [<-|I]; [apply is_white_spec; exact W|auto].
    + exists []. split; [reflexivity|]. split; [intros ? []|]. intros x r [= <- _].
      apply is_white_false. exact W.
Qed.

Lemma trim_end_nil : forall t, trim_end t = [] <-> blank t.
Proof.
  induction t as [|c t IH]; simpl; [split; [intros _ ? []|reflexivity]|].
  destruct (trim_end t) as [|x r] eqn:E.
  - destruct (is_white c) eqn:W.
    + split; [|reflexivity]. intros _ x [<-|I]; [apply is_white_spec; exact W|]. apply IH; auto.
    + split; [discriminate|]. intros B. exfalso. apply is_white_false in W. apply W. apply B. left. reflexivity.
  - split; [discriminate|]. intros B. exfalso. assert (x :: r = []) as X by (apply IH; intros y I; apply B; right; exact I).
    discriminate.
Qed.

Lemma trim_end_spec : forall t, exists b, t = trim_end t ++ b /\ blank b
  /\ forall r c, trim_end t = r ++ [c] -> ~ white_space c.
Proof.
  induction t as [|c t (b & E & B & N)].
  - exists []. simpl. split; [reflexivity|]. split; [intros ? []|]. intros [] ?; discriminate.
  - simpl. destruct (trim_end t) as [|x r] eqn:TE.
    + destruct (is_white c) eqn:W.
      * exists (c :: t). split; [reflexivity|]. split; [|intros [] ?; discriminate].
        intros y [<-|I]; [apply is_white_spec; exact W|]. apply (proj1 (trim_end_nil t)); auto.
      * exists b. split; [simpl; rewrite E; reflexivity|]. split; [exact B|].
        intros r0 d X. destruct r0 as [|? [|? ?]]; try discriminate. injection X as <-.
        apply is_white_false. exact W.
    + exists b. split; [simpl; rewrite E; reflexivity|]. split; [exact B|].
      intros r0 d X. destruct r0 as [|y r0]; [discriminate|]. injection X as <- X.
      eapply N. exact X.
Qed.

Lemma trim_end_keeps_head : forall t c r, t = c :: r -> ~ white_space c ->
  exists r', trim_end t = c :: r'.
Proof.
  intros t c r -> N. simpl. destruct (trim_end r); [|eauto].
  destruct (is_white c) eqn:W; [apply is_white_spec in W; contradiction|eauto].
Qed.

Lemma trim_padded : forall t, padded t (trim t).
Proof.
  intros t. unfold trim.
  destruct (trim_start_spec t) as (a & E1 & B1 & N1).
  destruct (trim_end_spec (trim_start t)) as (b & E2 & B2 & N2).
  exists a, b. split; [congruence|]. split; [exact B1|]. split; [exact B2|]. split; [|exact N2].
  intros c r E. destruct (trim_start t) as [|x s] eqn:TS; [discriminate|].
  destruct (trim_end_keeps_head (x :: s) x s eq_refl (N1 x s eq_refl)) as (r' & E').
  rewrite E' in E. injection E as <- _. eapply N1. reflexivity.
Qed.

Lemma trim_start_blank : forall a t, blank a -> trim_start (a ++ t) = trim_start t.
Proof.
  induction a as [|c a IH]; intros t B; simpl; [reflexivity|].
  assert (is_white c = true) as -> by (apply is_white_spec; apply B; left; reflexivity).
  apply IH. intros x I. apply B. right. exact I.
Qed.
Lemma trim_start_tight : forall t, (forall c r, t = c :: r -> ~ white_space c) -> trim_start t = t.
Proof.
  intros [|c t] H; [reflexivity|]. simpl.
  assert (is_white c = false) as -> by (apply is_white_false; eapply H; reflexivity). reflexivity.
Qed.
Lemma trim_end_blank : forall t b, blank b -> trim_end (t ++ b) = trim_end t.
Proof.
  induction t as [|c t IH]; intros b B; simpl.
  - apply trim_end_nil. exact B.
  - rewrite IH by exact B. reflexivity.
Qed.
Lemma trim_end_tight : forall t, (forall r c, t = r ++ [c] -> ~ white_space c) -> trim_end t = t.
Proof.
  intros t. destruct t as [|c t _] using rev_ind; intros H; [reflexivity|].
  clear - H. specialize (H t c eq_refl). apply is_white_false in H.
  induction t as [|x t IH]; simpl; [rewrite H; reflexivity|].
  rewrite IH. destruct (t ++ [c]) eqn:E; [destruct t; discriminate|reflexivity].
Qed.

Lemma padded_trim : forall t body, padded t body <-> trim t = body.
Proof.
  intros t body. split; [|intros <-; apply trim_padded].
  intros (a & b & -> & A & B & T1 & T2). unfold trim. rewrite trim_start_blank by exact A.
  destruct body as [|c body].
  - simpl. destruct (trim_start_spec b) as (a' & E & _ & N).
    destruct (trim_start b) as [|x r] eqn:TS; [reflexivity|].
    exfalso. apply (N x r eq_refl). apply B. rewrite E. apply in_or_app. right. left. reflexivity.
  - rewrite trim_start_tight.
    + rewrite trim_end_blank by exact B. apply trim_end_tight. exact T2.
    + intros x r [= <- _]. eapply T1. reflexivity.
Qed.

Lemma padded_fun : forall t a b, padded t a -> padded t b -> a = b.
Proof. intros t a b HA HB. apply padded_trim in HA, HB. congruence. Qed.

Lemma padded_tight : forall t, tight t -> padded t t.
Proof. intros t T. exists [], []. rewrite app_nil_r. repeat split; auto; try (intros ? []); apply T. Qed.

Lemma trim_trim : forall t, trim (trim t) = trim t.
Proof.
  intros t. apply padded_trim. apply padded_tight. destruct (trim_padded t) as (a & b & _ & _ & _ & T). exact T.
Qed.

Lemma padded_trans : forall t b, padded (trim t) b <-> padded t b.
Proof. intros t b. rewrite !padded_trim, trim_trim. reflexivity. Qed.

(** *** Cutting and splitting *)

Lemma cut_at_some : forall s t a b, cut_at s t = Some (a, b) <-> t = a ++ s :: b /\ ~ In s a.
Proof.
  intros s. induction t as [|c t IH]; intros a b; simpl.
  - split; [discriminate|]. intros (E & _). destruct a; discriminate.
  - destruct (c =? s) eqn:E.
    + apply N.eqb_eq in E. subst c. split.
      * intros [= <- <-]. split; [reflexivity|]. intros [].
      * intros (X & N). destruct a as [|x a]; [injection X as ->; reflexivity|].
        exfalso. apply N. injection X as -> _. left. reflexivity.
    + apply N.eqb_neq in E. destruct (cut_at s t) as [[a' b']|] eqn:C.
      * split.
        -- intros [= <- <-]. destruct (proj1 (IH a' b') eq_refl) as (-> & N). split; [reflexivity|].
           intros [X|X]; [congruence|auto].
        -- intros (X & N). destruct a as [|x a]; injection X as X1 X2; [congruence|]. subst x.
           assert (Some (a', b') = Some (a, b)) as [= -> ->]; [|reflexivity].
           apply IH. split; [exact X2|]. intros I. apply N. right. exact I.
      * split; [discriminate|]. intros (X & N). destruct a as [|x a]; injection X as X1 X2; [congruence|].
        assert (None = Some (a, b)) as X; [|discriminate]. apply IH. split; [exact X2|].
        intros I. apply N. right. exact I.
Qed.
Lemma cut_at_none : forall s t, cut_at s t = None <-> ~ In s t.
Proof.
  intros s. induction t as [|c t IH]; simpl; [split; auto|].
  destruct (c =? s) eqn:E.
  - apply N.eqb_eq in E. split; [discriminate|]. intros N. exfalso. auto.
  - apply N.eqb_neq in E. destruct (cut_at s t) as [[a b]|] eqn:C.
    + split; [discriminate|]. intros N. exfalso. apply cut_at_some in C. destruct C as (-> & _).
      apply N. right. apply in_or_app. right. left. reflexivity.
    + split; [|reflexivity]. intros _ [X|X]; [congruence|]. apply IH in X; auto.
Qed.

Lemma split_on_separated : forall s t l, split_on s t = l <-> separated s t l.
Proof.
  intros s t l. split.
  - intros <-. induction t as [|c t IH].
    + split; [discriminate|]. split; [intros x [<-|[]] []|reflexivity].
    + simpl. destruct IH as (NE & NI & J). destruct (c =? s) eqn:E.
      * apply N.eqb_eq in E. subst c. split; [discriminate|]. split.
        -- intros x [<-|I]; [intros []|auto].
        -- destruct (split_on s t) as [|h tl] eqn:SP; [contradiction|]. simpl. rewrite J. reflexivity.
      * apply N.eqb_neq in E. destruct (split_on s t) as [|h tl] eqn:SP; [contradiction|].
        split; [discriminate|]. split.
        -- intros x [<-|I]; [|apply NI; right; exact I].
           intros [X|X]; [congruence|]. eapply NI; [left; reflexivity|exact X].
        -- rewrite J. destruct tl; reflexivity.
  - intros (NE & NI & ->). apply split_join; auto.
Qed.

Lemma strip_prefix_some : forall p t r, strip_prefix p t = Some r <-> t = p ++ r.
Proof.
  induction p as [|x p IH]; intros t r; simpl.
  - split; congruence.
  - destruct t as [|c t]; [split; discriminate|]. destruct (x =? c) eqn:E.
    + apply N.eqb_eq in E. subst c. rewrite IH. split; congruence.
    + apply N.eqb_neq in E. split; [discriminate|congruence].
Qed.

Lemma strip_last_some : forall c t r, strip_last c t = Some r <-> t = r ++ [c].
Proof.
  intros c. induction t as [|x t IH]; intros r; simpl.
  - split; [discriminate|]. destruct r; discriminate.
  - destruct t as [|y t].
    + destruct (x =? c) eqn:E.
      * apply N.eqb_eq in E. subst x. split; [intros [= <-]; reflexivity|].
        destruct r as [|? [|]]; try discriminate. reflexivity.
      * apply N.eqb_neq in E. split; [discriminate|]. destruct r as [|? [|]]; intros [=]. congruence.
    + destruct (strip_last c (y :: t)) as [r'|] eqn:S.
      * split.
        -- intros [= <-]. rewrite (proj1 (IH r') eq_refl). reflexivity.
        -- destruct r as [|z r]; [discriminate|]. intros [= <- E].
           assert (Some r' = Some r) as [= ->] by (apply IH; exact E). reflexivity.
      * split; [discriminate|]. destruct r as [|z r]; [discriminate|]. intros [= <- E].
        apply IH in E. discriminate.
Qed.

(** *** Lines *)

Lemma strip_cr_spec : forall t, (exists k, t = k ++ [13] /\ strip_cr t = k)
  \/ ((forall k, t <> k ++ [13]) /\ strip_cr t = t).
Proof.
  intros t. unfold strip_cr. destruct (strip_last 13 t) as [r|] eqn:S.
  - left. exists r. split; [|reflexivity]. apply strip_last_some. exact S.
  - right. split; [|reflexivity]. intros k E. apply (strip_last_some 13) in E. congruence.
Qed.

Lemma lines_acc_spec : forall t acc, ~ In 10 acc ->
  lines_of (rev acc ++ t) (lines_acc acc t).
Proof.
  induction t as [|c t IH]; intros acc NI; simpl.
  - rewrite app_nil_r. destruct acc as [|x acc]; [constructor|].
    apply lo_last; [|rewrite <- in_rev; exact NI].
    intros E. apply (f_equal (@length N)) in E. rewrite rev_length in E. discriminate.
  - destruct (c =? 10) eqn:E.
    + apply N.eqb_eq in E. subst c. assert (NR : ~ In 10 (rev acc)) by (rewrite <- in_rev; exact NI).
      specialize (IH [] (fun x => x)). simpl in IH.
      destruct (strip_cr_spec (rev acc)) as [(k & E1 & E2)|(E1 & E2)]; rewrite E2.
      * rewrite E1, <- app_assoc. simpl. apply lo_crlf; [|exact IH].
        intros I. apply NR. rewrite E1. apply in_or_app. left. exact I.
      * apply lo_lf; auto.
    + apply N.eqb_neq in E. specialize (IH (c :: acc)). simpl in IH. rewrite <- app_assoc in IH. apply IH.
      intros [X|X]; [congruence|auto].
Qed.
Lemma lines_spec : forall t, lines_of t (lines t).
Proof. intros t. apply (lines_acc_spec t []). intros []. Qed.

Lemma first_sep : forall (s : N) a b c d, a ++ s :: b = c ++ s :: d -> ~ In s a -> ~ In s c -> a = c /\ b = d.
Proof.
  intros s a b c d E NA NC.
  assert (cut_at s (a ++ s :: b) = Some (a, b)) as C1 by (apply cut_at_some; auto).
  assert (cut_at s (a ++ s :: b) = Some (c, d)) as C2 by (apply cut_at_some; auto).
  rewrite C1 in C2. injection C2 as -> ->. auto.
Qed.

Lemma lines_of_fun : forall t l1, lines_of t l1 -> forall l2, lines_of t l2 -> l1 = l2.
Proof.
  assert (CR : forall (l r : text), l ++ 13 :: 10 :: r = (l ++ [13]) ++ 10 :: r)
    by (intros; rewrite <- app_assoc; reflexivity).
  assert (NCR : forall l : text, ~ In 10 l -> ~ In 10 (l ++ [13])).
  { intros l NI I. apply in_app_or in I. destruct I as [I|[I|[]]]; [auto|discriminate]. }
  induction 1 as [|l NE NI|l r ls NI NC H IH|l r ls NI H IH]; intros l2 H2.
  - inversion H2 as [|k NE2|k ? ? ? ? ? E|k ? ? ? ? E]; subst; auto; try contradiction; destruct k; discriminate.
  - inversion H2 as [|k NE2|k ? ? ? ? ? E|k ? ? ? ? E]; subst; auto; try contradiction;
      exfalso; apply NI; apply in_or_app; right; simpl; auto.
  - inversion H2 as [E|k NE2 NI2 E|k r2 ls2 NI2 NC2 H3 E|k r2 ls2 NI2 H3 E]; subst.
    + destruct l; discriminate.
    + exfalso. apply NI2. apply in_or_app. right. left. reflexivity.
    + apply first_sep in E; auto. destruct E as (-> & ->). f_equal. auto.
    + rewrite CR in E. apply first_sep in E; auto. destruct E as (X & _). exfalso. eapply NC. symmetry. exact X.
  - rewrite CR in H2. inversion H2 as [E|k NE2 NI2 E|k r2 ls2 NI2 NC2 H3 E|k r2 ls2 NI2 H3 E]; subst.
    + destruct l; discriminate.
    + exfalso. apply NI2. apply in_or_app. right. left. reflexivity.
    + apply first_sep in E; auto. destruct E as (-> & _). exfalso. eapply NC2. reflexivity.
    + rewrite CR in E. apply first_sep in E; auto. destruct E as (X & ->).
      apply app_inj_tail in X. destruct X as (-> & _). f_equal. auto.
Qed.

(** *** Numbers *)

Lemma to_digit_spec : forall base c d, base <= 36 -> to_digit base c = Some d <-> digit base c d.
Proof.
  intros base c d B. unfold to_digit, digit. cbv zeta.
  destruct ((48 <=? c) && (c <=? 57)) eqn:E1;
    [|destruct ((97 <=? c) && (c <=? 122)) eqn:E2; [|destruct ((65 <=? c) && (c <=? 90)) eqn:E3]].
  - destruct (c - 48 <? base) eqn:L; split; intros H; try discriminate; try (injection H as <-; lia); try lia.
    f_equal. lia.
  - destruct (c - 97 + 10 <? base) eqn:L; split; intros H; try discriminate; try (injection H as <-; lia); try lia.
    f_equal. lia.
  - destruct (c - 65 + 10 <? base) eqn:L; split; intros H; try discriminate; try (injection H as <-; lia); try lia.
    f_equal. lia.
  - split; [discriminate|]. lia.
Qed.

Lemma digit_fun : forall base c d d', digit base c d -> digit base c d' -> d = d'.
Proof. unfold digit. intros. lia. Qed.

Lemma numeral_fun : forall base t v, numeral base t v -> forall v', numeral base t v' -> v = v'.
Proof.
  induction 1 as [|t v c d H IH D]; intros v' H'.
  - inversion H' as [|t v c d ? ? E]; subst; [reflexivity|]. destruct t; discriminate.
  - inversion H' as [E|t' v2 c' d' H2 D2 E]; subst; [destruct t; discriminate|].
    apply app_inj_tail in E. destruct E as (-> & ->). rewrite (IH _ H2), (digit_fun _ _ _ _ D D2). reflexivity.
Qed.

Lemma numeral_digits : forall base t v, numeral base t v -> forall c, In c t -> exists d, digit base c d.
Proof.
  induction 1 as [|t v c d H IH D]; intros x I; [contradiction|].
  apply in_app_or in I. destruct I as [I|[<-|[]]]; eauto.
Qed.

Lemma radix_digits_spec : forall bound base t acc v, base <= 36 -> 1 <= base -> acc < bound ->
  radix_digits bound base acc t = Ok v <->
  exists u, numeral base t u /\ v = acc * base ^ N.of_nat (length t) + u /\ v < bound.
Proof.
  intros bound base t. induction t as [|c t IH]; intros acc v B B1 A.
  - cbn [radix_digits length]. change (N.of_nat 0) with 0. rewrite N.pow_0_r. split.
    + intros [= <-]. exists 0. split; [constructor|]. lia.
    + intros (u & H & -> & _). inversion H as [|? ? ? ? ? ? E]; subst.
      * f_equal. lia.
      * destruct t; discriminate.
  - assert (CONS : forall u, numeral base (c :: t) u <->
       exists d u', digit base c d /\ numeral base t u' /\ u = d * base ^ N.of_nat (length t) + u').
    { clear IH. induction t as [|x t IH] using rev_ind; intros u.
      - split.
        + intros H. inversion H as [|t' v' c' d' H2 D2 E]; subst.
          destruct t' as [|? [|]]; try discriminate. injection E as <-.
          inversion H2 as [|? ? ? ? ? ? E']; subst; [|destruct t; discriminate].
          exists d', 0. split; [exact D2|]. split; [constructor|]. cbn [length]. change (N.of_nat 0) with 0. rewrite N.pow_0_r. lia.
        + intros (d & u' & D & H & ->). inversion H as [|? ? ? ? ? ? E']; subst; [|destruct t; discriminate].
          cbn [length]. change (N.of_nat 0) with 0. rewrite N.pow_0_r, N.mul_1_r, N.add_0_r.
          replace d with (0 * base + d) by lia. apply (num_snoc base [] 0 c d); [constructor|exact D].
      - rewrite app_length. simpl length.
        replace (N.of_nat (length t + 1)) with (N.succ (N.of_nat (length t))) by lia. rewrite N.pow_succ_r'.
        split.
        + intros H. inversion H as [|t' v' c' d' H2 D2 E]; subst.
          rewrite app_comm_cons in E. apply app_inj_tail in E. destruct E as (-> & ->).
          destruct (proj1 (IH v') H2) as (d & u' & D & H3 & ->).
          exists d, (u' * base + d'). split; [exact D|]. split; [constructor; auto|]. lia.
        + intros (d & u' & D & H & ->). inversion H as [E|t' v' c' d' H2 D2 E]; subst; [destruct t; discriminate|].
          apply app_inj_tail in E. destruct E as (-> & ->).
          replace (d * (base * base ^ N.of_nat (length t)) + (v' * base + d'))
            with ((d * base ^ N.of_nat (length t) + v') * base + d') by lia.
          rewrite app_comm_cons. constructor; [|exact D2]. apply IH. eauto. }
    simpl radix_digits. simpl length.
    replace (N.of_nat (S (length t))) with (N.succ (N.of_nat (length t))) by lia. rewrite N.pow_succ_r'.
    assert (P : 1 <= base ^ N.of_nat (length t)).
    { apply N.lt_pred_le. simpl. apply N.neq_0_lt_0. apply N.pow_nonzero. lia. }
    destruct (to_digit base c) as [d|] eqn:TD.
    + assert (TD' := TD). apply to_digit_spec in TD'; [|exact B].
      destruct (acc * base + d <? bound) eqn:LB.
      * rewrite IH; [|exact B|exact B1|lia]. split.
        -- intros (u & H & -> & L). exists (d * base ^ N.of_nat (length t) + u). split.
           ++ apply CONS. eauto.
           ++ split; [lia|exact L].
        -- intros (u & H & -> & L). apply CONS in H. destruct H as (d' & u' & D & H & ->).
           rewrite (digit_fun _ _ _ _ TD' D) in *. exists u'. split; [exact H|]. split; [lia|lia].
      * split; [discriminate|]. intros (u & H & -> & L). exfalso. apply CONS in H.
        destruct H as (d' & u' & D & H & ->). rewrite (digit_fun _ _ _ _ TD' D) in *. nia.
    + split; [discriminate|]. intros (u & H & _). exfalso. apply CONS in H. destruct H as (d & u' & D & _).
      apply to_digit_spec in D; [|exact B]. congruence.
Qed.

Lemma radix_digits_numeral : forall bound base t v, base <= 36 -> 1 <= base -> 0 < bound ->
  radix_digits bound base 0 t = Ok v <-> numeral base t v /\ v < bound.
Proof.
  intros bound base t v B B1 A. rewrite radix_digits_spec by assumption. split.
  - intros (u & H & -> & L). rewrite N.mul_0_l, N.add_0_l in *. auto.
  - intros (H & L). exists v. rewrite N.mul_0_l, N.add_0_l. auto.
Qed.

Lemma radix_digits_no_panic : forall bound base t acc, radix_digits bound base acc t <> Panic.
Proof.
  intros bound base. induction t as [|c t IH]; intros acc; simpl; [discriminate|].
  destruct (to_digit base c); [|discriminate]. destruct (_ <? bound); [auto|discriminate].
Qed.
Lemma from_str_radix_no_panic : forall bound base t, from_str_radix bound base t <> Panic.
Proof.
  intros bound base t. unfold from_str_radix. destruct t as [|c [|x t]]; try discriminate.
  - destruct (to_digit base c); [destruct (_ <? bound)|]; discriminate.
  - destruct (c =? 43); apply radix_digits_no_panic.
Qed.

Lemma plus_no_digit : forall base d, ~ digit base 43 d.
Proof. unfold digit. intros. lia. Qed.

Lemma from_str_radix_spec : forall bound base t v, base <= 36 -> 1 <= base -> 0 < bound ->
  from_str_radix bound base t = Ok v <-> number base t v /\ v < bound.
Proof.
  intros bound base t v B B1 A. unfold number.
  assert (ONE : forall c v, numeral base [c] v <-> digit base c v).
  { intros c w. split.
    - intros H. inversion H as [|t' v' c' d' H2 D2 E]; subst. destruct t' as [|? [|]]; try discriminate.
      injection E as <-. inversion H2 as [|? ? ? ? ? ? E']; subst; [|destruct t0; discriminate]. exact D2.
    - intros D. replace w with (0 * base + w) by lia. apply (num_snoc base [] 0 c w); [constructor|exact D]. }
  unfold from_str_radix. destruct t as [|c [|x t]].
  - split; [discriminate|]. intros ((ds & NE & _ & [E|E]) & _); [congruence|discriminate].
  - destruct (to_digit base c) as [d|] eqn:TD.
    + apply to_digit_spec in TD; [|exact B]. destruct (d <? bound) eqn:L.
      * split.
        -- intros [= <-]. split; [|lia]. exists [c]. split; [discriminate|]. split; [apply ONE; exact TD|auto].
        -- intros ((ds & NE & H & [E|E]) & L2).
           ++ subst ds. apply ONE in H. f_equal. eapply digit_fun; eauto.
           ++ injection E as -> <-. congruence.
      * split; [discriminate|]. intros ((ds & NE & H & [E|E]) & L2).
        -- subst ds. apply ONE in H. rewrite (digit_fun _ _ _ _ TD H) in *. lia.
        -- injection E as -> <-. congruence.
    + split; [discriminate|]. intros ((ds & NE & H & [E|E]) & L2).
      * subst ds. apply ONE in H. apply to_digit_spec in H; [|exact B]. congruence.
      * injection E as -> <-. congruence.
  - destruct (c =? 43) eqn:E.
    + apply N.eqb_eq in E. subst c. rewrite radix_digits_numeral by assumption. split.
      * intros (H & L). split; [|exact L]. exists (x :: t). split; [discriminate|]. auto.
      * intros ((ds & NE & H & [E|E]) & L).
        -- subst ds. exfalso. destruct (numeral_digits _ _ _ H 43 (or_introl eq_refl)) as (d & D).
           eapply plus_no_digit; eauto.
        -- injection E as <-. auto.
    + apply N.eqb_neq in E. rewrite radix_digits_numeral by assumption. split.
      * intros (H & L). split; [|exact L]. exists (c :: x :: t). split; [discriminate|]. auto.
      * intros ((ds & NE & H & [E2|E2]) & L); [subst ds; auto|congruence].
Qed.

Lemma number_fun : forall base t v v', number base t v -> number base t v' -> v = v'.
Proof.
  intros base t v v' (ds & NE & H & E) (ds' & NE' & H' & E').
  assert (PL : forall ds v, numeral base ds v -> forall r, ds <> 43 :: r).
  { intros l w HL r ->. destruct (numeral_digits _ _ _ HL 43 (or_introl eq_refl)) as (d & D).
    eapply plus_no_digit; eauto. }
  destruct E as [->| ->], E' as [E'|E'].
  - subst ds'. eapply numeral_fun; eauto.
  - exfalso. exact (PL _ _ H _ E').
  - exfalso. exact (PL _ _ H' _ (eq_sym E')).
  - injection E' as <-. eapply numeral_fun; eauto.
Qed.

Lemma parse_id_spec : forall t v, parse_id t = Ok v <-> id_text t v.
Proof.
  intros t v. unfold parse_id, id_text, U32_BOUND. rewrite from_str_radix_spec by lia. split.
  - intros (H & L). exists (trim t). split; [apply trim_padded|]. auto.
  - intros (b & P & H & L). apply padded_trim in P. rewrite P. auto.
Qed.
Lemma parse_id_no_panic : forall t, parse_id t <> Panic.
Proof. intros. apply from_str_radix_no_panic. Qed.
Lemma id_text_fun : forall t v v', id_text t v -> id_text t v' -> v = v'.
Proof. intros t v v' H H'. apply parse_id_spec in H, H'. congruence. Qed.

(** *** Words *)

Lemma lower_white : forall c, is_white (lower_char c) = is_white c.
Proof.
  intros c. unfold lower_char. destruct ((65 <=? c) && (c <=? 90)) eqn:E.
  - assert (is_white c = false) as ->. { apply is_white_false. unfold white_space. simpl. lia. }
    apply is_white_false. unfold white_space. simpl. lia.
  - destruct (c =? 8490) eqn:E2; [|reflexivity]. apply N.eqb_eq in E2. subst c. reflexivity.
Qed.
Lemma lower_trim : forall t, trim (to_lowercase t) = to_lowercase (trim t).
Proof.
  intros t. unfold trim, to_lowercase.
  assert (S : forall t, trim_start (map lower_char t) = map lower_char (trim_start t)).
  { clear. induction t as [|c t IH]; simpl; [reflexivity|]. rewrite lower_white. destruct (is_white c); auto. }
  rewrite S. induction (trim_start t) as [|c r IH]; simpl; [reflexivity|]. rewrite IH.
  destruct (trim_end r); simpl; [rewrite lower_white; destruct (is_white c)|]; reflexivity.
Qed.

Lemma same_letter_spec : forall c d, same_letter c d <-> lower_char c = d.
Proof.
  intros c d. unfold same_letter, lower_char.
  destruct ((65 <=? c) && (c <=? 90)) eqn:E; [lia|]. destruct (c =? 8490) eqn:E2; lia.
Qed.

Lemma spelled_spec : forall w t, spelled w t <-> to_lowercase t = lit w.
Proof.
  intros w. unfold spelled, to_lowercase. induction (lit w) as [|d l IH]; intros t.
  - split; [inversion 1; reflexivity|]. destruct t; [constructor|discriminate].
  - split.
    + inversion 1 as [|c ? r ? SL F]; subst. simpl. f_equal; [apply same_letter_spec; exact SL|apply IH; exact F].
    + destruct t as [|c t]; [discriminate|]. intros [= E1 E2]. constructor; [apply same_letter_spec; exact E1|].
      apply IH. exact E2.
Qed.
Lemma word_is_spec : forall w t, word_is w t <-> trim (to_lowercase t) = lit w.
Proof.
  intros w t. rewrite lower_trim, <- spelled_spec. split.
  - intros (b & P & S). apply padded_trim in P. rewrite P. exact S.
  - intros S. exists (trim t). split; [apply trim_padded|exact S].
Qed.
