(** The parser of IP addresses accepts exactly the texts that denote one. *)

From Coq Require Import String ZArith NArith List Bool Lia ZifyBool ZifyNat ZifyN.
From Verif Require Import M_Base M_IpAddr M_ConfTypes M_Text M_Str M_IpParse S_Text S_Wire S_Ip P_Str P_Text.
Import ListNotations.
Local Open Scope N_scope.

(** The number cannot be continued. *)
Definition stops (base : N) (r : text) : Prop := forall c q, r = c :: q -> to_digit base c = None.

Lemma numeral_split : forall base b a v, 1 <= base -> numeral base (a ++ b) v -> exists va, numeral base a va /\ va <= v.
Proof.
  intros base b. induction b as [|c b IH] using rev_ind; intros a v B H.
  - rewrite app_nil_r in H. exists v. split; [exact H|lia].
  - rewrite app_assoc in H. inversion H as [E|t u c' d H2 D E]; subst; [destruct (a ++ b); discriminate|].
    apply app_inj_tail in E. destruct E as (-> & ->).
    destruct (IH a u B H2) as (va & HA & L). exists va. split; [exact HA|nia].
Qed.

Lemma number_loop_sound : forall base maxd bound, base <= 36 -> forall t pre acc n v r,
  numeral base pre acc -> (length pre <= maxd)%nat -> acc < bound ->
  number_loop base maxd bound (length pre) acc t = Some (n, v, r) ->
  exists ds, t = ds ++ r /\ numeral base (pre ++ ds) v /\ n = length (pre ++ ds) /\ (n <= maxd)%nat
             /\ v < bound /\ stops base r.
Proof.
  intros base maxd bound B. induction t as [|c t IH]; intros pre acc n v r NP LP AB H; cbn [number_loop] in H.
  - injection H as <- <- <-. exists []. rewrite !app_nil_r. split; [reflexivity|]. split; [exact NP|]. split; [reflexivity|]. split; [exact LP|]. split; [exact AB|]. intros c q [=].
  - destruct (to_digit base c) as [d|] eqn:TD.
    + destruct (_ <? bound) eqn:LB; cbn [negb] in H; [|discriminate].
      destruct (Nat.ltb maxd (S (length pre))) eqn:LM; [discriminate|].
      apply to_digit_spec in TD; [|exact B].
      replace (S (length pre)) with (length (pre ++ [c])) in * by (rewrite app_length; cbn; lia).
      destruct (IH (pre ++ [c]) (acc * base + d) n v r) as (ds & -> & ND & -> & L & V & ST); auto.
      * constructor; auto.
      * lia.
      * lia.
      * exists (c :: ds). rewrite <- app_assoc in *. cbn [app] in *. repeat split; auto.
    + injection H as <- <- <-. exists []. rewrite !app_nil_r. split; [reflexivity|]. split; [exact NP|]. split; [reflexivity|]. split; [exact LP|]. split; [exact AB|]. intros x q [= <- <-]. exact TD.
Qed.

Lemma number_loop_complete : forall base maxd bound, 1 <= base -> base <= 36 -> forall ds pre acc v r,
  numeral base pre acc -> numeral base (pre ++ ds) v -> (length (pre ++ ds) <= maxd)%nat -> v < bound ->
  stops base r ->
  number_loop base maxd bound (length pre) acc (ds ++ r) = Some (length (pre ++ ds), v, r).
Proof.
  intros base maxd bound B1 B. induction ds as [|c ds IH]; intros pre acc v r NP ND L V ST.
  - rewrite app_nil_r in *. rewrite (numeral_fun _ _ _ ND _ NP). cbn [app].
    destruct r as [|c q]; cbn [number_loop]; [reflexivity|]. rewrite (ST c q eq_refl). reflexivity.
  - cbn [app number_loop].
    assert (D : exists d, digit base c d).
    { eapply numeral_digits; [exact ND|]. apply in_or_app. right. left. reflexivity. }
    destruct D as (d & D). rewrite (proj2 (to_digit_spec base c d B) D). cbv zeta.
    replace (pre ++ c :: ds) with ((pre ++ [c]) ++ ds) in * by (rewrite <- app_assoc; reflexivity).
    destruct (numeral_split base ds (pre ++ [c]) v B1 ND) as (va & NA & LE).
    assert (NC : numeral base (pre ++ [c]) (acc * base + d)) by (constructor; auto).
    rewrite (numeral_fun _ _ _ NA _ NC) in *.
    replace (acc * base + d <? bound) with true by lia. cbn [negb].
    rewrite !app_length in *. cbn [length] in *.
    replace (Nat.ltb maxd (S (length pre))) with false by lia.
    specialize (IH (pre ++ [c]) _ v r NC ND). rewrite !app_length in IH. cbn [length] in IH.
    replace (length pre + 1)%nat with (S (length pre)) in * by lia. apply IH; auto.
Qed.

Definition zero_ok (zero : bool) (ds : text) : Prop := zero = false -> forall q, ds = 48 :: q -> q = [].

Lemma read_number_spec : forall base maxd bound zero t v r, 1 <= base -> base <= 36 -> 0 < bound ->
  read_number base maxd bound zero t = Some (v, r) <->
  exists ds, t = ds ++ r /\ ds <> [] /\ numeral base ds v /\ (length ds <= maxd)%nat /\ v < bound
             /\ zero_ok zero ds /\ stops base r.
Proof.
  intros base maxd bound zero t v r B1 B BD. unfold read_number. cbv zeta. split.
  - intros H. destruct (number_loop base maxd bound 0 0 t) as [[[n u] q]|] eqn:E; [|discriminate].
    destruct (number_loop_sound base maxd bound B t [] 0 n u q) as (ds & -> & ND & -> & L & V & ST);
      [constructor|cbn; lia|lia|exact E|]. cbn [app] in *.
    destruct (Nat.eqb_spec (length ds) 0); [discriminate|].
    destruct (negb zero && _ && _) eqn:Z; [discriminate|]. injection H as <- <-.
    exists ds. repeat split; auto; [intros ->; cbn in *; lia|].
    intros -> k ->. cbn in *. destruct k; [reflexivity|]. cbn in Z. discriminate.
  - intros (ds & -> & NE & ND & L & V & Z & ST).
    pose proof (number_loop_complete base maxd bound B1 B ds [] 0 v r) as C. cbn [app length] in C.
    rewrite C by (auto; constructor). destruct ds as [|c ds]; [congruence|].
    cbn [length Nat.eqb app]. destruct zero; cbn [negb andb]; [reflexivity|].
    destruct (N.eqb_spec c 48) as [->|]; cbn [andb]; [|reflexivity].
    rewrite (Z eq_refl ds eq_refl). reflexivity.
Qed.

Lemma numeral_bound : forall base t v, numeral base t v -> 1 <= base -> v < base ^ N.of_nat (length t).
Proof.
  induction 1 as [|t v c d H IH D]; intros B; [cbn; lia|]. specialize (IH B).
  rewrite app_length. cbn [length]. replace (N.of_nat (length t + 1)) with (N.succ (N.of_nat (length t))) by lia.
  rewrite N.pow_succ_r'. destruct D as [D _]. nia.
Qed.
Lemma numeral_lower : forall base t v, numeral base t v -> 1 <= base -> forall c r, t = c :: r -> c <> 48 ->
  base ^ N.of_nat (length r) <= v.
Proof.
  induction 1 as [|t v c d H IH D]; intros B x r E NZ; [discriminate|]. destruct t as [|y t].
  - cbn [app] in E. injection E as <- <-. cbn [length]. change (N.of_nat 0) with 0. rewrite N.pow_0_r.
    destruct D as [_ D]. inversion H as [X|a b e f ? ? X]; [|destruct a; discriminate]. lia.
  - cbn [app] in E. injection E as <- <-. specialize (IH B y t eq_refl NZ).
    rewrite app_length. cbn [length]. replace (N.of_nat (length t + 1)) with (N.succ (N.of_nat (length t))) by lia.
    rewrite N.pow_succ_r'. nia.
Qed.

Lemma read_octet_spec : forall t v r, read_octet t = Some (v, r) <->
  exists ds, t = ds ++ r /\ octet_text ds v /\ stops 10 r.
Proof.
  intros t v r. unfold read_octet. rewrite read_number_spec by lia. unfold octet_text, zero_ok. split.
  - intros (ds & -> & NE & ND & _ & V & Z & ST). exists ds. repeat split; auto.
  - intros (ds & -> & (NE & ND & V & Z) & ST). exists ds. repeat split; auto.
    destruct ds as [|c ds]; [congruence|]. destruct (N.eq_dec c 48) as [->|C].
    + rewrite (Z ds eq_refl). cbn. lia.
    + pose proof (numeral_lower 10 _ _ ND ltac:(lia) c ds eq_refl C) as LO. cbn [length].
      destruct (Nat.leb_spec (S (length ds)) 3); [assumption|]. exfalso.
      assert (10 ^ 3 <= 10 ^ N.of_nat (length ds)) by (apply N.pow_le_mono_r; lia).
      change (10 ^ 3) with 1000 in *. lia.
Qed.

Lemma stops_dot : forall base q, stops base (46 :: q).
Proof. intros base q c r [= <- <-]. reflexivity. Qed.
Lemma stops_colon : forall base q, stops base (58 :: q).
Proof. intros base q c r [= <- <-]. reflexivity. Qed.
Lemma stops_nil : forall base, stops base [].
Proof. intros base c r [=]. Qed.

Lemma read_char_spec : forall c t r, read_char c t = Some r <-> t = c :: r.
Proof.
  intros c [|x t] r; cbn; [split; discriminate|]. destruct (N.eqb_spec x c) as [->|NE].
  - split; [intros [= <-]|intros [= <-]]; reflexivity.
  - split; [discriminate|intros [= -> _]; congruence].
Qed.

Lemma read_dot_octet : forall i t v r, read_separator 46 (S i) read_octet t = Some (v, r) <->
  exists ds, t = 46 :: ds ++ r /\ octet_text ds v /\ stops 10 r.
Proof.
  intros i t v r. unfold read_separator. destruct (read_char 46 t) as [q|] eqn:E.
  - apply read_char_spec in E. subst t. rewrite read_octet_spec. split.
    + intros (ds & -> & O). exists ds. auto.
    + intros (ds & [= ->] & O). exists ds. auto.
  - split; [discriminate|]. intros (ds & -> & _). discriminate E.
Qed.

Lemma read_ipv4_spec : forall t o r, read_ipv4 t = Some (o, r) <->
  exists q, t = q ++ r /\ ipv4_text q o /\ stops 10 r.
Proof.
  intros t o r. unfold read_ipv4. change (read_separator 46 0 read_octet t) with (read_octet t). split.
  - intros H. destruct (read_octet t) as [[a t1]|] eqn:E1; [|discriminate].
    destruct (read_separator 46 1 read_octet t1) as [[b t2]|] eqn:E2; [|discriminate].
    destruct (read_separator 46 2 read_octet t2) as [[c t3]|] eqn:E3; [|discriminate].
    destruct (read_separator 46 3 read_octet t3) as [[d t4]|] eqn:E4; [|discriminate].
    injection H as <- <-. apply read_octet_spec in E1. destruct E1 as (da & -> & OA & _).
    apply read_dot_octet in E2. destruct E2 as (db & -> & OB & _).
    apply read_dot_octet in E3. destruct E3 as (dc & -> & OC & _).
    apply read_dot_octet in E4. destruct E4 as (dd & -> & OD & ST).
    exists (da ++ 46 :: db ++ 46 :: dc ++ 46 :: dd). split; [|split; [|exact ST]].
    + rewrite <- !app_assoc. cbn [app]. rewrite <- !app_assoc. cbn [app]. rewrite <- !app_assoc. reflexivity.
    + exists da, db, dc, dd, a, b, c, d. auto 8.
  - intros (q & -> & (da & db & dc & dd & a & b & c & d & -> & -> & OA & OB & OC & OD) & ST).
    repeat (rewrite <- app_assoc; cbn [app]).
    set (t3 := 46 :: dd ++ r). set (t2 := 46 :: dc ++ t3). set (t1 := 46 :: db ++ t2).
    assert (read_octet (da ++ t1) = Some (a, t1)) as ->
      by (apply read_octet_spec; exists da; split; [reflexivity|split; [exact OA|apply stops_dot]]).
    assert (read_separator 46 1 read_octet t1 = Some (b, t2)) as ->
      by (apply read_dot_octet; exists db; split; [reflexivity|split; [exact OB|apply stops_dot]]).
    assert (read_separator 46 2 read_octet t2 = Some (c, t3)) as ->
      by (apply read_dot_octet; exists dc; split; [reflexivity|split; [exact OC|apply stops_dot]]).
    assert (read_separator 46 3 read_octet t3 = Some (d, r)) as ->
      by (apply read_dot_octet; exists dd; split; [reflexivity|split; [exact OD|exact ST]]).
    reflexivity.
Qed.

(** No IPv4 address where the text up to the first colon has no dot. *)
Lemma no_dot : forall t r ds q, (forall c, In c t -> c <> 46) -> (r = [] \/ exists r', r = 58 :: r') ->
  t ++ r = ds ++ 46 :: q -> (forall c, In c ds -> c <> 58) -> False.
Proof.
  induction t as [|x t IH]; intros r ds q NT HR E ND; cbn [app] in E.
  - destruct HR as [-> | [r' ->]]; [destruct ds; discriminate|].
    destruct ds as [|y ds]; cbn in E; [discriminate|]. injection E as <- _. apply (ND 58); [left|]; reflexivity.
  - destruct ds as [|y ds]; cbn [app] in E.
    + injection E as -> _. apply (NT 46); [left|]; reflexivity.
    + injection E as -> E. apply (IH r ds q); auto; intros c C; [apply NT|apply ND]; right; exact C.
Qed.

Lemma numeral_no_char : forall base t v c, numeral base t v -> (forall d, ~ digit base c d) -> ~ In c t.
Proof. intros base t v c H N I. destruct (numeral_digits _ _ _ H c I) as (d & D). exact (N d D). Qed.
Lemma dot_no_digit : forall base d, ~ digit base 46 d.
Proof. unfold digit. intros. lia. Qed.
Lemma colon_no_digit : forall base d, base <= 16 -> ~ digit base 58 d.
Proof. unfold digit. intros. lia. Qed.

Lemma read_ipv4_no_dot : forall t r, (forall c, In c t -> c <> 46) -> (r = [] \/ exists r', r = 58 :: r') ->
  read_ipv4 (t ++ r) = None.
Proof.
  intros t r NT HR. destruct (read_ipv4 (t ++ r)) as [[o q]|] eqn:E; [|reflexivity]. exfalso.
  apply read_ipv4_spec in E. destruct E as (k & E & (a & b & c & d & w & x & y & z & -> & _ & (_ & NA & _) & _) & _).
  rewrite <- app_assoc in E. cbn [app] in E.
  eapply (no_dot t r a); eauto. intros e I ->. eapply (numeral_no_char 10 a w 58); eauto.
  intros dd. apply colon_no_digit. lia.
Qed.

Lemma read_group_spec : forall t v r, read_number 16 4 65536 true t = Some (v, r) <->
  exists g, t = g ++ r /\ group_text g v /\ stops 16 r.
Proof.
  intros t v r. rewrite read_number_spec by lia. unfold group_text, zero_ok. split.
  - intros (ds & -> & NE & ND & L & _ & _ & ST). exists ds. repeat split; auto. destruct ds; [congruence|cbn; lia].
  - intros (g & -> & (L & ND) & ST). exists g. repeat split; auto; [destruct g; [cbn in L; lia|discriminate]|lia| |discriminate].
    eapply N.lt_le_trans; [apply (numeral_bound _ _ _ ND); lia|]. change 65536 with (16 ^ 4). apply N.pow_le_mono_r; lia.
Qed.

(** With the separator in front, except at the beginning. *)
Definition sep (i : nat) (t : text) : text := match i with O => t | S _ => 58 :: t end.

Lemma read_sep_spec : forall (A : Type) i (inner : text -> option (A * text)) t x,
  read_separator 58 i inner t = Some x <-> exists q, t = sep i q /\ inner q = Some x.
Proof.
  intros A [|i] inner t x; cbn [read_separator sep].
  - split; [eauto|intros (q & -> & H); exact H].
  - destruct (read_char 58 t) as [q|] eqn:E.
    + apply read_char_spec in E. subst t. split; [eauto|]. intros (q' & [= <-] & H). exact H.
    + split; [discriminate|]. intros (q & -> & _). discriminate E.
Qed.
Lemma read_sep_none : forall (A : Type) i (inner : text -> option (A * text)) q,
  inner q = None -> read_separator 58 i inner (sep i q) = None.
Proof.
  intros A i inner q H. destruct (read_separator 58 i inner (sep i q)) as [x|] eqn:E; [|reflexivity].
  apply read_sep_spec in E. destruct E as (q' & E & H'). destruct i; cbn in E; [|injection E as E]; congruence.
Qed.

Lemma ipv4_text_length : forall t o, ipv4_text t o -> exists a b c d, o = [a; b; c; d].
Proof. intros t o (a & b & c & d & w & x & y & z & _ & -> & _). eauto. Qed.

Lemma read_groups_sound : forall left i t gs v4 r, read_groups left i t = (gs, v4, r) ->
  (gs = [] /\ v4 = false /\ r = t)
  \/ exists q, t = sep i q ++ r /\ groups v4 q gs /\ (length gs <= left)%nat.
Proof.
  induction left as [|left IH]; intros i t gs v4 r H; cbn [read_groups] in H.
  { injection H as <- <- <-. auto. }
  assert (GR : forall x, match read_separator 58 i (read_number 16 4 65536 true) t with
          | Some (g, r) => let '(gs, v4, r') := read_groups left (S i) r in (g :: gs, v4, r')
          | None => ([], false, t)
          end = x -> x = (gs, v4, r) -> (gs = [] /\ v4 = false /\ r = t)
              \/ exists q, t = sep i q ++ r /\ groups v4 q gs /\ (length gs <= S left)%nat).
  { intros x G ->. clear H. destruct (read_separator 58 i (read_number 16 4 65536 true) t) as [[g r1]|] eqn:E; [|injection G as <- <- <-; auto].
    right. apply read_sep_spec in E. destruct E as (q & -> & E). apply read_group_spec in E.
    destruct E as (d & -> & GT & _).
    destruct (read_groups left (S i) r1) as [[gs1 b1] r2] eqn:R. injection G as <- <- <-.
    assert (forall a b, sep i (a ++ b) = sep i a ++ b) as SA by (destruct i; reflexivity).
    destruct (IH _ _ _ _ _ R) as [(-> & -> & ->)|(q & -> & GQ & L)].
    - exists d. split; [apply SA|]. split; [constructor; exact GT|cbn; lia].
    - exists (d ++ 58 :: q). cbn [sep]. split; [|split; [constructor; auto|cbn; lia]].
      rewrite <- SA, <- app_assoc. reflexivity. }
  destruct (Nat.ltb 0 left) eqn:LT; [|eapply GR; [exact H|reflexivity]].
  destruct (read_separator 58 i read_ipv4 t) as [[o r1]|] eqn:E; [|eapply GR; [exact H|reflexivity]].
  apply read_sep_spec in E. destruct E as (q & -> & E). apply read_ipv4_spec in E. destruct E as (k & -> & I4 & _).
  destruct (ipv4_text_length _ _ I4) as (a & b & c & d & ->). injection H as <- <- <-. right.
  exists k. split; [destruct i; reflexivity|]. split; [constructor; auto|cbn; lia].
Qed.

Lemma groups_weaken : forall v4 t vs, groups v4 t vs -> groups true t vs.
Proof. induction 1; [apply gr_one|apply gr_v4|apply gr_more]; auto. Qed.
Lemma groups_v4_length : forall v4 t vs, groups v4 t vs -> (1 <= length vs)%nat.
Proof. induction 1; cbn; lia. Qed.

Lemma group_no_dot : forall t v, group_text t v -> forall c, In c t -> c <> 46.
Proof. intros t v [_ H] c I ->. eapply numeral_no_char; eauto. apply dot_no_digit. Qed.

(** What may follow groups: the end, or a double colon. *)
Definition ends (v4 : bool) (r : text) : Prop := r = [] \/ (v4 = false /\ exists q, r = 58 :: 58 :: q).

Lemma read_groups_stop : forall left i r v4, (i <> 0)%nat -> ends v4 r -> read_groups left i r = ([], false, r).
Proof.
  intros [|left] [|i] r v4 I E; try reflexivity; [congruence|].
  destruct E as [-> | (_ & q & ->)]; cbn [read_groups read_separator].
  - cbn [read_char]. destruct (Nat.ltb 0 left); reflexivity.
  - cbn [read_char]. change (58 =? 58) with true. cbv iota.
    assert (read_ipv4 (58 :: q) = None) as ->.
    { apply (read_ipv4_no_dot [] (58 :: q)); [intros c []|right; eauto]. }
    assert (read_number 16 4 65536 true (58 :: q) = None) as ->.
    { destruct (read_number 16 4 65536 true (58 :: q)) as [[v r]|] eqn:X; [|reflexivity].
      apply read_group_spec in X. destruct X as (g & X & ([L _] & ND) & _).
      destruct g as [|c g]; [cbn in L; lia|]. injection X as <- _. exfalso.
      eapply (numeral_no_char 16 _ v 58 ND); [intros d; apply colon_no_digit; lia|left; reflexivity]. }
    destruct (Nat.ltb 0 left); reflexivity.
Qed.

Lemma read_groups_complete : forall v4 q gs, groups v4 q gs -> forall left i r,
  (length gs <= left)%nat -> ends v4 r ->
  exists b, read_groups left i (sep i q ++ r) = (gs, b, r) /\ (v4 = false -> b = false).
Proof.
  induction 1 as [t v GT|t a b c d -> I4|t v k vs GT G IH]; intros left i r L E.
  - destruct left as [|left]; [cbn in L; lia|]. cbn [read_groups].
    replace (sep i t ++ r) with (sep i (t ++ r)) by (destruct i; reflexivity).
    assert (R : r = [] \/ exists r', r = 58 :: r') by (destruct E as [-> | (_ & q & ->)]; eauto).
    assert (read_separator 58 i read_ipv4 (sep i (t ++ r)) = None) as ->.
    { apply read_sep_none. apply read_ipv4_no_dot; [apply (group_no_dot t v GT)|exact R]. }
    assert (read_separator 58 i (read_number 16 4 65536 true) (sep i (t ++ r)) = Some (v, r)) as ->.
    { apply read_sep_spec. eexists. split; [reflexivity|]. apply read_group_spec. exists t.
      split; [reflexivity|split; [exact GT|]]. destruct R as [-> | (r' & ->)]; [apply stops_nil|apply stops_colon]. }
    rewrite (read_groups_stop left (S i) r v4) by (auto; lia).
    exists false. split; [destruct (Nat.ltb 0 left); reflexivity|auto].
  - destruct left as [|[|left]]; try (cbn in L; lia). cbn [read_groups Nat.ltb Nat.leb].
    replace (sep i t ++ r) with (sep i (t ++ r)) by (destruct i; reflexivity).
    destruct E as [-> | (X & _)]; [|discriminate].
    assert (read_separator 58 i read_ipv4 (sep i (t ++ [])) = Some ([a; b; c; d], [])) as ->.
    { apply read_sep_spec. eexists. split; [reflexivity|]. apply read_ipv4_spec. exists t.
      split; [reflexivity|split; [exact I4|apply stops_nil]]. }
    exists true. split; [reflexivity|discriminate].
  - cbn [length] in L. destruct left as [|left]; [lia|]. cbn [read_groups].
    replace (sep i (t ++ 58 :: k) ++ r) with (sep i (t ++ 58 :: k ++ r))
      by (destruct i; cbn [sep app]; rewrite <- app_assoc; reflexivity).
    assert (read_separator 58 i read_ipv4 (sep i (t ++ 58 :: k ++ r)) = None) as ->.
    { apply read_sep_none. apply read_ipv4_no_dot; [apply (group_no_dot t v GT)|eauto]. }
    assert (read_separator 58 i (read_number 16 4 65536 true) (sep i (t ++ 58 :: k ++ r)) = Some (v, 58 :: k ++ r)) as ->.
    { apply read_sep_spec. eexists. split; [reflexivity|]. apply read_group_spec. exists t.
      split; [reflexivity|split; [exact GT|apply stops_colon]]. }
    destruct (IH left (S i) r) as (b & R & B); [lia|exact E|]. cbn [sep app] in R. rewrite R.
    exists b. split; [destruct (Nat.ltb 0 left); reflexivity|exact B].
Qed.

Lemma read_groups_opt : forall v4 q gs left r, groups_or_none v4 q gs -> (length gs <= left)%nat -> ends v4 r ->
  exists b, read_groups left 0 (q ++ r) = (gs, b, r) /\ (v4 = false -> b = false).
Proof.
  intros v4 q gs left r [(-> & ->)|G] L E.
  - exists false. split; [|auto]. cbn [app]. destruct E as [-> | (_ & k & ->)]; destruct left as [|left]; try reflexivity.
    + cbn [read_groups read_separator]. destruct (Nat.ltb 0 left); reflexivity.
    + cbn [read_groups read_separator].
      assert (read_ipv4 (58 :: 58 :: k) = None) as ->
        by (apply (read_ipv4_no_dot [] (58 :: 58 :: k)); [intros c []|right; eauto]).
      destruct (Nat.ltb 0 left); reflexivity.
  - exact (read_groups_complete v4 q gs G left 0 r L E).
Qed.

Lemma read_ipv6_complete : forall t vs, eight_groups t vs -> read_ipv6 t = Some (vs, []).
Proof.
  intros t vs H. unfold read_ipv6. destruct H as [t vs G L|l vl r vr n GL GR N L].
  - destruct (read_groups_complete true t vs G 8 0 []) as (b & R & _); [lia|left; reflexivity|].
    cbn [sep] in R. rewrite app_nil_r in R. rewrite R, L. reflexivity.
  - destruct (read_groups_opt false l vl 8 (58 :: 58 :: r) GL) as (b & R & B); [lia|right; eauto|].
    rewrite R, (B eq_refl). replace (Nat.eqb (length vl) 8) with false by lia.
    change (read_char 58 (58 :: 58 :: r)) with (Some (58 :: r)). cbv iota.
    change (read_char 58 (58 :: r)) with (Some r). cbv iota.
    destruct (read_groups_opt true r vr (8 - (length vl + 1)) [] GR) as (b2 & R2 & _); [lia|left; reflexivity|].
    rewrite app_nil_r in R2. rewrite R2. replace (8 - length vl - length vr)%nat with n by lia. reflexivity.
Qed.

Lemma read_ipv6_sound : forall t vs, read_ipv6 t = Some (vs, []) -> eight_groups t vs.
Proof.
  intros t vs H. unfold read_ipv6 in H. destruct (read_groups 8 0 t) as [[head b] r] eqn:R.
  destruct (Nat.eqb_spec (length head) 8) as [L|L].
  - injection H as <- ->. destruct (read_groups_sound _ _ _ _ _ _ R) as [(-> & _)|(q & -> & G & _)]; [discriminate|].
    cbn [sep]. rewrite app_nil_r. apply eg_full; [eapply groups_weaken; exact G|exact L].
  - destruct b; [discriminate|]. destruct (read_char 58 r) as [r1|] eqn:C1; [|discriminate].
    destruct (read_char 58 r1) as [r2|] eqn:C2; [|discriminate].
    apply read_char_spec in C1, C2. subst r r1.
    destruct (read_groups (8 - (length head + 1)) 0 r2) as [[tail b2] r3] eqn:R2.
    remember (8 - length head - length tail)%nat as n eqn:EN. injection H as <- ->.
    assert (HL : exists l, t = l ++ 58 :: 58 :: r2 /\ groups_or_none false l head /\ (length head <= 8)%nat).
    { destruct (read_groups_sound _ _ _ _ _ _ R) as [(-> & _ & <-)|(q & -> & G & LL)].
      - exists []. split; [reflexivity|split; [left; auto|cbn; lia]].
      - exists q. split; [reflexivity|split; [right; exact G|exact LL]]. }
    destruct HL as (l & -> & GL & LL).
    assert (HR : groups_or_none true r2 tail /\ (length tail <= 8 - (length head + 1))%nat).
    { destruct (read_groups_sound _ _ _ _ _ _ R2) as [(-> & _ & <-)|(q & -> & G & LR)].
      - split; [left; auto|cbn; lia].
      - cbn [sep]. rewrite app_nil_r. split; [right; eapply groups_weaken; exact G|exact LR]. }
    destruct HR as (GR & LR). apply eg_short; auto; lia.
Qed.

Lemma eight_groups_no_ipv4 : forall t vs, eight_groups t vs -> read_ipv4 t = None.
Proof.
  assert (G : forall v4 t vs, groups v4 t vs -> (2 < length vs)%nat -> read_ipv4 t = None).
  { intros v4 t vs [t' v GT|t' a b c d _ _|t' v r vs' GT _] L; try (cbn in L; lia).
    apply read_ipv4_no_dot; [apply (group_no_dot _ _ GT)|eauto]. }
  intros t vs [t' vs' H L|l vl r vr n GL GR N L].
  - eapply G; eauto. lia.
  - destruct GL as [(-> & ->)|GL].
    + apply (read_ipv4_no_dot [] _); [intros c []|right; eauto].
    + destruct GL as [t' v GT|t' a b c d X _|t' v k vs' GT _]; [|discriminate|].
      * apply read_ipv4_no_dot; [apply (group_no_dot _ _ GT)|eauto].
      * rewrite <- app_assoc. cbn [app]. apply read_ipv4_no_dot; [apply (group_no_dot _ _ GT)|eauto].
Qed.

Lemma parse_ip_addr_spec : forall t a, parse_ip_addr t = Some a <-> address_text t a.
Proof.
  intros t a. unfold parse_ip_addr. split.
  - destruct (read_ipv4 t) as [[o [|x r]]|] eqn:R4; try discriminate.
    + intros [= <-]. apply read_ipv4_spec in R4. destruct R4 as (q & -> & H & _). rewrite app_nil_r. exact H.
    + destruct (read_ipv6 t) as [[vs [|x r]]|] eqn:R6; try discriminate. intros [= <-].
      exists vs. split; [apply read_ipv6_sound; exact R6|reflexivity].
  - destruct a as [o|o]; cbn [address_text].
    + intros H. assert (read_ipv4 t = Some (o, [])) as ->; [|reflexivity].
      apply read_ipv4_spec. exists t. rewrite app_nil_r. split; [reflexivity|split; [exact H|apply stops_nil]].
    + intros (vs & H & ->). rewrite (eight_groups_no_ipv4 _ _ H), (read_ipv6_complete _ _ H). reflexivity.
Qed.

Lemma address_text_fun : forall t a b, address_text t a -> address_text t b -> a = b.
Proof. intros t a b A B. apply parse_ip_addr_spec in A, B. congruence. Qed.
