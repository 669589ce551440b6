(** Lemmas about texts: number formatting and address formatting are
    injective. *)

From Coq Require Import String ZArith NArith List Bool Lia ZifyBool ZifyNat ZifyN.
From Verif Require Import M_Base M_IpAddr M_ConfTypes M_Text S_Wire P_Base.
Import ListNotations.
Local Open Scope N_scope.

(** ** Numbers *)

Definition digit_val (ten c : N) : N := if c <? 58 then c - 48 else c - ten + 10.
Definition text_val (ten base : N) (l : text) : N :=
  fold_left (fun a c => a * base + digit_val ten c) l 0.

Definition is_digit (ten base c : N) : Prop :=
  (48 <= c /\ c < 58) \/ (ten <= c /\ c < ten + 6 /\ 10 < base).

Lemma digit_char_val : forall ten base d, 58 <= ten -> base <= 16 -> d < base ->
  digit_val ten (digit_char ten d) = d /\ is_digit ten base (digit_char ten d).
Proof.
  intros ten base d HT HB Hd. unfold digit_char, digit_val, is_digit.
  destruct (d <? 10) eqn:E; (split; [|lia]).
  - destruct (48 + d <? 58) eqn:F; lia.
  - destruct (ten + (d - 10) <? 58) eqn:F; lia.
Qed.

Lemma fmt_fuel_spec : forall f ten base n acc,
  58 <= ten -> 2 <= base -> base <= 16 -> n < 2 ^ N.of_nat f ->
  exists ds, fmt_fuel (S f) ten base n acc = (ds ++ acc)%list /\ ds <> []
             /\ text_val ten base ds = n /\ (forall c, In c ds -> is_digit ten base c).
Proof.
  induction f as [|f IH]; intros ten base n acc HT HB1 HB2 Hn.
  - assert (n = 0) by (change (2 ^ N.of_nat 0) with 1 in Hn; lia). subst n. simpl.
    replace (0 <? base) with true by lia.
    exists [digit_char ten 0]. split; [reflexivity|]. split; [discriminate|].
    destruct (digit_char_val ten base 0) as [V D]; try lia.
    split.
    + unfold text_val. simpl fold_left. rewrite V. lia.
    + intros c [<-|[]]. exact D.
  - remember (S f) as sf. simpl. destruct (n <? base) eqn:E.
    + exists [digit_char ten n]. split; [reflexivity|]. split; [discriminate|].
      destruct (digit_char_val ten base n) as [V D]; try lia.
      split.
      * unfold text_val. simpl fold_left. rewrite V. lia.
      * intros c [<-|[]]. exact D.
    + subst sf.
      destruct (IH ten base (n / base) (digit_char ten (n mod base) :: acc)%list) as
          (ds & E1 & E2 & E3 & E4); auto.
      { rewrite Nat2N.inj_succ, N.pow_succ_r' in Hn.
        apply N.div_lt_upper_bound; [lia|]. nia. }
      exists (ds ++ [digit_char ten (n mod base)])%list. split; [|split; [|split]].
      * rewrite E1, <- app_assoc. reflexivity.
      * destruct ds; discriminate.
      * unfold text_val in *. rewrite fold_left_app, E3. simpl.
        destruct (digit_char_val ten base (n mod base)) as [V _]; [lia|lia|apply N.mod_lt; lia|].
        rewrite V. rewrite N.mul_comm. symmetry. apply N.div_mod. lia.
      * intros c Hc. apply in_app_or in Hc. destruct Hc as [Hc|[<-|[]]]; auto.
        apply digit_char_val; [lia|lia|apply N.mod_lt; lia].
Qed.

Lemma fmt_radix_spec : forall ten base n, 58 <= ten -> 2 <= base -> base <= 16 ->
  fmt_radix ten base n <> [] /\ text_val ten base (fmt_radix ten base n) = n
  /\ (forall c, In c (fmt_radix ten base n) -> is_digit ten base c).
Proof.
  intros. unfold fmt_radix.
  destruct (fmt_fuel_spec (N.to_nat (N.size n)) ten base n []) as (ds & E1 & E2 & E3 & E4); auto.
  { rewrite N2Nat.id. apply N.size_gt. }
  rewrite E1, app_nil_r. auto.
Qed.

Lemma fmt_radix_inj : forall ten base a b, 58 <= ten -> 2 <= base -> base <= 16 ->
  fmt_radix ten base a = fmt_radix ten base b -> a = b.
Proof.
  intros ten base a b H1 H2 H3 E.
  destruct (fmt_radix_spec ten base a H1 H2 H3) as (_ & V & _).
  destruct (fmt_radix_spec ten base b H1 H2 H3) as (_ & W & _).
  rewrite E in V. congruence.
Qed.

Lemma fmt_dec_inj : forall a b, fmt_dec a = fmt_dec b -> a = b.
Proof. intros a b. apply fmt_radix_inj; vm_compute; congruence. Qed.
Lemma fmt_hex_inj : forall a b, fmt_hex a = fmt_hex b -> a = b.
Proof. intros a b. apply fmt_radix_inj; vm_compute; congruence. Qed.

Lemma fmt_dec_chars : forall n c, In c (fmt_dec n) -> 48 <= c /\ c < 58.
Proof.
  intros n c H. destruct (fmt_radix_spec LOWER 10 n) as (_ & _ & D); try (vm_compute; congruence).
  destruct (D c H) as [?|[_ [_ X]]]; [auto|lia].
Qed.
Lemma fmt_hex_chars : forall n c, In c (fmt_hex n) ->
  (48 <= c /\ c < 58) \/ (97 <= c /\ c < 103).
Proof.
  intros n c H. destruct (fmt_radix_spec LOWER 16 n) as (_ & _ & D); try (vm_compute; congruence).
  destruct (D c H) as [?|[A [B X]]]; [auto|]. unfold LOWER in *. lia.
Qed.
Lemma fmt_dec_nonempty : forall n, fmt_dec n <> [].
Proof. intros n. apply fmt_radix_spec; vm_compute; congruence. Qed.
Lemma fmt_hex_nonempty : forall n, fmt_hex n <> [].
Proof. intros n. apply fmt_radix_spec; vm_compute; congruence. Qed.

(** ** Joining and splitting *)

Lemma split_on_nonempty : forall sep t, split_on sep t <> [].
Proof.
  intros sep [|c r]; simpl; [discriminate|].
  destruct (c =? sep); [discriminate|]. destruct (split_on sep r); discriminate.
Qed.

Lemma split_on_token : forall sep t, ~ In sep t -> split_on sep t = [t].
Proof.
  induction t as [|c r IH]; intros H; simpl; [reflexivity|].
  replace (c =? sep) with false.
  2:{ symmetry. apply N.eqb_neq. intros ->. apply H. left. reflexivity. }
  rewrite IH; [reflexivity|]. intros X. apply H. right. exact X.
Qed.

Lemma split_on_app : forall sep t r, ~ In sep t -> split_on sep (t ++ sep :: r) = t :: split_on sep r.
Proof.
  induction t as [|c t IH]; intros r H; simpl.
  - rewrite N.eqb_refl. reflexivity.
  - replace (c =? sep) with false.
    2:{ symmetry. apply N.eqb_neq. intros ->. apply H. left. reflexivity. }
    rewrite IH; [reflexivity|]. intros X. apply H. right. exact X.
Qed.

Lemma split_join : forall sep l, l <> [] -> (forall t, In t l -> ~ In sep t) ->
  split_on sep (join sep l) = l.
Proof.
  induction l as [|x l IH]; intros NE H; [congruence|].
  destruct l as [|y l].
  - simpl. apply split_on_token. apply H. left. reflexivity.
  - change (join sep (x :: y :: l)) with (x ++ sep :: join sep (y :: l)).
    rewrite split_on_app by (apply H; left; reflexivity).
    rewrite IH; [reflexivity|discriminate|]. intros t Ht. apply H. right. exact Ht.
Qed.

Lemma join_nil : forall sep l, (forall t, In t l -> t <> []) -> join sep l = [] -> l = [].
Proof.
  intros sep [|x [|y l]] H E; [reflexivity| |].
  - simpl in E. exfalso. apply (H x); [left; reflexivity|exact E].
  - simpl in E. destruct x; discriminate.
Qed.

Lemma join_inj : forall sep l l',
  (forall t, In t l -> ~ In sep t /\ t <> []) -> (forall t, In t l' -> ~ In sep t /\ t <> []) ->
  join sep l = join sep l' -> l = l'.
Proof.
  intros sep l l' H H' E.
  destruct l as [|x l].
  { symmetry. apply (join_nil sep); [intros; apply H'; assumption|]. symmetry. exact E. }
  destruct l' as [|y l'].
  { apply (join_nil sep); [intros; apply H; assumption|]. exact E. }
  rewrite <- (split_join sep (x :: l)), E, split_join; auto; try discriminate.
  - intros t Ht. apply H'. exact Ht.
  - intros t Ht. apply H. exact Ht.
Qed.

Lemma join_chars : forall sep l c, In c (join sep l) -> c = sep \/ exists t, In t l /\ In c t.
Proof.
  induction l as [|x l IH]; intros c H; [contradiction|].
  destruct l as [|y l].
  - right. exists x. split; [left; reflexivity|exact H].
  - change (join sep (x :: y :: l)) with (x ++ sep :: join sep (y :: l)) in H.
    apply in_app_or in H. destruct H as [H|[H|H]].
    + right. exists x. split; [left; reflexivity|exact H].
    + left. auto.
    + destruct (IH c H) as [?|(t & T & C)]; [auto|]. right. exists t. split; [right; exact T|exact C].
Qed.

Lemma map_inj : forall (A B : Type) (f : A -> B), (forall a b, f a = f b -> a = b) ->
  forall l l', map f l = map f l' -> l = l'.
Proof.
  intros A B f F. induction l as [|x l IH]; intros [|y l'] E; try discriminate; [reflexivity|].
  simpl in E. injection E as E1 E2. f_equal; auto.
Qed.

(** ** IPv4 *)

Lemma dec_token : forall sep n, sep < 48 \/ 58 <= sep -> ~ In sep (fmt_dec n) /\ fmt_dec n <> [].
Proof.
  intros sep n H. split; [|apply fmt_dec_nonempty]. intros I. apply fmt_dec_chars in I. lia.
Qed.
Lemma hex_token : forall n, ~ In 58 (fmt_hex n) /\ fmt_hex n <> [].
Proof.
  intros n. split; [|apply fmt_hex_nonempty]. intros I. apply fmt_hex_chars in I. lia.
Qed.

Lemma fmt_ipv4_inj : forall a b, fmt_ipv4 a = fmt_ipv4 b -> a = b.
Proof.
  intros a b E. apply (map_inj _ _ fmt_dec fmt_dec_inj). apply (join_inj 46); [| |exact E];
    intros t T; apply in_map_iff in T; destruct T as (n & <- & _); apply dec_token; lia.
Qed.

Lemma fmt_ipv4_chars : forall o c, In c (fmt_ipv4 o) -> c = 46 \/ (48 <= c /\ c < 58).
Proof.
  intros o c H. apply join_chars in H. destruct H as [->|(t & T & C)]; [auto|].
  apply in_map_iff in T. destruct T as (n & <- & _). apply fmt_dec_chars in C. auto.
Qed.

Lemma fmt_ipv4_dot : forall o, length o = 4%nat -> In 46 (fmt_ipv4 o).
Proof.
  intros [|a [|b r]] H; try discriminate. unfold fmt_ipv4. simpl map.
  change (join 46 (fmt_dec a :: fmt_dec b :: map fmt_dec r))
    with (fmt_dec a ++ 46 :: join 46 (fmt_dec b :: map fmt_dec r)).
  apply in_or_app. right. left. reflexivity.
Qed.

(** ** IPv6 *)

Lemma pair_inj : forall a b c d, b < 256 -> d < 256 -> a * 256 + b = c * 256 + d -> a = c /\ b = d.
Proof. intros. lia. Qed.

Lemma segments_inj : forall a b, all_bytes a -> all_bytes b ->
  length a = 16%nat -> length b = 16%nat -> segments a = segments b -> a = b.
Proof.
  intros a b BA BB LA LB E. explode LA. explode LB. split_bytes. simpl in E.
  injection E. intros.
  repeat match goal with H : _ * 256 + _ = _ |- _ => apply pair_inj in H; [destruct H; subst|assumption|assumption] end.
  reflexivity.
Qed.

(** A span of zeros in a list. *)
Definition zeros_at (l : list N) (s : nat * nat) : Prop :=
  (fst s + snd s <= length l)%nat
  /\ l = firstn (fst s) l ++ repeat 0 (snd s) ++ skipn (fst s + snd s) l.

Lemma zeros_at_app : forall l r s, zeros_at l s -> zeros_at (l ++ r) s.
Proof.
  intros l r [a n] [HL HE]. cbn [fst snd] in *. split; cbn [fst snd].
  - rewrite app_length. lia.
  - rewrite firstn_app, skipn_app.
    replace (a - length l)%nat with 0%nat by lia.
    replace (a + n - length l)%nat with 0%nat by lia.
    rewrite firstn_O, app_nil_r, skipn_O.
    rewrite HE at 1. rewrite <- !app_assoc. reflexivity.
Qed.

Lemma zeros_at_snoc : forall l a n, zeros_at l (a, n) -> (a + n = length l)%nat ->
  zeros_at (l ++ [0]) (a, S n).
Proof.
  intros l a n [HL HE] HA. cbn [fst snd] in *. split; cbn [fst snd].
  - rewrite app_length. simpl. lia.
  - rewrite firstn_app. replace (a - length l)%nat with 0%nat by lia.
    rewrite firstn_O, app_nil_r.
    rewrite (skipn_all2 (n := a + S n)) by (rewrite app_length; simpl; lia).
    rewrite skipn_all2 in HE by lia. rewrite app_nil_r in *.
    rewrite HE at 1. rewrite <- app_assoc. f_equal.
    replace (S n) with (n + 1)%nat by lia. rewrite repeat_app. reflexivity.
Qed.

Lemma zero_span_spec : forall l p cur lon,
  (snd cur = 0%nat \/ (fst cur + snd cur = length p)%nat) -> zeros_at p cur -> zeros_at p lon ->
  zeros_at (p ++ l) (zero_span (length p) cur lon l).
Proof.
  induction l as [|s l IH]; intros p cur lon HC ZC ZL.
  - simpl. rewrite app_nil_r. exact ZL.
  - assert (p ++ s :: l = (p ++ [s]) ++ l)%list as EQ by (rewrite <- app_assoc; reflexivity).
    assert (length (p ++ [s]) = S (length p)) as EL by (rewrite app_length; simpl; lia).
    simpl. destruct (s =? 0) eqn:E.
    + apply N.eqb_eq in E. subst s.
      set (start := if Nat.eqb (snd cur) 0 then length p else fst cur).
      assert (zeros_at (p ++ [0]) (start, S (snd cur))) as Z.
      { unfold start. destruct (Nat.eqb_spec (snd cur) 0) as [E|E].
        - rewrite E. apply zeros_at_snoc; [|lia]. split; cbn [fst snd]; [lia|].
          rewrite firstn_all, skipn_all2 by lia. simpl. rewrite app_nil_r. reflexivity.
        - destruct HC as [?|HC]; [lia|]. destruct cur as [a n]. cbn [fst snd] in *.
          apply zeros_at_snoc; auto. }
      rewrite EQ, <- EL. apply IH; cbn [fst snd].
      * right. rewrite EL. unfold start. destruct (Nat.eqb_spec (snd cur) 0) as [E|E]; lia.
      * exact Z.
      * destruct (Nat.ltb (snd lon) (S (snd cur))); [exact Z|]. apply zeros_at_app. exact ZL.
    + rewrite EQ, <- EL. apply IH.
      * left. reflexivity.
      * split; cbn [fst snd]; [lia|reflexivity].
      * apply zeros_at_app. exact ZL.
Qed.

Lemma zero_span_segments : forall l start len,
  zero_span 0 (0, 0)%nat (0, 0)%nat l = (start, len) ->
  (start + len <= length l)%nat
  /\ l = firstn start l ++ repeat 0 len ++ skipn (start + len) l.
Proof.
  intros l start len E.
  assert (zeros_at [] (0, 0)%nat) as Z by (split; [simpl; lia|reflexivity]).
  pose proof (zero_span_spec l [] (0, 0)%nat (0, 0)%nat (or_introl eq_refl) Z Z) as H.
  simpl in H. rewrite E in H. exact H.
Qed.

(** The text before and after the first "::". *)
Fixpoint cut (t : text) : option (text * text) :=
  match t with
  | [] => None
  | c :: r =>
      match c =? 58, r with
      | true, d :: r' =>
          if d =? 58 then Some ([], r')
          else option_map (fun x => (c :: fst x, snd x)) (cut r)
      | _, _ => option_map (fun x => (c :: fst x, snd x)) (cut r)
      end
  end.

Lemma cut_cons : forall c r, c <> 58 ->
  cut (c :: r) = option_map (fun x => (c :: fst x, snd x)) (cut r).
Proof.
  intros c r H. cbn [cut]. apply N.eqb_neq in H. rewrite H. destruct r; reflexivity.
Qed.

Lemma cut_token : forall t r, ~ In 58 t ->
  cut (t ++ r) = option_map (fun x => (t ++ fst x, snd x)) (cut r).
Proof.
  induction t as [|c t IH]; intros r H.
  - simpl. destruct (cut r) as [[a b]|]; reflexivity.
  - change ((c :: t) ++ r) with (c :: (t ++ r)).
    rewrite cut_cons by (intros ->; apply H; left; reflexivity).
    rewrite IH by (intros X; apply H; right; exact X).
    destruct (cut r) as [[a b]|]; reflexivity.
Qed.

Lemma cut_join : forall l r, (forall t, In t l -> ~ In 58 t /\ t <> []) ->
  cut (join 58 l ++ 58 :: 58 :: r) = Some (join 58 l, r).
Proof.
  induction l as [|x l IH]; intros r H; [reflexivity|].
  destruct l as [|y l].
  - simpl join. rewrite cut_token by (apply H; left; reflexivity). simpl.
    rewrite app_nil_r. reflexivity.
  - change (join 58 (x :: y :: l)) with (x ++ 58 :: join 58 (y :: l)).
    rewrite <- app_assoc. rewrite cut_token by (apply H; left; reflexivity).
    assert (forall t, In t (y :: l) -> ~ In 58 t /\ t <> []) as H'
      by (intros t T; apply H; right; exact T).
    specialize (IH r H').
    assert (exists c q, join 58 (y :: l) = c :: q /\ c <> 58) as (c & q & EJ & NC).
    { destruct (H' y (or_introl eq_refl)) as [NI NE]. destruct y as [|c y']; [congruence|].
      assert (c <> 58) by (intros ->; apply NI; left; reflexivity).
      destruct l; simpl; eauto. }
    rewrite EJ in *. simpl app in *.
    change (cut (58 :: c :: q ++ 58 :: 58 :: r))
      with (if c =? 58 then Some ([], q ++ 58 :: 58 :: r)
            else option_map (fun x => (58 :: fst x, snd x)) (cut (c :: q ++ 58 :: 58 :: r))).
    apply N.eqb_neq in NC. rewrite NC, IH. reflexivity.
Qed.

Lemma cut_none : forall l, (forall t, In t l -> ~ In 58 t /\ t <> []) -> cut (join 58 l) = None.
Proof.
  induction l as [|x l IH]; intros H; [reflexivity|].
  assert (forall t r, ~ In 58 t -> cut r = None -> cut (t ++ r) = None) as TK.
  { intros t r A B. rewrite cut_token by exact A. rewrite B. reflexivity. }
  destruct l as [|y l].
  - simpl. rewrite <- (app_nil_r x). apply TK; [|reflexivity]. apply H. left. reflexivity.
  - change (join 58 (x :: y :: l)) with (x ++ 58 :: join 58 (y :: l)).
    assert (forall t, In t (y :: l) -> ~ In 58 t /\ t <> []) as H'
      by (intros t T; apply H; right; exact T).
    specialize (IH H'). apply TK; [apply H; left; reflexivity|].
    assert (exists c q, join 58 (y :: l) = c :: q /\ c <> 58) as (c & q & EJ & NC).
    { destruct (H' y (or_introl eq_refl)) as [NI NE]. destruct y as [|c y']; [congruence|].
      assert (c <> 58) by (intros ->; apply NI; left; reflexivity).
      destruct l; simpl; eauto. }
    rewrite EJ in *.
    change (cut (58 :: c :: q)) with (if c =? 58 then Some ([], q)
            else option_map (fun x => (58 :: fst x, snd x)) (cut (c :: q))).
    apply N.eqb_neq in NC. rewrite NC, IH. reflexivity.
Qed.

Definition plain_ipv6 (segs : list N) : text :=
  let (start, len) := zero_span 0 (0, 0)%nat (0, 0)%nat segs in
  if Nat.ltb 1 len then
    join 58 (map fmt_hex (firstn start segs)) ++ lit "::"
    ++ join 58 (map fmt_hex (skipn (start + len) segs))
  else join 58 (map fmt_hex segs).

Lemma hex_tokens : forall l t, In t (map fmt_hex l) -> ~ In 58 t /\ t <> [].
Proof.
  intros l t T. apply in_map_iff in T. destruct T as (n & <- & _). apply hex_token.
Qed.

Lemma plain_ipv6_inj : forall a b, length a = length b -> plain_ipv6 a = plain_ipv6 b -> a = b.
Proof.
  intros a b L E. unfold plain_ipv6 in E.
  destruct (zero_span 0 (0, 0)%nat (0, 0)%nat a) as [sa la] eqn:EA.
  destruct (zero_span 0 (0, 0)%nat (0, 0)%nat b) as [sb lb] eqn:EB.
  apply zero_span_segments in EA. apply zero_span_segments in EB.
  destruct EA as [La EA]. destruct EB as [Lb EB].
  change (lit "::") with [58; 58] in E. cbn [app] in E.
  destruct (Nat.ltb 1 la), (Nat.ltb 1 lb); apply (f_equal cut) in E as C.
  - rewrite !cut_join in C by apply hex_tokens. injection C as C1 C2.
    apply join_inj in C1; try apply hex_tokens. apply join_inj in C2; try apply hex_tokens.
    apply (map_inj _ _ fmt_hex fmt_hex_inj) in C1.
    apply (map_inj _ _ fmt_hex fmt_hex_inj) in C2.
    rewrite EA, EB, C1, C2. f_equal. f_equal.
    apply (f_equal (@length N)) in EA. apply (f_equal (@length N)) in EB.
    rewrite !app_length, repeat_length in EA, EB. rewrite C1, C2 in EA.
    f_equal. lia.
  - rewrite cut_join in C by apply hex_tokens.
    rewrite cut_none in C by apply hex_tokens. discriminate.
  - rewrite cut_join in C by apply hex_tokens.
    rewrite cut_none in C by apply hex_tokens. discriminate.
  - apply join_inj in E; try apply hex_tokens.
    apply (map_inj _ _ fmt_hex fmt_hex_inj) in E. exact E.
Qed.

Lemma plain_ipv6_chars : forall s c, In c (plain_ipv6 s) ->
  c = 58 \/ (48 <= c /\ c < 58) \/ (97 <= c /\ c < 103).
Proof.
  assert (forall l c, In c (join 58 (map fmt_hex l)) ->
                      c = 58 \/ (48 <= c /\ c < 58) \/ (97 <= c /\ c < 103)) as J.
  { intros l c H. apply join_chars in H. destruct H as [->|(t & T & C)]; [auto|].
    apply in_map_iff in T. destruct T as (n & <- & _). apply fmt_hex_chars in C. auto. }
  intros s c H. unfold plain_ipv6 in H.
  destruct (zero_span 0 (0, 0)%nat (0, 0)%nat s) as [st len].
  destruct (Nat.ltb 1 len); [|apply (J _ _ H)].
  apply in_app_or in H. destruct H as [H|H]; [apply (J _ _ H)|].
  destruct H as [<-|[<-|H]]; auto. apply (J _ _ H).
Qed.

Lemma mapped_spec : forall o v, to_ipv4_mapped o = Some v ->
  length v = 4%nat /\ o = [0;0;0;0;0;0;0;0;0;0;255;255] ++ v.
Proof.
  intros o v H. unfold to_ipv4_mapped in H.
  repeat match type of H with
         | match ?x with _ => _ end = _ => destruct x; try discriminate
         end.
  injection H as <-. split; reflexivity.
Qed.

Lemma mapped_of : forall v, length v = 4%nat ->
  to_ipv4_mapped ([0;0;0;0;0;0;0;0;0;0;255;255] ++ v) = Some v.
Proof. intros v H. explode H. reflexivity. Qed.

Lemma fmt_ipv6_chars : forall o c, In c (fmt_ipv6 o) ->
  c = 58 \/ c = 46 \/ (48 <= c /\ c < 58) \/ (97 <= c /\ c < 103).
Proof.
  intros o c H. unfold fmt_ipv6 in H. destruct (to_ipv4_mapped o) as [v|].
  - apply in_app_or in H. destruct H as [H|H].
    + simpl in H. repeat destruct H as [<-|H]; try contradiction; lia.
    + apply fmt_ipv4_chars in H. lia.
  - apply plain_ipv6_chars in H. lia.
Qed.

Lemma fmt_ipv6_inj : forall a b, ip_address (V6 a) -> ip_address (V6 b) ->
  fmt_ipv6 a = fmt_ipv6 b -> a = b.
Proof.
  intros a b [LA BA] [LB BB] E. unfold fmt_ipv6 in E.
  assert (forall v s, length v = 4%nat -> lit "::ffff:" ++ fmt_ipv4 v <> plain_ipv6 s) as NE.
  { intros v s LV X. assert (In 46 (plain_ipv6 s)) as I.
    { rewrite <- X. apply in_or_app. right. apply fmt_ipv4_dot. exact LV. }
    apply plain_ipv6_chars in I. lia. }
  destruct (to_ipv4_mapped a) as [va|] eqn:MA; destruct (to_ipv4_mapped b) as [vb|] eqn:MB.
  - apply app_inv_head in E. apply fmt_ipv4_inj in E. subst vb.
    apply mapped_spec in MA. apply mapped_spec in MB. destruct MA, MB. congruence.
  - apply mapped_spec in MA. exfalso. apply (NE va (segments b)); [apply MA|exact E].
  - apply mapped_spec in MB. exfalso. apply (NE vb (segments a)); [apply MB|symmetry; exact E].
  - apply segments_inj; auto. apply plain_ipv6_inj; [|exact E].
    clear - LA LB. explode LA. explode LB. reflexivity.
Qed.

Lemma fmt_ipv6_colon : forall o, length o = 16%nat -> In 58 (fmt_ipv6 o).
Proof.
  intros o L. unfold fmt_ipv6. destruct (to_ipv4_mapped o) as [v|].
  - left. reflexivity.
  - fold (plain_ipv6 (segments o)). unfold plain_ipv6.
    destruct (zero_span 0 (0, 0)%nat (0, 0)%nat (segments o)) as [st len].
    destruct (Nat.ltb 1 len).
    + apply in_or_app. right. left. reflexivity.
    + explode L. cbn [segments map join]. apply in_or_app. right. left. reflexivity.
Qed.

Lemma fmt_ip_inj : forall a b, ip_address a -> ip_address b -> fmt_ip a = fmt_ip b -> a = b.
Proof.
  intros [a|a] [b|b] HA HB E; simpl in E.
  - apply fmt_ipv4_inj in E. congruence.
  - exfalso. assert (In 58 (fmt_ipv4 a)) as I by (rewrite E; apply fmt_ipv6_colon; apply HB).
    apply fmt_ipv4_chars in I. lia.
  - exfalso. assert (In 58 (fmt_ipv4 b)) as I by (rewrite <- E; apply fmt_ipv6_colon; apply HA).
    apply fmt_ipv4_chars in I. lia.
  - f_equal. apply fmt_ipv6_inj; auto.
Qed.

Lemma fmt_ip_chars : forall a c, In c (fmt_ip a) ->
  c = 58 \/ c = 46 \/ (48 <= c /\ c < 58) \/ (97 <= c /\ c < 103).
Proof.
  intros [o|o] c H; simpl in H; [apply fmt_ipv4_chars in H|apply fmt_ipv6_chars in H]; lia.
Qed.
