(** The length and the characters of rule comments (C88). *)

From Coq Require Import String ZArith NArith List Bool Lia ZifyBool ZifyNat ZifyN.
From Verif Require Import M_Base M_IpAddr M_ConfTypes M_Text M_Firewall S_Wire S_Ip P_Base P_Text P_IpFmt.
Import ListNotations.
Local Open Scope N_scope.

Lemma dec_length : forall v k, (1 <= k)%nat -> v < 10 ^ N.of_nat k -> (length (fmt_dec v) <= k)%nat.
Proof.
  assert (LEN : forall f ten n acc k, (1 <= k)%nat -> n < 10 ^ N.of_nat k ->
    (length (fmt_fuel f ten 10 n acc) <= k + length acc)%nat).
  { induction f as [|f IH]; intros ten n acc k K Hn; cbn [fmt_fuel]; [lia|].
    destruct (N.ltb_spec n 10); [cbn [length]; lia|].
    destruct k as [|[|k]]; [lia|change (10 ^ N.of_nat 1) with 10 in Hn; lia|].
    specialize (IH ten (n / 10) (digit_char ten (n mod 10) :: acc) (S k)). cbn [length] in IH.
    eapply PeanoNat.Nat.le_trans; [apply IH; [lia|]|lia].
    apply N.div_lt_upper_bound; [lia|]. rewrite <- N.pow_succ_r'. rewrite <- Nat2N.inj_succ. exact Hn. }
  intros v k K H. pose proof (LEN (S (N.to_nat (N.size v))) LOWER v [] k K H) as L.
  cbn [length] in L. unfold fmt_dec, fmt_radix. lia.
Qed.

Lemma join_length : forall sep n l, (forall t, In t l -> (length t <= n)%nat) ->
  (length (join sep l) <= (n + 1) * length l)%nat /\ (l <> [] -> (length (join sep l) + 1 <= (n + 1) * length l)%nat).
Proof.
  intros sep n. induction l as [|x l IH]; intros B; [split; [cbn; lia|congruence]|].
  pose proof (B x (or_introl eq_refl)) as BX.
  destruct l as [|y l]; [cbn [join length]; split; intros; lia|].
  destruct IH as [_ IH]; [intros t J; apply B; right; exact J|]. specialize (IH ltac:(discriminate)).
  change (join sep (x :: y :: l)) with (x ++ sep :: join sep (y :: l)).
  rewrite app_length. cbn [length] in *. split; intros; lia.
Qed.

Lemma ipv4_length : forall o, length o = 4%nat -> all_bytes o -> (length (fmt_ipv4 o) <= 15)%nat.
Proof.
  intros o L B. unfold fmt_ipv4. destruct (join_length 46 3 (map fmt_dec o)) as [_ H].
  - intros t J. apply in_map_iff in J. destruct J as (v & <- & J). apply dec_length; [lia|].
    specialize (B v J). change (10 ^ N.of_nat 3) with 1000. lia.
  - rewrite map_length, L in H. destruct o; [discriminate L|]. specialize (H ltac:(discriminate)). lia.
Qed.

Lemma hex_join_length : forall l, (forall v, In v l -> v < 65536) ->
  (length (join 58 (map fmt_hex l)) <= 5 * length l)%nat
  /\ (l <> [] -> (length (join 58 (map fmt_hex l)) + 1 <= 5 * length l)%nat).
Proof.
  intros l B. destruct (join_length 58 4 (map fmt_hex l)) as [H1 H2].
  - intros t J. apply in_map_iff in J. destruct J as (v & <- & J). apply B in J.
    destruct (group_of v J) as [G _]. lia.
  - rewrite map_length in *. split; [lia|]. intros N. specialize (H2 ltac:(destruct l; [congruence|discriminate])). lia.
Qed.

Lemma mapped_shape : forall o v, to_ipv4_mapped o = Some v -> o = [0;0;0;0;0;0;0;0;0;0;255;255] ++ v /\ length v = 4%nat.
Proof.
  intros o v H. unfold to_ipv4_mapped in H.
  repeat match type of H with
  | match ?x with _ => _ end = _ => destruct x; try discriminate H
  end.
  injection H as <-. split; reflexivity.
Qed.

Lemma ipv6_length : forall o, length o = 16%nat -> all_bytes o -> (length (fmt_ipv6 o) <= 39)%nat.
Proof.
  intros o L B. unfold fmt_ipv6. destruct (to_ipv4_mapped o) as [v|] eqn:M.
  - apply mapped_shape in M. destruct M as [-> LV]. rewrite app_length.
    assert (length (fmt_ipv4 v) <= 15)%nat.
    { apply ipv4_length; [exact LV|]. intros x J. apply B. apply in_or_app. auto. }
    change (length (lit "::ffff:")) with 7%nat. lia.
  - destruct (segments_bytes o L B) as (LS & BS & _).
    destruct (zero_span 0 (0, 0)%nat (0, 0)%nat (segments o)) as [start len] eqn:Z.
    destruct (zero_span_segments _ _ _ Z) as [LE _].
    destruct (Nat.ltb 1 len) eqn:LT.
    + apply PeanoNat.Nat.ltb_lt in LT. rewrite !app_length. change (length (lit "::")) with 2%nat.
      destruct (hex_join_length (firstn start (segments o))) as [H1 _].
      { intros x J. apply BS. rewrite <- (firstn_skipn start). apply in_or_app. auto. }
      destruct (hex_join_length (skipn (start + len) (segments o))) as [H2 _].
      { intros x J. apply BS. rewrite <- (firstn_skipn (start + len)). apply in_or_app. auto. }
      rewrite firstn_length, LS in H1. rewrite skipn_length, LS in H2. lia.
    + destruct (hex_join_length (segments o) BS) as [_ H]. rewrite LS in H.
      specialize (H ltac:(destruct (segments o); [discriminate LS|discriminate])). lia.
Qed.

Lemma comment_length : forall a p, match a with Some a => ip_address a | None => True end ->
  match p with SpTcp p | SpUdp p => p < 65536 end -> (length (rule_comment a p) <= 74)%nat.
Proof.
  intros a p HA HP. unfold rule_comment. rewrite !app_length.
  change (length (lit "/")) with 1%nat. change (length (lit "/accept/letmein/GENERATED")) with 25%nat.
  assert (length (fmt_single_port p) <= 9)%nat as LP.
  { assert (forall v, v < 65536 -> (length (fmt_dec v) <= 5)%nat) as D.
    { intros v H. apply dec_length; [lia|]. change (10 ^ N.of_nat 5) with 100000. lia. }
    destruct p as [v|v]; unfold fmt_single_port; rewrite app_length;
      [change (length (lit "/TCP")) with 4%nat|change (length (lit "/UDP")) with 4%nat]; specialize (D v HP); lia. }
  assert (length (match a with Some a => fmt_ip a | None => lit "any" end) <= 39)%nat as LA.
  { destruct a as [[o|o]|]; [| |change (length (lit "any")) with 3%nat; lia]; destruct HA as [L B]; cbn [fmt_ip].
    - pose proof (ipv4_length o L B). lia.
    - exact (ipv6_length o L B). }
  lia.
Qed.

(** Letters, digits, dots, colons and slashes. *)
Definition plain_char (c : N) : Prop :=
  48 <= c <= 57 \/ 65 <= c <= 90 \/ 97 <= c <= 122 \/ c = 46 \/ c = 47 \/ c = 58.

Lemma radix_chars : forall base n c, 2 <= base <= 16 -> In c (fmt_radix LOWER base n) -> plain_char c.
Proof.
  intros base n c HB. unfold fmt_radix. generalize (S (N.to_nat (N.size n))). intros f.
  assert (forall f n acc, (forall x, In x acc -> plain_char x) -> In c (fmt_fuel f LOWER base n acc) -> plain_char c) as G.
  { induction f0 as [|f0 IH]; intros m acc A J; cbn [fmt_fuel] in J; [auto|].
    assert (forall d, d < 16 -> plain_char (digit_char LOWER d)) as D.
    { intros d Hd. unfold digit_char, LOWER, plain_char. destruct (N.ltb_spec d 10); lia. }
    destruct (N.ltb_spec m base).
    - destruct J as [<-|J]; [apply D; lia|auto].
    - revert J. apply IH. intros x [<-|J]; [|auto]. apply D. pose proof (N.mod_lt m base). lia. }
  apply G. intros x [].
Qed.

Lemma join_chars : forall sep l c, plain_char sep -> (forall t, In t l -> forall x, In x t -> plain_char x) ->
  In c (join sep l) -> plain_char c.
Proof.
  intros sep l c S. induction l as [|x l IH]; intros B J; [destruct J|].
  destruct l as [|y l]; [cbn [join] in J; exact (B x (or_introl eq_refl) c J)|].
  change (join sep (x :: y :: l)) with (x ++ sep :: join sep (y :: l)) in J.
  apply in_app_or in J. destruct J as [J|[<-|J]]; [exact (B x (or_introl eq_refl) c J)|exact S|].
  apply IH; [|exact J]. intros t T. apply B. right. exact T.
Qed.

Lemma lit_plain : forall s, forallb (fun c => ((48 <=? c) && (c <=? 57)) || ((65 <=? c) && (c <=? 90))
    || ((97 <=? c) && (c <=? 122)) || (c =? 46) || (c =? 47) || (c =? 58)) (lit s) = true ->
  forall c, In c (lit s) -> plain_char c.
Proof. intros s H c J. rewrite forallb_forall in H. specialize (H c J). unfold plain_char. lia. Qed.

Lemma comment_chars : forall a p c, In c (rule_comment a p) -> plain_char c.
Proof.
  assert (forall v c, In c (fmt_dec v) -> plain_char c) as DEC by (intros v c; apply radix_chars; lia).
  assert (forall l c, In c (join 58 (map fmt_hex l)) -> plain_char c) as HEX.
  { intros l c. apply join_chars; [unfold plain_char; lia|]. intros t T x.
    apply in_map_iff in T. destruct T as (v & <- & _). apply radix_chars. lia. }
  assert (forall o c, In c (fmt_ipv4 o) -> plain_char c) as V4C.
  { intros o c. apply join_chars; [unfold plain_char; lia|]. intros t T x.
    apply in_map_iff in T. destruct T as (v & <- & _). apply DEC. }
  intros a p c J. unfold rule_comment in J. apply in_app_or in J. destruct J as [J|J].
  - destruct a as [[o|o]|].
    + apply (V4C o c J).
    + cbn [fmt_ip] in J. unfold fmt_ipv6 in J. destruct (to_ipv4_mapped o) as [v|].
      * apply in_app_or in J. destruct J as [J|J]; [|apply (V4C v c J)]. revert J. apply lit_plain. reflexivity.
      * destruct (zero_span _ _ _ _) as [st ln]. destruct (Nat.ltb 1 ln); [|apply (HEX _ c J)].
        apply in_app_or in J. destruct J as [J|J]; [apply (HEX _ c J)|].
        apply in_app_or in J. destruct J as [J|J]; [|apply (HEX _ c J)]. revert J. apply lit_plain. reflexivity.
    + revert J. apply lit_plain. reflexivity.
  - apply in_app_or in J. destruct J as [J|J]; [revert J; apply lit_plain; reflexivity|].
    apply in_app_or in J. destruct J as [J|J]; [|revert J; apply lit_plain; reflexivity].
    unfold fmt_single_port in J. destruct p as [v|v]; apply in_app_or in J; destruct J as [J|J];
      try (apply (DEC v c J)); revert J; apply lit_plain; reflexivity.
Qed.
