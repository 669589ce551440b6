(** The UTF-8 decoder is the inverse of the encoder. *)

From Coq Require Import String ZArith NArith List Bool Lia ZifyBool ZifyNat ZifyN.
From Verif Require Import M_Base M_ConfTypes M_Text M_Utf8 S_Text P_Base.
Import ListNotations.
Local Open Scope N_scope.

Lemma decode_char : forall c r, scalar c -> from_utf8 (utf8_char c ++ r) = option_map (cons c) (from_utf8 r).
Proof.
  intros c r S. unfold scalar in S. unfold utf8_char.
  destruct (N.ltb_spec c 128) as [H|H].
  { cbn [app from_utf8]. destruct (N.ltb_spec c 128); [reflexivity|lia]. }
  destruct (N.ltb_spec c 2048) as [H2|H2].
  { cbn [app from_utf8]. unfold is_cont.
    destruct (192 + c / 64 <? 128) eqn:E; [lia|].
    destruct ((194 <=? 192 + c / 64) && (192 + c / 64 <=? 223))%bool eqn:E2; [|lia].
    destruct ((128 <=? 128 + c mod 64) && (128 + c mod 64 <=? 191))%bool eqn:E3; [|lia].
    f_equal. f_equal. lia. }
  destruct (N.ltb_spec c 65536) as [H3|H3].
  { cbn [app from_utf8]. unfold is_cont. set (x := c / 4096). set (y := c / 64 mod 64). set (z := c mod 64).
    assert (X : c = x * 4096 + y * 64 + z /\ y < 64 /\ z < 64) by (subst x y z; lia).
    clearbody x y z.
    destruct (224 + x <? 128) eqn:E; [lia|].
    destruct ((194 <=? 224 + x) && (224 + x <=? 223))%bool eqn:E2; [lia|].
    destruct ((224 <=? 224 + x) && (224 + x <=? 239))%bool eqn:E3; [|lia].
    assert (O1 : (if 224 + x =? 224 then (160 <=? 128 + y) && (128 + y <=? 191)
                  else if 224 + x =? 237 then (128 <=? 128 + y) && (128 + y <=? 159)
                  else (128 <=? 128 + y) && (128 + y <=? 191))%bool = true).
    { destruct (224 + x =? 224) eqn:Q1; [lia|]. destruct (224 + x =? 237) eqn:Q2; lia. }
    cbn zeta. rewrite O1.
    destruct ((128 <=? 128 + z) && (128 + z <=? 191))%bool eqn:E4; [|lia]. cbn [andb].
    f_equal. f_equal. lia. }
  cbn [app from_utf8]. unfold is_cont.
  set (x := c / 262144). set (w := c / 4096 mod 64). set (y := c / 64 mod 64). set (z := c mod 64).
  assert (X : c = x * 262144 + w * 4096 + y * 64 + z /\ w < 64 /\ y < 64 /\ z < 64) by (subst x y z w; lia).
  clearbody x y z w.
  destruct (240 + x <? 128) eqn:E; [lia|].
  destruct ((194 <=? 240 + x) && (240 + x <=? 223))%bool eqn:E2; [lia|].
  destruct ((224 <=? 240 + x) && (240 + x <=? 239))%bool eqn:E3; [lia|].
  destruct ((240 <=? 240 + x) && (240 + x <=? 244))%bool eqn:E4; [|lia].
  assert (O1 : (if 240 + x =? 240 then (144 <=? 128 + w) && (128 + w <=? 191)
                else if 240 + x =? 244 then (128 <=? 128 + w) && (128 + w <=? 143)
                else (128 <=? 128 + w) && (128 + w <=? 191))%bool = true).
  { destruct (240 + x =? 240) eqn:Q1; [lia|]. destruct (240 + x =? 244) eqn:Q2; lia. }
  cbn zeta. rewrite O1.
  destruct ((128 <=? 128 + y) && (128 + y <=? 191))%bool eqn:E5; [|lia].
  destruct ((128 <=? 128 + z) && (128 + z <=? 191))%bool eqn:E6; [|lia]. cbn [andb].
  f_equal. f_equal. lia.
Qed.

Lemma from_utf8_complete : forall bs t, utf8 bs t -> from_utf8 bs = Some t.
Proof.
  intros bs t (S & ->). induction S as [|c t H S IH]; [reflexivity|].
  cbn [map concat]. rewrite decode_char by exact H. rewrite IH. reflexivity.
Qed.

Lemma utf8_cons : forall c t bs, scalar c -> utf8 bs t -> utf8 (utf8_char c ++ bs) (c :: t).
Proof. intros c t bs S (F & ->). split; [constructor; auto|reflexivity]. Qed.

Lemma char2 : forall a b, 194 <= a -> a <= 223 -> 128 <= b -> b <= 191 ->
  utf8_char ((a - 192) * 64 + (b - 128)) = [a; b] /\ scalar ((a - 192) * 64 + (b - 128)).
Proof.
  intros a b H1 H2 H3 H4. set (c := (a - 192) * 64 + (b - 128)).
  assert (c / 64 = a - 192 /\ c mod 64 = b - 128) as (E1 & E2) by (subst c; lia).
  assert (128 <= c < 2048) by (subst c; lia). clearbody c.
  split; [|unfold scalar; lia]. unfold utf8_char.
  destruct (N.ltb_spec c 128); [lia|]. destruct (N.ltb_spec c 2048); [|lia].
  rewrite E1, E2. f_equal; [lia|]. f_equal. lia.
Qed.
Lemma char3 : forall a b d, 224 <= a -> a <= 239 -> 128 <= b -> b <= 191 -> 128 <= d -> d <= 191 ->
  (a = 224 -> 160 <= b) -> (a = 237 -> b <= 159) ->
  utf8_char ((a - 224) * 4096 + (b - 128) * 64 + (d - 128)) = [a; b; d]
  /\ scalar ((a - 224) * 4096 + (b - 128) * 64 + (d - 128)).
Proof.
  intros a b d H1 H2 H3 H4 H5 H6 H7 H8. set (c := (a - 224) * 4096 + (b - 128) * 64 + (d - 128)).
  assert (c / 4096 = a - 224 /\ c / 64 mod 64 = b - 128 /\ c mod 64 = d - 128) as (E1 & E2 & E3) by (subst c; lia).
  assert (2048 <= c < 65536 /\ scalar c) as (R & S) by (unfold scalar; subst c; lia). clearbody c.
  split; [|exact S]. unfold utf8_char.
  destruct (N.ltb_spec c 128); [lia|]. destruct (N.ltb_spec c 2048); [lia|]. destruct (N.ltb_spec c 65536); [|lia].
  rewrite E1, E2, E3. f_equal; [lia|]. f_equal; [lia|]. f_equal. lia.
Qed.
Lemma char4 : forall a b d e, 240 <= a -> a <= 244 -> 128 <= b -> b <= 191 -> 128 <= d -> d <= 191 ->
  128 <= e -> e <= 191 -> (a = 240 -> 144 <= b) -> (a = 244 -> b <= 143) ->
  utf8_char ((a - 240) * 262144 + (b - 128) * 4096 + (d - 128) * 64 + (e - 128)) = [a; b; d; e]
  /\ scalar ((a - 240) * 262144 + (b - 128) * 4096 + (d - 128) * 64 + (e - 128)).
Proof.
  intros a b d e H1 H2 H3 H4 H5 H6 H7 H8 H9 H10.
  set (c := (a - 240) * 262144 + (b - 128) * 4096 + (d - 128) * 64 + (e - 128)).
  assert (c / 262144 = a - 240 /\ c / 4096 mod 64 = b - 128 /\ c / 64 mod 64 = d - 128 /\ c mod 64 = e - 128)
    as (E1 & E2 & E3 & E4) by (subst c; lia).
  assert (65536 <= c < 1114112 /\ scalar c) as (R & S) by (unfold scalar; subst c; lia). clearbody c.
  split; [|exact S]. unfold utf8_char.
  destruct (N.ltb_spec c 128); [lia|]. destruct (N.ltb_spec c 2048); [lia|]. destruct (N.ltb_spec c 65536); [lia|].
  rewrite E1, E2, E3, E4. f_equal; [lia|]. f_equal; [lia|]. f_equal; [lia|]. f_equal. lia.
Qed.

Lemma from_utf8_sound_n : forall n bs t, (length bs <= n)%nat -> from_utf8 bs = Some t -> utf8 bs t.
Proof.
  induction n as [|n IH]; intros bs t L H.
  - destruct bs; [|simpl in L; lia]. injection H as <-. split; [constructor|reflexivity].
  - destruct bs as [|b0 r0]; [injection H as <-; split; [constructor|reflexivity]|].
    cbn [from_utf8] in H. cbn [length] in L. unfold is_cont in H.
    assert (OM : forall c pre r, from_utf8 r = from_utf8 r -> (length r <= n)%nat -> utf8_char c = pre -> scalar c ->
              option_map (cons c) (from_utf8 r) = Some t -> utf8 (pre ++ r) t).
    { intros c pre r _ Lr E S Q. destruct (from_utf8 r) as [t'|] eqn:F; [|discriminate]. injection Q as <-.
      rewrite <- E. apply utf8_cons; auto. }
    destruct (N.ltb_spec b0 128) as [B0|B0].
    { apply (OM b0 [b0] r0 eq_refl); [lia| | |exact H].
      - unfold utf8_char. destruct (N.ltb_spec b0 128); [reflexivity|lia].
      - unfold scalar. lia. }
    destruct r0 as [|b1 r1]; [discriminate|]. cbn [length] in L.
    destruct ((194 <=? b0) && (b0 <=? 223))%bool eqn:E1.
    { destruct ((128 <=? b1) && (b1 <=? 191))%bool eqn:C1; [|discriminate].
      destruct (char2 b0 b1) as (X & Y); try lia. apply (OM _ [b0; b1] r1 eq_refl) in H; auto. lia. }
    destruct r1 as [|b2 r2]; [discriminate|]. cbn [length] in L.
    destruct ((224 <=? b0) && (b0 <=? 239))%bool eqn:E2.
    { cbn zeta in H.
      destruct ((if b0 =? 224 then (160 <=? b1) && (b1 <=? 191)
                 else if b0 =? 237 then (128 <=? b1) && (b1 <=? 159) else (128 <=? b1) && (b1 <=? 191))
                && ((128 <=? b2) && (b2 <=? 191)))%bool eqn:C2; [|discriminate].
      assert (K : 128 <= b1 /\ b1 <= 191 /\ (b0 = 224 -> 160 <= b1) /\ (b0 = 237 -> b1 <= 159) /\ 128 <= b2 /\ b2 <= 191).
      { apply andb_prop in C2. destruct C2 as (C2 & C3). destruct (b0 =? 224) eqn:Q1; [lia|]. destruct (b0 =? 237) eqn:Q2; lia. }
      destruct (char3 b0 b1 b2) as (X & Y); try lia. apply (OM _ [b0; b1; b2] r2 eq_refl) in H; auto. lia. }
    destruct r2 as [|b3 r3]; [discriminate|]. cbn [length] in L.
    destruct ((240 <=? b0) && (b0 <=? 244))%bool eqn:E3; [|discriminate].
    cbn zeta in H.
    destruct ((if b0 =? 240 then (144 <=? b1) && (b1 <=? 191)
               else if b0 =? 244 then (128 <=? b1) && (b1 <=? 143) else (128 <=? b1) && (b1 <=? 191))
              && ((128 <=? b2) && (b2 <=? 191)) && ((128 <=? b3) && (b3 <=? 191)))%bool eqn:C2; [|discriminate].
    assert (K : 128 <= b1 /\ b1 <= 191 /\ (b0 = 240 -> 144 <= b1) /\ (b0 = 244 -> b1 <= 143)
                /\ 128 <= b2 /\ b2 <= 191 /\ 128 <= b3 /\ b3 <= 191).
    { apply andb_prop in C2. destruct C2 as (C2 & C4). apply andb_prop in C2. destruct C2 as (C2 & C3).
      destruct (b0 =? 240) eqn:Q1; [lia|]. destruct (b0 =? 244) eqn:Q2; lia. }
    destruct (char4 b0 b1 b2 b3) as (X & Y); try lia. apply (OM _ [b0; b1; b2; b3] r3 eq_refl) in H; auto. lia.
Qed.

Lemma from_utf8_spec : forall bs t, from_utf8 bs = Some t <-> utf8 bs t.
Proof. intros bs t. split; [apply (from_utf8_sound_n (length bs)); lia|apply from_utf8_complete]. Qed.
