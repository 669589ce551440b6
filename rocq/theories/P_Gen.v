(** Printed identifiers and gen-key lines; adding an option to a section. *)

From Coq Require Import String ZArith NArith List Bool Lia ZifyBool ZifyNat ZifyN Permutation.
From Verif Require Import M_Base M_IpAddr M_ConfTypes M_Text M_Str M_Utf8 M_Conf S_Wire S_Text S_Conf
  P_Base P_Text P_Str P_Ini P_Conf P_Load.
Import ListNotations.
Local Open Scope N_scope.

Lemma fmt_fuel_length : forall f ten n acc k, (1 <= k)%nat -> n < 16 ^ N.of_nat k ->
  (length (fmt_fuel f ten 16 n acc) <= k + length acc)%nat.
Proof.
  induction f as [|f IH]; intros ten n acc k K Hn; cbn [fmt_fuel]; [lia|].
  destruct (N.ltb_spec n 16); [simpl; lia|].
  destruct k as [|[|k]]; [lia|change (16 ^ N.of_nat 1) with 16 in Hn; lia|].
  specialize (IH ten (n / 16) (digit_char ten (n mod 16) :: acc) (S k)). simpl length in IH.
  eapply Nat.le_trans; [apply IH; [lia|]|lia].
  apply N.div_lt_upper_bound; [lia|]. rewrite <- N.pow_succ_r'. rewrite <- Nat2N.inj_succ. exact Hn.
Qed.

Lemma digit_of : forall c, is_digit UPPER 16 c -> digit 16 c (digit_val UPPER c).
Proof.
  intros c D. unfold is_digit, UPPER in D. unfold digit, digit_val, UPPER. destruct (N.ltb_spec c 58); lia.
Qed.
Lemma numeral_of : forall t, (forall c, In c t -> is_digit UPPER 16 c) -> numeral 16 t (text_val UPPER 16 t).
Proof.
  induction t as [|c t IH] using rev_ind; intros D; [constructor|].
  unfold text_val. rewrite fold_left_app. simpl. constructor.
  - apply IH. intros x I. apply D. apply in_or_app. auto.
  - apply digit_of. apply D. apply in_or_app. right. left. reflexivity.
Qed.
Lemma text_val_pad : forall n t, text_val UPPER 16 (repeat 48 n ++ t) = text_val UPPER 16 t.
Proof.
  intros n t. unfold text_val. rewrite fold_left_app. f_equal. induction n; [reflexivity|]. simpl repeat. simpl fold_left. exact IHn.
Qed.

Definition upper_hex (c : N) : Prop := 48 <= c <= 57 \/ 65 <= c <= 70.
Lemma fmt_id_spec : forall v, v < 4294967296 ->
  length (fmt_id v) = 8%nat /\ (forall c, In c (fmt_id v) -> upper_hex c) /\ numeral 16 (fmt_id v) v.
Proof.
  intros v H. unfold fmt_id, pad_left.
  destruct (fmt_radix_spec UPPER 16 v) as (NE & V & D); try (unfold UPPER; lia).
  assert (L : (length (fmt_radix UPPER 16 v) <= 8)%nat).
  { pose proof (fmt_fuel_length (S (N.to_nat (N.size v))) UPPER v [] 8) as X. simpl length in X.
    unfold fmt_radix. rewrite Nat.add_0_r in X. apply X; [lia|]. exact H. }
  assert (D' : forall c, In c (repeat 48 (8 - length (fmt_radix UPPER 16 v)) ++ fmt_radix UPPER 16 v) -> is_digit UPPER 16 c).
  { intros c I. apply in_app_or in I. destruct I as [I|I]; [|auto]. apply repeat_spec in I. subst c. left. lia. }
  split; [rewrite app_length, repeat_length; lia|]. split.
  - intros c I. apply D' in I. unfold is_digit, UPPER in I. unfold upper_hex. lia.
  - pose proof (numeral_of _ D') as N. rewrite text_val_pad, V in N. exact N.
Qed.
Lemma upper_hex_tight : forall t, (forall c, In c t -> upper_hex c) -> tight t.
Proof.
  intros t H. assert (W : forall c, upper_hex c -> ~ white_space c).
  { intros c U. apply is_white_false. unfold upper_hex in U. unfold is_white. lia. }
  split.
  - intros c r ->. apply W. apply H. left. reflexivity.
  - intros r c ->. apply W. apply H. apply in_or_app. right. left. reflexivity.
Qed.
Lemma fmt_id_text : forall v, v < 4294967296 -> id_text (fmt_id v) v.
Proof.
  intros v H. destruct (fmt_id_spec v H) as (L & D & N). exists (fmt_id v).
  split; [apply padded_tight, upper_hex_tight, D|]. split; [|exact H].
  exists (fmt_id v). split; [intros E; rewrite E in L; discriminate|]. auto.
Qed.

Lemma fmt_byte_spec : forall b, b < 256 ->
  exists x y, fmt_byte b = [x; y] /\ upper_hex x /\ upper_hex y /\ digit 16 x (b / 16) /\ digit 16 y (b mod 16).
Proof.
  intros b H.
  assert (A : forallb (fun b => list_eqb (fmt_byte b) [digit_char UPPER (b / 16); digit_char UPPER (b mod 16)])
                (map N.of_nat (seq 0 256)) = true) by (vm_compute; reflexivity).
  rewrite forallb_forall in A. specialize (A b). exists (digit_char UPPER (b / 16)), (digit_char UPPER (b mod 16)).
  split.
  - apply list_eqb_spec. apply A. apply in_map_iff. exists (N.to_nat b). split; [lia|]. apply in_seq. lia.
  - unfold digit_char, upper_hex, digit, UPPER.
    assert (b / 16 < 16) by lia. assert (b mod 16 < 16) by lia.
    destruct (b / 16 <? 10) eqn:E1, (b mod 16 <? 10) eqn:E2; lia.
Qed.
Lemma hex_of_key : forall key, all_bytes key ->
  hex_bytes (concat (map fmt_byte key)) key /\ (forall c, In c (concat (map fmt_byte key)) -> upper_hex c).
Proof.
  induction key as [|b key IH]; intros AB; simpl; [split; [constructor|intros ? []]|].
  assert (b < 256) as HB by (apply AB; left; reflexivity).
  destruct IH as (IH1 & IH2). { intros x I. apply AB. right. exact I. }
  destruct (fmt_byte_spec b HB) as (x & y & -> & X & Y & DX & DY). cbn [app]. split.
  - pose proof (hb_cons x y _ _ _ _ DX DY IH1) as Q. replace (b / 16 * 16 + b mod 16) with b in Q by lia. exact Q.
  - intros c [<-|[<-|I]]; auto.
Qed.

Lemma genkey_value : forall key, all_bytes key -> length key = 32%nat -> key <> repeat 0 32 -> key <> repeat 255 32 ->
  key_text (32 :: concat (map fmt_byte key)) key.
Proof.
  intros key AB L N1 N2. destruct (hex_of_key key AB) as (H & U). exists (concat (map fmt_byte key)).
  split; [|auto]. exists [32], []. rewrite app_nil_r. split; [reflexivity|].
  split; [intros c [<-|[]]; apply is_white_spec; reflexivity|]. split; [intros ? []|]. apply upper_hex_tight. exact U.
Qed.
Lemma genkey_option : forall d user key u, u = match user with Some x => x | None => d end -> u < 4294967296 ->
  option_line (genkey_line d user key) (fmt_id u) (32 :: concat (map fmt_byte key)).
Proof.
  intros d user key u -> H. destruct (fmt_id_spec _ H) as (L & U & _). unfold genkey_line.
  set (id := fmt_id _) in *. exists [], [32]. split; [reflexivity|]. split; [intros ? []|].
  split; [intros c [<-|[]]; apply is_white_spec; reflexivity|]. split; [apply upper_hex_tight; exact U|].
  split; [intros I; apply U in I; unfold upper_hex in I; lia|].
  destruct id as [|c r]; [discriminate|]. exists c, r. split; [reflexivity|].
  specialize (U c (or_introl eq_refl)). unfold upper_hex in U. lia.
Qed.

(** *** Adding an option line to a section *)

Lemma has_snoc_defined : forall ls l s o v, well_formed (ls ++ [l]) -> has_option ls s o v ->
  exists w, has_option (ls ++ [l]) s o w.
Proof.
  intros ls l s o v W H. pose proof (classify_spec l) as CS.
  assert (W' := W). apply well_formed_snoc in W'. destruct W' as ((W1 & U & W3) & G).
  destruct (classify l) as [|n|n w|] eqn:CL.
  1,2,4: exists v; apply has_snoc_other; [|exact H]; intros w' O; apply class_opt in O; congruence.
  destruct (list_eqb n o) eqn:E.
  - apply list_eqb_spec in E. subst n.
    destruct (cur_dec ls) as [(c & C)|NO].
    + destruct (list_eqb s c) eqn:E2.
      * apply list_eqb_spec in E2. subst c. exists w. apply (has_snoc_option ls l s o w); auto.
      * apply list_eqb_false in E2. exists v. apply (has_snoc_option ls l c o w); auto.
    + exfalso. destruct (has_header _ _ _ _ H) as (h & I & HH). eapply NO; eauto.
  - exists v. apply has_snoc_other; [|exact H]. intros w' O. destruct (option_fun _ _ _ _ _ CS O) as (-> & _).
    rewrite list_eqb_refl in E. discriminate.
Qed.

Lemma well_formed_prefix : forall a b, well_formed (a ++ b) -> well_formed a.
Proof.
  intros a b. induction b as [|l b IH] using rev_ind; [rewrite app_nil_r; auto|].
  rewrite app_assoc. intros W. apply well_formed_snoc in W. apply IH. apply W.
Qed.
Lemma has_prefix_defined : forall a b s o v, well_formed (a ++ b) -> has_option a s o v ->
  exists w, has_option (a ++ b) s o w.
Proof.
  intros a b s o v. induction b as [|l b IH] using rev_ind; [rewrite app_nil_r; eauto|].
  rewrite app_assoc. intros W H. destruct IH as (w & X); [eapply well_formed_prefix; eauto|exact H|].
  eapply has_snoc_defined; eauto.
Qed.

Lemma header_in_app : forall a b n, header_in (a ++ b) n <-> header_in a n \/ header_in b n.
Proof.
  intros a b n. unfold header_in. split.
  - intros (h & I & H). apply in_app_or in I. destruct I; eauto.
  - intros [(h & I & H)|(h & I & H)]; exists h; (split; [apply in_or_app; auto|exact H]).
Qed.
Lemma header_in_insert : forall a l b n, (forall m, ~ header_line l m) ->
  header_in (a ++ l :: b) n <-> header_in (a ++ b) n.
Proof.
  intros a l b n N. change (l :: b) with ([l] ++ b). rewrite !header_in_app.
  assert (~ header_in [l] n). { intros (h & [<-|[]] & H). eapply N; eauto. }
  tauto.
Qed.
Lemma cur_insert : forall a l b c, (forall m, ~ header_line l m) ->
  cur_header (a ++ b) c -> cur_header (a ++ l :: b) c.
Proof.
  intros a l b c N (p & h & m & E & H & NM).
  assert (X : (exists q, p = a ++ q /\ b = q ++ h :: m) \/ (exists q, a = p ++ h :: q /\ m = q ++ b)).
  { clear - E. revert p E. induction a as [|x a IH]; intros p E.
    - left. exists p. auto.
    - destruct p as [|y p].
      + injection E as -> E. right. exists a. auto.
      + injection E as -> E. destruct (IH p E) as [(q & -> & ->)|(q & -> & ->)]; [left|right]; exists q; auto. }
  destruct X as [(q & -> & ->)|(q & -> & ->)].
  - exists (a ++ l :: q), h, m. split; [rewrite <- app_assoc; reflexivity|auto].
  - exists p, h, (q ++ l :: b). split; [rewrite <- app_assoc; reflexivity|]. split; [exact H|].
    intros x n I. apply in_app_or in I. destruct I as [I|[<-|I]]; [apply NM, in_or_app; auto|apply N|apply NM, in_or_app; auto].
Qed.

Section Insert.
Variables (a : list text) (l : text) (c k w : text).
Hypothesis OL : option_line l k w.
Hypothesis C : cur_header a c.

Lemma OL_no_header : forall m, ~ header_line l m.
Proof. intros m H. apply class_head in H. apply class_opt in OL. congruence. Qed.

Lemma wf_insert : forall b, well_formed (a ++ b) -> well_formed (a ++ l :: b).
Proof.
  induction b as [|m b IH] using rev_ind; intros W.
  - rewrite app_nil_r in W. apply well_formed_snoc. split; [exact W|]. right. right. exists k, w. split; [exact OL|].
    exists c. apply cur_in. exact C.
  - change (a ++ l :: b ++ [m]) with (a ++ (l :: b) ++ [m]). rewrite app_assoc in *.
    apply well_formed_snoc in W. destruct W as (W & G). apply well_formed_snoc. split; [apply IH; exact W|].
    destruct G as [G|[(n & H & NE & NI)|(n & v & O & m' & HI)]].
    + left. exact G.
    + right. left. exists n. split; [exact H|]. split; [exact NE|].
      rewrite header_in_insert by exact OL_no_header. exact NI.
    + right. right. exists n, v. split; [exact O|]. exists m'.
      rewrite header_in_insert by exact OL_no_header. exact HI.
Qed.

Lemma has_insert : forall b s o v, well_formed (a ++ b) -> (forall x, ~ has_option (a ++ b) c k x) ->
  has_option (a ++ l :: b) s o v <-> (s = c /\ o = k /\ v = w) \/ has_option (a ++ b) s o v.
Proof.
  induction b as [|m b IH] using rev_ind; intros s o v W N.
  - rewrite app_nil_r in *. destruct (list_eqb k o) eqn:E.
    + apply list_eqb_spec in E. subst o. destruct W as (_ & U & _).
      rewrite (has_snoc_option a l c k w s v U C OL). split.
      * intros [(-> & ->)|(NE & H)]; auto.
      * intros [(-> & _ & ->)|H]; [auto|]. right. split; [|exact H]. intros ->. eapply N; eauto.
    + apply list_eqb_false in E. rewrite has_snoc_other.
      2:{ intros x O. destruct (option_fun _ _ _ _ _ OL O). congruence. }
      split; [auto|]. intros [(_ & -> & _)|H]; [congruence|exact H].
  - change (a ++ l :: b ++ [m]) with (a ++ (l :: b) ++ [m]). rewrite !app_assoc in *.
    assert (W1 : well_formed (a ++ b)) by (eapply well_formed_prefix; eauto).
    assert (N1 : forall x, ~ has_option (a ++ b) c k x).
    { intros x H. destruct (has_snoc_defined _ _ _ _ _ W H) as (y & Y). eapply N; eauto. }
    specialize (IH s o v W1 N1).
    destruct (classify m) as [|n|n x|] eqn:CL.
    1,2,4: rewrite !has_snoc_other by (intros x O; apply class_opt in O; congruence); exact IH.
    apply class_opt in CL. destruct (list_eqb n o) eqn:E.
    + apply list_eqb_spec in E. subst n.
      destruct (cur_dec (a ++ b)) as [(c' & C')|NO].
      2:{ exfalso. destruct (cur_in _ _ C) as (h & I & HH). apply (NO h c); [apply in_or_app; auto|exact HH]. }
      rewrite (has_snoc_option (a ++ l :: b) m c' o x s v); [|exact (proj1 (proj2 (wf_insert b W1)))|apply cur_insert; [exact OL_no_header|exact C']|exact CL].
      rewrite (has_snoc_option (a ++ b) m c' o x s v); [|exact (proj1 (proj2 W1))|exact C'|exact CL].
      rewrite IH. split.
      * intros [X|(NE & [X|X])]; auto.
      * intros [(-> & -> & ->)|[X|(NE & X)]]; [|auto|auto]. right. split; [|auto]. intros ->.
        apply (N x). apply (has_snoc_option (a ++ b) m c' k x c' x); auto. exact (proj1 (proj2 W1)).
    + rewrite !has_snoc_other by (intros y O; destruct (option_fun _ _ _ _ _ CL O) as (-> & _); rewrite list_eqb_refl in E; discriminate).
      exact IH.
Qed.
End Insert.
