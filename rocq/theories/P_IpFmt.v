(** The text of an IP address denotes that address. *)

From Coq Require Import String ZArith NArith List Bool Lia ZifyBool ZifyNat ZifyN.
From Verif Require Import M_Base M_IpAddr M_ConfTypes M_Text M_Str M_IpParse S_Text S_Wire S_Ip P_Base P_Str P_Text P_IpParse.
Import ListNotations.
Local Open Scope N_scope.

Lemma fmt_numeral : forall base n, base = 10 \/ base = 16 -> numeral base (fmt_radix LOWER base n) n.
Proof.
  intros base n BB.
  assert (G : forall t, (forall c, In c t -> is_digit LOWER base c) -> numeral base t (text_val LOWER base t)).
  { induction t as [|c t IH] using rev_ind; intros D; [constructor|].
    unfold text_val. rewrite fold_left_app. cbn [fold_left]. constructor.
    - apply IH. intros x I. apply D. apply in_or_app. auto.
    - assert (is_digit LOWER base c) as C by (apply D; apply in_or_app; right; left; reflexivity).
      unfold is_digit, LOWER in C. unfold digit, digit_val, LOWER. destruct (N.ltb_spec c 58); lia. }
  destruct (fmt_radix_spec LOWER base n) as (_ & V & D); try lia; [vm_compute; congruence|].
  rewrite <- V at 2. apply G. exact D.
Qed.

Lemma octet_of : forall v, v < 256 -> octet_text (fmt_dec v) v.
Proof.
  intros v H. split; [apply fmt_dec_nonempty|]. split; [apply fmt_numeral; auto|]. split; [exact H|].
  assert (forallb (fun n => match fmt_dec (N.of_nat n) with 48 :: _ :: _ => false | _ => true end) (seq 0 256) = true) as A
    by (vm_compute; reflexivity).
  rewrite forallb_forall in A. specialize (A (N.to_nat v)). rewrite N2Nat.id in A.
  intros r E. rewrite E in A. destruct r; [reflexivity|]. assert (false = true) by (apply A; apply in_seq; lia). discriminate.
Qed.

Lemma ipv4_of : forall a b c d, all_bytes [a; b; c; d] -> ipv4_text (fmt_ipv4 [a; b; c; d]) [a; b; c; d].
Proof.
  intros a b c d B. exists (fmt_dec a), (fmt_dec b), (fmt_dec c), (fmt_dec d), a, b, c, d.
  split; [reflexivity|]. split; [reflexivity|]. repeat split; try (apply octet_of; apply B; cbn; auto 6).
Qed.

Lemma group_of : forall v, v < 65536 -> group_text (fmt_hex v) v.
Proof.
  intros v H. split; [|apply fmt_numeral; auto].
  assert (LEN : forall f ten n acc k, (1 <= k)%nat -> n < 16 ^ N.of_nat k ->
    (length (fmt_fuel f ten 16 n acc) <= k + length acc)%nat).
  { induction f as [|f IH]; intros ten n acc k K Hn; cbn [fmt_fuel]; [lia|].
    destruct (N.ltb_spec n 16); [cbn [length]; lia|].
    destruct k as [|[|k]]; [lia|change (16 ^ N.of_nat 1) with 16 in Hn; lia|].
    specialize (IH ten (n / 16) (digit_char ten (n mod 16) :: acc) (S k)). cbn [length] in IH.
    eapply Nat.le_trans; [apply IH; [lia|]|lia].
    apply N.div_lt_upper_bound; [lia|]. rewrite <- N.pow_succ_r'. rewrite <- Nat2N.inj_succ. exact Hn. }
  pose proof (LEN (S (N.to_nat (N.size v))) LOWER v [] 4%nat) as L. cbn [length] in L.
  fold (fmt_radix LOWER 16 v) in L. fold (fmt_hex v) in L. pose proof (fmt_hex_nonempty v) as NE.
  specialize (L ltac:(lia) H). destruct (fmt_hex v); [congruence|]. cbn [length] in *. lia.
Qed.

Lemma groups_of : forall v4 l, l <> [] -> (forall v, In v l -> v < 65536) -> groups v4 (join 58 (map fmt_hex l)) l.
Proof.
  intros v4. induction l as [|v l IH]; intros NE B; [congruence|]. destruct l as [|w l].
  - cbn. constructor. apply group_of. apply B. left. reflexivity.
  - change (join 58 (map fmt_hex (v :: w :: l))) with (fmt_hex v ++ 58 :: join 58 (map fmt_hex (w :: l))).
    constructor; [apply group_of; apply B; left; reflexivity|]. apply IH; [discriminate|]. intros x X. apply B. right. exact X.
Qed.
Lemma groups_or_none_of : forall v4 l, (forall v, In v l -> v < 65536) -> groups_or_none v4 (join 58 (map fmt_hex l)) l.
Proof. intros v4 [|v l] B; [left; auto|right; apply groups_of; [discriminate|exact B]]. Qed.

Lemma pair_div : forall x y, y < 256 -> (x * 256 + y) / 256 = x /\ (x * 256 + y) mod 256 = y.
Proof.
  intros x y H. split; [symmetry; apply (N.div_unique _ _ _ y); lia|symmetry; apply (N.mod_unique _ _ x); lia].
Qed.
Lemma segments_bytes : forall o, length o = 16%nat -> all_bytes o ->
  length (segments o) = 8%nat /\ (forall v, In v (segments o) -> v < 65536)
  /\ flat_map (fun v => [v / 256; v mod 256]) (segments o) = o.
Proof.
  intros o L B. explode L. split_bytes. cbn [segments length flat_map app].
  split; [reflexivity|]. split.
  - intros v [<-|[<-|[<-|[<-|[<-|[<-|[<-|[<-|[]]]]]]]]]; lia.
  - repeat match goal with |- context [(?x * 256 + ?y) / 256] =>
      let E := fresh in let F := fresh in destruct (pair_div x y) as [E F]; [assumption|]; rewrite E, F; clear E F end.
    reflexivity.
Qed.

Lemma ipv6_of : forall o, length o = 16%nat -> all_bytes o -> ipv6_text (fmt_ipv6 o) o.
Proof.
  intros o L B. destruct (segments_bytes o L B) as (SL & SB & SO). exists (segments o). split; [|symmetry; exact SO].
  unfold fmt_ipv6. destruct (to_ipv4_mapped o) as [v|] eqn:M.
  - destruct (mapped_spec _ _ M) as (LV & ->). explode LV. clear SL SB SO.
    match goal with |- eight_groups _ (segments (_ ++ [?a; ?b; ?c; ?d])) =>
      change (segments ([0;0;0;0;0;0;0;0;0;0;255;255] ++ [a; b; c; d])) with (([] ++ repeat 0 5 ++ 65535 :: [a * 256 + b; c * 256 + d]));
      change (lit "::ffff:" ++ fmt_ipv4 [a; b; c; d]) with ([] ++ 58 :: 58 :: lit "ffff" ++ 58 :: fmt_ipv4 [a; b; c; d]);
      assert (ipv4_text (fmt_ipv4 [a; b; c; d]) [a; b; c; d]) as I4
    end.
    { apply ipv4_of. intros ? X. apply B. apply in_or_app. right. exact X. }
    apply eg_short; [left; auto|right|lia|reflexivity]. apply gr_more.
    + exact (group_of 65535 ltac:(lia)).
    + apply gr_v4; auto.
  - cbv zeta. destruct (zero_span 0 (0, 0)%nat (0, 0)%nat (segments o)) as [start len] eqn:Z.
    destruct (zero_span_segments _ _ _ Z) as (LE & EQ).
    destruct (Nat.ltb_spec 1 len).
    + rewrite EQ at 3.
      apply (eg_short _ _ (join 58 (map fmt_hex (skipn (start + len) (segments o))))); [| |lia|].
      * apply groups_or_none_of. intros v I. apply SB. rewrite <- (firstn_skipn start). apply in_or_app. auto.
      * apply groups_or_none_of. intros v I. apply SB. rewrite <- (firstn_skipn (start + len)). apply in_or_app. auto.
      * rewrite firstn_length, skipn_length. lia.
    + apply eg_full; [|exact SL]. apply groups_of; [|exact SB]. intros E. rewrite E in SL. discriminate.
Qed.

Lemma fmt_ip_denotes : forall a, ip_address a -> address_text (fmt_ip a) a.
Proof.
  intros [o|o] [L B]; cbn [fmt_ip address_text].
  - explode L. apply ipv4_of. exact B.
  - apply ipv6_of; assumption.
Qed.

Lemma parse_fmt_ip : forall a, ip_address a -> parse_ip_addr (fmt_ip a) = Some a.
Proof. intros a A. apply parse_ip_addr_spec. apply fmt_ip_denotes. exact A. Qed.
