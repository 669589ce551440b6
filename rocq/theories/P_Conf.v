(** The values of the configuration file: parsers against specification. *)

From Coq Require Import String ZArith NArith List Bool Lia ZifyBool ZifyNat ZifyN Permutation.
From Verif Require Import M_Base M_IpAddr M_ConfTypes M_Text M_Str M_Utf8 M_Conf S_Wire S_Text S_Conf
  P_Base P_Text P_Str P_Ini.
Import ListNotations.
Local Open Scope N_scope.

Lemma is_lit_spec : forall t s, is_lit t s = true <-> t = lit s.
Proof. intros. apply list_eqb_spec. Qed.
Lemma is_lit_false : forall t s, is_lit t s = false <-> t <> lit s.
Proof. intros. apply list_eqb_false. Qed.

(** *** Words *)

Ltac lits :=
  repeat match goal with
  | H : (_ || _) = true |- _ => apply orb_true_iff in H; destruct H as [H|H]
  | H : (_ || _) = false |- _ => apply orb_false_iff in H; destruct H
  | H : is_lit _ _ = true |- _ => apply is_lit_spec in H
  | H : is_lit _ _ = false |- _ => apply is_lit_false in H
  end.

Lemma parse_bool_spec : forall t b, parse_bool t = Ok b <-> bool_text t b.
Proof.
  intros t b. unfold parse_bool. set (s := trim (to_lowercase t)).
  assert (W : forall w, word_is w t <-> s = lit w) by (intro; apply word_is_spec).
  destruct (is_lit s "true" || is_lit s "1" || is_lit s "yes" || is_lit s "on")%bool eqn:E1.
  - split.
    + intros [= <-]. simpl. rewrite !W. lits; auto.
    + intros B. destruct b; [reflexivity|]. exfalso. simpl in B. rewrite !W in B. clearbody s. clear W.
      lits; destruct B as [B|[B|[B|B]]]; rewrite B in E1; vm_compute in E1; discriminate.
  - destruct (is_lit s "false" || is_lit s "0" || is_lit s "no" || is_lit s "off")%bool eqn:E2.
    + split.
      * intros [= <-]. simpl. rewrite !W. lits; auto.
      * intros B. destruct b; [|reflexivity]. exfalso. simpl in B. rewrite !W in B. lits; intuition congruence.
    + split; [discriminate|]. intros B. exfalso. destruct b; simpl in B; rewrite !W in B; lits; intuition congruence.
Qed.
Lemma parse_bool_no_panic : forall t, parse_bool t <> Panic.
Proof. intros t. unfold parse_bool. destruct (_ || _)%bool; [|destruct (_ || _)%bool]; discriminate. Qed.

Lemma parse_policy_spec : forall t p, parse_policy t = Ok p <-> policy_text t p.
Proof.
  intros t p. unfold parse_policy. set (s := trim (to_lowercase t)).
  assert (W : forall w, word_is w t <-> s = lit w) by (intro; apply word_is_spec).
  destruct (is_lit s "always") eqn:E1; [|destruct (is_lit s "basic-auth") eqn:E2; [|destruct (is_lit s "full-auth") eqn:E3]];
    lits; (split; [intros [= <-] || intros X; try discriminate X; simpl; rewrite ?W; auto|]);
    intros B; destruct p; simpl in B; rewrite W in B; try reflexivity; exfalso; try congruence;
    rewrite B in *; discriminate.
Qed.
Lemma parse_seccomp_spec : forall t p, parse_seccomp t = Ok p <-> seccomp_text t p.
Proof.
  intros t p. unfold parse_seccomp. set (s := trim (to_lowercase t)).
  assert (W : forall w, word_is w t <-> s = lit w) by (intro; apply word_is_spec).
  destruct (is_lit s "off") eqn:E1; [|destruct (is_lit s "log") eqn:E2; [|destruct (is_lit s "kill") eqn:E3]];
    lits; (split; [intros [= <-] || intros X; try discriminate X; simpl; rewrite ?W; auto|]);
    intros B; destruct p; simpl in B; rewrite W in B; try reflexivity; exfalso; try congruence;
    rewrite B in *; discriminate.
Qed.
Lemma parse_policy_no_panic : forall t, parse_policy t <> Panic.
Proof. intros t. unfold parse_policy. repeat destruct (is_lit _ _); discriminate. Qed.
Lemma parse_seccomp_no_panic : forall t, parse_seccomp t <> Panic.
Proof. intros t. unfold parse_seccomp. repeat destruct (is_lit _ _); discriminate. Qed.

(** *** Integers *)

Lemma digit_x : forall d, ~ digit 10 120 d.
Proof. unfold digit. intros d. lia. Qed.

Lemma number_x : forall h v, ~ number 10 (lit "0x" ++ h) v.
Proof.
  intros h v (ds & NE & N & [E|E]).
  - subst ds. destruct (numeral_digits _ _ _ N 120) as (d & D); [simpl; auto|]. eapply digit_x; eauto.
  - discriminate E.
Qed.

Lemma parse_uint_spec : forall bound t v, 0 < bound -> parse_uint bound t = Ok v <-> int_text bound t v.
Proof.
  intros bound t v HB. unfold parse_uint. destruct (strip_prefix (lit "0x") (trim t)) as [h|] eqn:SP.
  - apply strip_prefix_some in SP. rewrite from_str_radix_spec by lia. split.
    + intros (N & L). exists (trim t). split; [apply trim_padded|]. split; [exact L|]. right. eauto.
    + intros (body & P & L & [N|(h' & E & N)]).
      * apply padded_trim in P. rewrite SP in P. subst body. exfalso. eapply number_x; eauto.
      * apply padded_trim in P. rewrite SP in P. rewrite <- P in E. apply app_inv_head in E. subst h'. auto.
  - rewrite from_str_radix_spec by lia. split.
    + intros (N & L). exists (trim t). split; [apply trim_padded|]. split; [exact L|]. left. exact N.
    + intros (body & P & L & [N|(h' & E & N)]); apply padded_trim in P; subst body; [auto|].
      exfalso. pose proof (proj2 (strip_prefix_some (lit "0x") _ _) E). congruence.
Qed.
Lemma parse_uint_no_panic : forall bound t, parse_uint bound t <> Panic.
Proof.
  intros bound t. unfold parse_uint. destruct (strip_prefix _ _); apply from_str_radix_no_panic.
Qed.
Lemma int_text_trim : forall bound t v, int_text bound (trim t) v <-> int_text bound t v.
Proof. intros bound t v. unfold int_text. split; intros (b & P & X); exists b; (split; [apply padded_trans; exact P|exact X]). Qed.
Lemma id_text_trim : forall t v, id_text (trim t) v <-> id_text t v.
Proof. intros t v. unfold id_text. split; intros (b & P & X); exists b; (split; [apply padded_trans; exact P|exact X]). Qed.
Lemma int_text_fun : forall bound t v w, 0 < bound -> int_text bound t v -> int_text bound t w -> v = w.
Proof. intros bound t v w HB A B. apply (parse_uint_spec _ _ _ HB) in A, B. congruence. Qed.

(** *** Keys *)

Lemma numeral_one : forall base c v, numeral base [c] v <-> digit base c v.
Proof.
  intros base c v. split.
  - intros N. inversion N as [E|t w d x N' D E]; subst. destruct t as [|y [|z t]]; try discriminate.
    injection E as ->. inversion N' as [E2|t2 ? ? ? ? ? E2]; [|destruct t2; discriminate]. subst w.
    rewrite N.mul_0_l, N.add_0_l. exact D.
  - intros D. replace v with (0 * base + v) by lia. change [c] with ([] ++ [c]). constructor; [constructor|exact D].
Qed.
Lemma parse_hexdigit_spec : forall c h, parse_hexdigit [c] = Ok h <-> digit 16 c h.
Proof.
  intros c h. unfold parse_hexdigit. cbn [length Nat.eqb negb]. rewrite from_str_radix_spec by lia. split.
  - intros ((ds & NE & N & [E|E]) & _).
    + subst ds. apply numeral_one. exact N.
    + injection E as _ E. congruence.
  - intros D. split; [|unfold digit in D; lia]. exists [c]. split; [discriminate|]. split; [apply numeral_one; exact D|auto].
Qed.

Lemma hex_pair : forall h l, h < 16 -> l < 16 -> N.lor ((h * 16) mod 256) l = h * 16 + l.
Proof.
  intros h l Hh Hl. rewrite N.mod_small by lia.
  assert (L : N.land (h * 16) l = 0).
  { change (h * 16) with (h * 2 ^ 4). rewrite <- N.shiftl_mul_pow2. apply N.bits_inj. intros n.
    rewrite N.land_spec, N.bits_0. destruct (N.lt_ge_cases n 4).
    - rewrite N.shiftl_spec_low by lia. reflexivity.
    - replace (N.testbit l n) with false; [apply andb_false_r|]. symmetry.
      destruct (N.eq_dec l 0) as [->|NZ]; [apply N.bits_0|].
      apply N.bits_above_log2. apply N.log2_lt_pow2; [lia|].
      apply N.lt_le_trans with 16; [exact Hl|]. change 16 with (2 ^ 4). apply N.pow_le_mono_r; lia. }
  rewrite <- N.lxor_lor by exact L. symmetry. apply N.add_nocarry_lxor. exact L.
Qed.

Lemma digit_16 : forall c d, digit 16 c d -> d < 16.
Proof. unfold digit. intros. lia. Qed.

Lemma slice_0 : forall (c : N) s, slice (c :: s) 0 1 = Ok [c].
Proof. intros. unfold slice. simpl. reflexivity. Qed.
Lemma slice_1 : forall (b c : N) s, slice (b :: c :: s) 1 1 = Ok [c].
Proof. intros. unfold slice. simpl. reflexivity. Qed.

Lemma hex_loop_spec : forall n s k, length s = (n * 2)%nat ->
  hex_loop n s = Ok k <-> hex_bytes s k.
Proof.
  induction n as [|n IH]; intros s k L.
  - destruct s; [|discriminate]. simpl. split; [intros [= <-]; constructor|]. intros H. inversion H. reflexivity.
  - destruct s as [|a [|b s]]; try discriminate. injection L as L. cbn [hex_loop].
    rewrite slice_0, slice_1. cbn [bind]. change (skipn 2 (a :: b :: s)) with s. split.
    + destruct (parse_hexdigit [a]) as [h| |] eqn:EA; try discriminate. cbn [bind].
      destruct (parse_hexdigit [b]) as [l| |] eqn:EB; try discriminate. cbn [bind].
      destruct (hex_loop n s) as [r| |] eqn:ER; try discriminate. intros [= <-].
      apply parse_hexdigit_spec in EA, EB. rewrite hex_pair by (eapply digit_16; eauto).
      constructor; auto. apply IH; auto.
    + intros H. inversion H as [|? ? h l ? k' DA DB H']; subst.
      pose proof (proj2 (parse_hexdigit_spec _ _) DA) as EA. pose proof (proj2 (parse_hexdigit_spec _ _) DB) as EB.
      rewrite EA, EB. cbn [bind]. rewrite (proj2 (IH s k' L) H'). cbn [bind].
      rewrite hex_pair by (eapply digit_16; eauto). reflexivity.
Qed.
Lemma hex_bytes_length : forall s k, hex_bytes s k -> length s = (length k * 2)%nat.
Proof. intros s k H. induction H; simpl; auto. Qed.
Lemma hex_bytes_ascii : forall s k, hex_bytes s k -> is_ascii s = true.
Proof.
  intros s k H. apply forallb_forall. induction H as [|a b h l t k DA DB H IH]; [intros ? []|].
  intros x [<-|[<-|I]]; auto; unfold digit in DA, DB; lia.
Qed.
Lemma parse_hex_spec : forall n t k, parse_hex n t = Ok k <->
  exists body, padded t body /\ hex_bytes body k /\ length k = n.
Proof.
  intros n t k. unfold parse_hex. split.
  - destruct (negb (is_ascii (trim t))); [discriminate|].
    destruct (Nat.eqb (length (trim t)) (n * 2)) eqn:E; [|discriminate]. apply Nat.eqb_eq in E. cbn [negb].
    intros H. apply hex_loop_spec in H; [|exact E]. exists (trim t). split; [apply trim_padded|].
    split; [exact H|]. apply hex_bytes_length in H. lia.
  - intros (body & P & H & L). apply padded_trim in P. rewrite P. rewrite (hex_bytes_ascii _ _ H). cbn [negb].
    pose proof (hex_bytes_length _ _ H) as HL. rewrite L in HL. rewrite (proj2 (Nat.eqb_eq _ _) HL). cbn [negb].
    apply hex_loop_spec; auto.
Qed.
Lemma hex_loop_no_panic : forall n s, length s = (n * 2)%nat -> hex_loop n s <> Panic.
Proof.
  induction n as [|n IH]; intros s L; [discriminate|].
  destruct s as [|a [|b s]]; try discriminate. injection L as L. cbn [hex_loop].
  rewrite slice_0, slice_1. cbn [bind]. change (skipn 2 (a :: b :: s)) with s.
  assert (P : forall c, parse_hexdigit [c] <> Panic).
  { intros c. unfold parse_hexdigit. cbn [length Nat.eqb negb]. apply from_str_radix_no_panic. }
  pose proof (P a). pose proof (P b). specialize (IH s L).
  destruct (parse_hexdigit [a]); try congruence; try discriminate. cbn [bind].
  destruct (parse_hexdigit [b]); try congruence; try discriminate. cbn [bind].
  destruct (hex_loop n s); try congruence; discriminate.
Qed.
Lemma parse_hex_no_panic : forall n t, parse_hex n t <> Panic.
Proof.
  intros n t. unfold parse_hex. destruct (negb (is_ascii (trim t))); [discriminate|].
  destruct (Nat.eqb (length (trim t)) (n * 2)) eqn:E; [|discriminate]. apply Nat.eqb_eq in E. cbn [negb].
  apply hex_loop_no_panic. exact E.
Qed.

(** *** Items *)

Definition tword (x : transport) : text := match x with TrTcp => lit "tcp" | TrUdp => lit "udp" end.
Definition trans_is (v : text) (x : transport) : Prop := to_lowercase v = tword x.
Lemma transport_word_spec : forall t x, transport_word t x <-> trans_is (trim t) x.
Proof.
  intros t x. unfold trans_is. rewrite <- lower_trim. destruct x; simpl; apply word_is_spec.
Qed.

Definition is_tcp (x : transport) : bool := match x with TrTcp => true | TrUdp => false end.
Lemma transport_words_spec : forall vs tcp udp tcp' udp',
  transport_words vs tcp udp = Ok (tcp', udp') <->
  exists l, Forall2 trans_is vs l /\ tcp' = (tcp || existsb is_tcp l)%bool
    /\ udp' = (udp || existsb (fun x => negb (is_tcp x)) l)%bool.
Proof.
  induction vs as [|v vs IH]; intros tcp udp tcp' udp'; cbn [transport_words].
  - split.
    + intros [= <- <-]. exists []. rewrite !orb_false_r. auto.
    + intros (l & F & -> & ->). inversion F; subst. simpl. rewrite !orb_false_r. reflexivity.
  - destruct (is_lit (to_lowercase v) "tcp") eqn:E1; [|destruct (is_lit (to_lowercase v) "udp") eqn:E2]; lits.
    + rewrite IH. split.
      * intros (l & F & -> & ->). exists (TrTcp :: l). split; [constructor; [exact E1|exact F]|].
        simpl. rewrite !orb_true_r. auto.
      * intros (l & F & -> & ->). inversion F as [|? x ? l' H F']; subst. exists l'. split; [exact F'|].
        unfold trans_is in H. rewrite E1 in H. destruct x; [|discriminate]. simpl. rewrite !orb_true_r. auto.
    + rewrite IH. split.
      * intros (l & F & -> & ->). exists (TrUdp :: l). split; [constructor; [exact E2|exact F]|].
        simpl. rewrite !orb_true_r. auto.
      * intros (l & F & -> & ->). inversion F as [|? x ? l' H F']; subst. exists l'. split; [exact F'|].
        unfold trans_is in H. rewrite E2 in H. destruct x; [discriminate|]. simpl. rewrite !orb_true_r. auto.
    + split; [discriminate|]. intros (l & F & _). inversion F as [|? x ? l' H F']; subst.
      unfold trans_is in H. destruct x; unfold tword in H; congruence.
Qed.
Lemma transport_words_no_panic : forall vs tcp udp, transport_words vs tcp udp <> Panic.
Proof.
  induction vs as [|v vs IH]; intros; cbn [transport_words]; [discriminate|].
  destruct (is_lit _ _); [apply IH|]. destruct (is_lit _ _); [apply IH|discriminate].
Qed.

Lemma parse_items_spec : forall ts m, parse_items ts = Ok m <-> Forall2 (fun x i => parse_item x = Ok i) ts m.
Proof.
  induction ts as [|x ts IH]; intros m; cbn [parse_items].
  - split; [intros [= <-]; constructor|]. intros F. inversion F. reflexivity.
  - split.
    + destruct (parse_item x) as [i| |] eqn:E; try discriminate. cbn [bind].
      destruct (parse_items ts) as [is| |] eqn:E2; try discriminate. intros [= <-].
      constructor; [exact E|]. apply IH. reflexivity.
    + intros F. inversion F as [|? i ? is H F']; subst. rewrite H. cbn [bind].
      rewrite (proj2 (IH is) F'). reflexivity.
Qed.
Lemma parse_item_no_panic : forall x, parse_item x <> Panic.
Proof.
  intros x. unfold parse_item. destruct (cut_at 58 x) as [[[|c k] v]|]; try discriminate.
  destruct (trim (c :: k)); [discriminate|]. destruct (cut_at 44 v); discriminate.
Qed.
Lemma parse_map_no_panic : forall t, parse_map t <> Panic.
Proof.
  intros t. unfold parse_map. induction (split_on 47 t) as [|x l IH]; cbn [parse_items]; [discriminate|].
  pose proof (parse_item_no_panic x). destruct (parse_item x); try congruence; try discriminate. cbn [bind].
  destruct (parse_items l); try congruence; discriminate.
Qed.

(** An item with a key. *)
Lemma split_one : forall s v, ~ In s v -> split_on s v = [v].
Proof. intros. apply split_on_token. assumption. Qed.
Definition values_of (v : text) : list text := map trim (split_on 44 v).
Lemma parse_item_keyed : forall x i, (exists k0 v, cut_at 58 x = Some (k0, v)) -> parse_item x = Ok i ->
  exists k0 v, x = k0 ++ 58 :: v /\ ~ In 58 k0 /\ trim k0 <> []
    /\ ((In 44 v /\ i = KeyValues (trim k0) (values_of v)) \/ (~ In 44 v /\ i = KeyValue (trim k0) (trim v))).
Proof.
  intros x i (k0 & v & C). unfold parse_item. rewrite C. apply cut_at_some in C. destruct C as (E & NI).
  destruct k0 as [|c k0]; [discriminate|].
  destruct (trim (c :: k0)) as [|y kk] eqn:T; [discriminate|].
  destruct (cut_at 44 v) as [[a b]|] eqn:C2; intros [= <-].
  - exists (c :: k0), v. split; [exact E|]. split; [exact NI|]. rewrite T. split; [discriminate|]. left.
    split; [|reflexivity]. apply cut_at_some in C2. destruct C2 as (-> & _). apply in_or_app. right. left. reflexivity.
  - exists (c :: k0), v. split; [exact E|]. split; [exact NI|]. rewrite T. split; [discriminate|]. right.
    split; [|reflexivity]. apply cut_at_none. exact C2.
Qed.
Lemma keyed_item : forall x key v, keyed x key v -> lit key <> [] ->
  parse_item x = Ok (match cut_at 44 v with
                     | Some _ => KeyValues (lit key) (values_of v)
                     | None => KeyValue (lit key) (trim v)
                     end).
Proof.
  intros x key v (k & -> & NI & P) NE. unfold parse_item.
  assert (cut_at 58 (k ++ 58 :: v) = Some (k, v)) as -> by (apply cut_at_some; auto).
  apply padded_trim in P. destruct k as [|c k]; [exfalso; apply NE; rewrite <- P; reflexivity|].
  rewrite P. destruct (lit key) as [|y kk] eqn:LK; [congruence|]. destruct (cut_at 44 v); reflexivity.
Qed.

(** The parts of a resource before the users are parsed. *)
Inductive ipart := IPort (n : N) | IUsers (us : list text) | ITrans (l : list transport).
Definition item_is (it : map_item) (p : ipart) : Prop :=
  match it, p with
  | KeyValue k v, IPort n => k = lit "port" /\ parse_u16 v = Ok n
  | KeyValue k v, IUsers us => k = lit "users" /\ us = [v]
  | KeyValues k vs, IUsers us => k = lit "users" /\ us = vs
  | Values vs, ITrans l => Forall2 trans_is vs l
  | _, _ => False
  end.
Definition item_ok (it : map_item) : Prop := match it with KeyValues _ vs => vs <> [] | _ => True end.
Definition iports := flat_map (fun p => match p with IPort n => [n] | _ => [] end).
Definition iusers := flat_map (fun p => match p with IUsers u => [u] | _ => [] end).
Definition itrans := flat_map (fun p => match p with ITrans l => l | _ => [] end).
Definition olist {A : Type} (o : option A) : list A := match o with Some x => [x] | None => [] end.
Definition ulist (u : list text) : list (list text) := match u with [] => [] | _ => [u] end.

Lemma items_spec : forall l port users tcp udp port' users' tcp' udp', Forall item_ok l ->
  resource_items l (port, users, tcp, udp) = Ok (port', users', tcp', udp') <->
  exists ips, Forall2 item_is l ips
    /\ olist port ++ iports ips = olist port'
    /\ ulist users ++ iusers ips = ulist users'
    /\ tcp' = (tcp || existsb is_tcp (itrans ips))%bool
    /\ udp' = (udp || existsb (fun x => negb (is_tcp x)) (itrans ips))%bool.
Proof.
  induction l as [|it l IH]; intros port users tcp udp port' users' tcp' udp' OK.
  - cbn [resource_items]. split.
    + intros [= <- <- <- <-]. exists []. simpl. rewrite !app_nil_r, !orb_false_r. auto.
    + intros (ips & F & E1 & E2 & -> & ->). inversion F; subst. simpl in E1, E2 |- *. rewrite app_nil_r in E1, E2.
      rewrite !orb_false_r. destruct port, port'; try discriminate; destruct users, users'; try discriminate;
        simpl in E1, E2; try injection E1 as ->; try injection E2 as -> ->; reflexivity.
  - inversion OK as [|? ? OK1 OK2]; subst. cbn [resource_items].
    assert (EP : forall (o : option N) xs p', olist o ++ xs = olist p' -> o <> None -> xs = []).
    { intros [a|] xs [p|] E NN; try congruence; try discriminate. injection E. auto. }
    assert (EU : forall u xs u', ulist u ++ xs = ulist u' -> u <> [] -> xs = []).
    { intros [|a u] xs [|p u'] E NN; try congruence; try discriminate. injection E. auto. }
    destruct it as [k v|k vs|vs].
    + destruct (is_lit k "port") eqn:K1; lits; [subst k|destruct (is_lit k "users") eqn:K2; lits; [subst k|]].
      * destruct port as [p0|].
        { cbn [bind]. split; [discriminate|]. intros (ips & F & E1 & _). exfalso.
          inversion F as [|? x ? ips' H F']; subst. apply EP in E1; [|discriminate].
          destruct x; cbn [item_is] in H; try contradiction; [discriminate|]. destruct H; discriminate. }
        destruct (parse_u16 v) as [p| |] eqn:PU.
        2,3: cbn [bind]; split; [discriminate|]; intros (ips & F & _); inversion F as [|? x ? ips' H F']; subst;
             destruct x; cbn [item_is] in H; try contradiction; [destruct H; congruence|destruct H; discriminate].
        cbn [bind]. rewrite IH by exact OK2. split.
        -- intros (ips & F & E1 & E2 & E3 & E4). exists (IPort p :: ips). split; [constructor; simpl; auto|]. simpl in *. auto.
        -- intros (ips & F & E1 & E2 & E3 & E4). inversion F as [|? x ? ips' H F']; subst.
           destruct x; cbn [item_is] in H; try contradiction; [|destruct H; discriminate]. destruct H as (_ & H).
           assert (n = p) by congruence. subst n. exists ips'. simpl in *. auto.
      * destruct users as [|u0 us].
        2:{ cbn [bind]. split; [discriminate|]. intros (ips & F & E1 & E2 & _). exfalso.
            inversion F as [|? x ? ips' H F']; subst. apply EU in E2; [|discriminate].
            destruct x; cbn [item_is] in H; try contradiction; [destruct H; discriminate|]. discriminate. }
        cbn [bind]. rewrite IH by exact OK2. split.
        -- intros (ips & F & E1 & E2 & E3 & E4). exists (IUsers [v] :: ips). split; [constructor; simpl; auto|]. simpl in *. auto.
        -- intros (ips & F & E1 & E2 & E3 & E4). inversion F as [|? x ? ips' H F']; subst.
           destruct x; cbn [item_is] in H; try contradiction; [destruct H; discriminate|]. destruct H as (_ & ->).
           exists ips'. simpl in *. auto.
      * cbn [bind]. split; [discriminate|]. intros (ips & F & _). exfalso. inversion F as [|? x ? ips' H F']; subst.
        destruct x; cbn [item_is] in H; try contradiction; destruct H; congruence.
    + simpl in OK1. destruct (is_lit k "port") eqn:K1; lits; [subst k|destruct (is_lit k "users") eqn:K2; lits; [subst k|]].
      * cbn [bind]. split; [discriminate|]. intros (ips & F & _). exfalso. inversion F as [|? x ? ips' H F']; subst.
        destruct x; cbn [item_is] in H; try contradiction. destruct H; discriminate.
      * destruct users as [|u0 us].
        2:{ cbn [bind]. split; [discriminate|]. intros (ips & F & E1 & E2 & _). exfalso.
            inversion F as [|? x ? ips' H F']; subst. apply EU in E2; [|discriminate].
            destruct x; cbn [item_is] in H; try contradiction. discriminate. }
        cbn [bind]. rewrite IH by exact OK2. split.
        -- intros (ips & F & E1 & E2 & E3 & E4). exists (IUsers vs :: ips). split; [constructor; simpl; auto|]. simpl in *.
           split; [exact E1|]. split; [|auto]. destruct vs; [congruence|]. exact E2.
        -- intros (ips & F & E1 & E2 & E3 & E4). inversion F as [|? x ? ips' H F']; subst.
           destruct x; cbn [item_is] in H; try contradiction. destruct H as (_ & ->).
           exists ips'. simpl in *. split; [exact F'|]. split; [exact E1|]. split; [|auto]. destruct vs; [congruence|]. exact E2.
      * cbn [bind]. split; [discriminate|]. intros (ips & F & _). exfalso. inversion F as [|? x ? ips' H F']; subst.
        destruct x; cbn [item_is] in H; try contradiction; destruct H; congruence.
    + destruct (transport_words vs tcp udp) as [[tcp1 udp1]| |] eqn:TW.
      2,3: cbn [bind]; split; [discriminate|]; intros (ips & F & _); exfalso; inversion F as [|? x ? ips' H F']; subst;
           destruct x; cbn [item_is] in H; try contradiction;
           assert (T : transport_words vs tcp udp = Ok ((tcp || existsb is_tcp l0)%bool, (udp || existsb (fun x => negb (is_tcp x)) l0)%bool))
             by (apply transport_words_spec; eauto); congruence.
      cbn [bind fst snd]. rewrite IH by exact OK2. split.
      * intros (ips & F & E1 & E2 & E3 & E4). apply transport_words_spec in TW. destruct TW as (l0 & T1 & -> & ->).
        exists (ITrans l0 :: ips). split; [constructor; simpl; auto|]. simpl. split; [exact E1|]. split; [exact E2|].
        rewrite !existsb_app, !orb_assoc. auto.
      * intros (ips & F & E1 & E2 & E3 & E4). inversion F as [|? x ? ips' H F']; subst.
        destruct x; cbn [item_is] in H; try contradiction.
        assert (T : transport_words vs tcp udp = Ok ((tcp || existsb is_tcp l0)%bool, (udp || existsb (fun x => negb (is_tcp x)) l0)%bool))
          by (apply transport_words_spec; eauto).
        rewrite T in TW. injection TW as <- <-. exists ips'. simpl in *. split; [exact F'|]. split; [exact E1|].
        split; [exact E2|]. rewrite !existsb_app, !orb_assoc. auto.
Qed.

Lemma resource_items_no_panic : forall l acc, resource_items l acc <> Panic.
Proof.
  induction l as [|it l IH]; intros [[[port users] tcp] udp]; cbn [resource_items]; [discriminate|].
  assert (B : forall r : res ritems, r <> Panic -> bind r (fun a => resource_items l a) <> Panic).
  { intros [a|e|] N; simpl; [apply IH|discriminate|congruence]. }
  apply B. destruct it as [k v|k vs|vs].
  - destruct (is_lit k "port").
    + destruct port; [discriminate|]. pose proof (parse_uint_no_panic U16_BOUND v) as P. unfold parse_u16.
      destruct (parse_uint U16_BOUND v); try congruence; discriminate.
    + destruct (is_lit k "users"); [destruct users; discriminate|discriminate].
  - destruct (is_lit k "port"); [discriminate|]. destruct (is_lit k "users"); [destruct users; discriminate|discriminate].
  - pose proof (transport_words_no_panic vs tcp udp) as P. destruct (transport_words vs tcp udp); try congruence; discriminate.
Qed.

Lemma parse_users_spec : forall l ids, parse_users l = Ok ids <-> Forall2 id_text l ids.
Proof.
  induction l as [|u l IH]; intros ids; cbn [parse_users].
  - split; [intros [= <-]; constructor|]. intros F. inversion F. reflexivity.
  - split.
    + destruct (parse_id u) as [id| |] eqn:E; try discriminate.
      destruct (parse_users l) as [is| |] eqn:E2; try discriminate. intros [= <-].
      constructor; [apply parse_id_spec; exact E|]. apply IH. reflexivity.
    + intros F. inversion F as [|? i ? is H F']; subst. apply parse_id_spec in H. rewrite H.
      rewrite (proj2 (IH is) F'). reflexivity.
Qed.
Lemma parse_users_no_panic : forall l, parse_users l <> Panic.
Proof.
  induction l as [|u l IH]; cbn [parse_users]; [discriminate|]. pose proof (parse_id_no_panic u).
  destruct (parse_id u); try congruence; try discriminate. destruct (parse_users l); try congruence; discriminate.
Qed.

(** Parts of the specification and items of the program. *)
Definition ip_part (ip : ipart) (p : resource_part) : Prop :=
  match ip, p with
  | IPort n, PartPort m => n = m
  | IUsers us, PartUsers ids => Forall2 id_text us ids
  | ITrans l, PartTransports l' => l = l'
  | _, _ => False
  end.

Lemma Forall2_map_l : forall (A B C : Type) (f : A -> B) (R : B -> C -> Prop) l l',
  Forall2 R (map f l) l' <-> Forall2 (fun x y => R (f x) y) l l'.
Proof.
  intros A B C f R. induction l as [|a l IH]; intros l'; simpl; split; intros F; inversion F; subst; constructor; auto;
    apply IH; auto.
Qed.
Lemma Forall2_iff : forall (A B : Type) (R S : A -> B -> Prop), (forall a b, R a b <-> S a b) ->
  forall l l', Forall2 R l l' <-> Forall2 S l l'.
Proof.
  intros A B R S E. induction l as [|a l IH]; intros l'; split; intros F; inversion F; subst; constructor; auto;
    try (apply E; auto); apply IH; auto.
Qed.

Lemma separated_values : forall v us, separated 44 v us <-> split_on 44 v = us.
Proof. intros. symmetry. apply split_on_separated. Qed.

Lemma part_iff : forall x p, part_text x p <->
  exists it ip, parse_item x = Ok it /\ item_ok it /\ item_is it ip /\ ip_part ip p.
Proof.
  intros x p. split.
  - destruct p as [n|ids|l]; simpl.
    + intros (v & K & I). pose proof (keyed_item _ _ _ K) as PI. 
      assert (NI : ~ In 44 v).
      { intros X. destruct I as (body & (a & b & -> & Ba & Bb & T) & _ & N).
        assert (W : ~ white_space 44). { intros W. apply is_white_spec in W. discriminate W. }
        apply in_app_or in X. destruct X as [X|X]; [apply W, Ba, X|]. apply in_app_or in X.
        destruct X as [X|X]; [|apply W, Bb, X].
        assert (D : forall base ds w, base <= 36 -> number base ds w -> ~ In 44 ds).
        { intros base ds w HB (ds' & _ & N' & E) IN. assert (In 44 ds') as IN'.
          { destruct E as [->| ->]; [exact IN|]. destruct IN as [IN|IN]; [discriminate|exact IN]. }
          destruct (numeral_digits _ _ _ N' 44 IN') as (d & D). unfold digit in D. lia. }
        destruct N as [N|(h & -> & N)].
        - eapply (D 10); eauto. lia.
        - simpl in X. destruct X as [X|[X|X]]; try discriminate. eapply (D 16); eauto. lia. }
      apply cut_at_none in NI. rewrite NI in PI.
      exists (KeyValue (lit "port") (trim v)), (IPort n). split; [apply PI; discriminate|]. split; [exact Logic.I|].
      split; [|reflexivity]. simpl. split; [reflexivity|]. unfold parse_u16. apply parse_uint_spec; [reflexivity|].
      apply int_text_trim. exact I.
    + intros (v & us & K & S & F). pose proof (keyed_item _ _ _ K) as PI. apply separated_values in S. subst us.
      assert (F' : Forall2 id_text (values_of v) ids).
      { unfold values_of. apply Forall2_map_l. eapply Forall2_iff; [|exact F]. intros a b. apply id_text_trim. }
      destruct (cut_at 44 v) as [[a b]|] eqn:C.
      * exists (KeyValues (lit "users") (values_of v)), (IUsers (values_of v)). split; [apply PI; discriminate|].
        split; [|simpl; auto]. unfold values_of. simpl. pose proof (split_on_nonempty 44 v). destruct (split_on 44 v); [congruence|discriminate].
      * exists (KeyValue (lit "users") (trim v)), (IUsers [trim v]). split; [apply PI; discriminate|].
        split; [exact I|]. split; [simpl; auto|]. simpl. apply cut_at_none in C.
        unfold values_of in F'. rewrite (split_one 44 v C) in F'. exact F'.
    + intros (NI & ws & S & F). apply separated_values in S. subst ws.
      exists (Values (values_of x)), (ITrans l). split.
      { unfold parse_item. rewrite (proj2 (cut_at_none _ _) NI). reflexivity. }
      split; [exact I|]. split; [|reflexivity]. simpl. unfold values_of. apply Forall2_map_l.
      eapply Forall2_iff; [|exact F]. intros a b. symmetry. apply transport_word_spec.
  - intros (it & ip & PI & _ & II & IP). destruct (cut_at 58 x) as [[k0 v]|] eqn:C.
    + destruct (parse_item_keyed x it) as (k & w & E & NI & NE & [(I44 & ->)|(N44 & ->)]); [eauto|exact PI| |].
      * destruct ip; simpl in II; try contradiction. destruct II as (K & ->). destruct p; simpl in IP; try contradiction.
        simpl. exists w, (split_on 44 w). split; [exists k; split; [exact E|split; [exact NI|]]; apply padded_trim; exact K|].
        split; [apply separated_values; reflexivity|]. unfold values_of in IP. apply (proj1 (Forall2_map_l _ _ _ trim id_text _ _)) in IP.
        eapply Forall2_iff; [|exact IP]. intros a b. symmetry. apply id_text_trim.
      * destruct ip; simpl in II; try contradiction; destruct II as (K & X); destruct p; simpl in IP; try contradiction.
        -- subst n0. exists w. split; [exists k; split; [exact E|split; [exact NI|]]; apply padded_trim; exact K|].
           unfold parse_u16 in X. apply parse_uint_spec in X; [|reflexivity]. apply int_text_trim. exact X.
        -- subst us. exists w, [w]. split; [exists k; split; [exact E|split; [exact NI|]]; apply padded_trim; exact K|].
           split; [apply separated_values; apply split_one; exact N44|].
           inversion IP as [|? i ? r H R]; subst. inversion R; subst. constructor; [apply id_text_trim; exact H|constructor].
    + unfold parse_item in PI. rewrite C in PI. injection PI as <-. destruct ip; simpl in II; try contradiction.
      destruct p; simpl in IP; try contradiction. subst l0. simpl. split; [apply cut_at_none; exact C|].
      exists (split_on 44 x). split; [apply separated_values; reflexivity|]. apply (proj1 (Forall2_map_l _ _ _ trim trans_is _ _)) in II.
      eapply Forall2_iff; [|exact II]. intros a b. apply transport_word_spec.
Qed.

Lemma parse_item_ok : forall x it, parse_item x = Ok it -> item_ok it.
Proof.
  intros x it. unfold parse_item. destruct (cut_at 58 x) as [[[|c k] v]|]; try discriminate.
  - destruct (trim (c :: k)); [discriminate|]. destruct (cut_at 44 v); intros [= <-]; simpl; [|exact I].
    pose proof (split_on_nonempty 44 v). destruct (split_on 44 v); [congruence|discriminate].
  - intros [= <-]. exact I.
Qed.

Lemma existsb_tcp : forall l, existsb is_tcp l = true <-> In TrTcp l.
Proof.
  intros l. rewrite existsb_exists. split; [intros ([] & I & E); [exact I|discriminate]|].
  intros I. exists TrTcp. auto.
Qed.
Lemma existsb_udp : forall l, existsb (fun x => negb (is_tcp x)) l = true <-> In TrUdp l.
Proof.
  intros l. rewrite existsb_exists. split; [intros ([] & I & E); [discriminate|exact I]|].
  intros I. exists TrUdp. auto.
Qed.
Lemma existsb_none : forall l, existsb is_tcp l = false -> existsb (fun x => negb (is_tcp x)) l = false -> l = [].
Proof. intros [|[] l]; simpl; try discriminate. reflexivity. Qed.

(** TCP is the default. *)
Lemma default_tcp : forall l (tcp udp : bool), tcp = existsb is_tcp l -> udp = existsb (fun x => negb (is_tcp x)) l ->
  ((if (negb tcp && negb udp)%bool then true else tcp) = true <-> In TrTcp l \/ l = [])
  /\ (udp = true <-> In TrUdp l).
Proof.
  intros l tcp udp -> ->. split; [|apply existsb_udp].
  destruct (existsb is_tcp l) eqn:E1; simpl.
  - apply existsb_tcp in E1. tauto.
  - destruct (existsb (fun x => negb (is_tcp x)) l) eqn:E2; simpl.
    + split; [discriminate|]. intros [X|X]; [apply existsb_tcp in X; congruence|subst l; discriminate].
    + split; [|reflexivity]. intros _. right. apply existsb_none; auto.
Qed.

Lemma ip_lists : forall ips ps, Forall2 ip_part ips ps ->
  part_ports ps = iports ips /\ part_transports ps = itrans ips
  /\ Forall2 (Forall2 id_text) (iusers ips) (part_users ps).
Proof.
  intros ips ps F. induction F as [|ip p ips ps H F (I1 & I2 & I3)]; simpl; [auto|].
  destruct ip, p; simpl in H; try contradiction; simpl; subst; rewrite ?I1, ?I2; auto.
Qed.

Lemma bool_iff : forall a b : bool, (a = true <-> b = true) -> a = b.
Proof. intros [] [] [H1 H2]; auto. symmetry. auto. Qed.

Lemma parse_resource_spec : forall t r, parse_resource t = Ok r <-> resource_text t r.
Proof.
  intros t r. unfold parse_resource, parse_map. split.
  - destruct (parse_items (split_on 47 t)) as [m| |] eqn:PM; try discriminate. cbn [bind].
    destruct (resource_items m (None, [], false, false)) as [[[[port users] tcp] udp]| |] eqn:RI; try discriminate.
    cbn [bind]. destruct port as [p|]; [|discriminate].
    destruct (parse_users users) as [ids| |] eqn:PU; try discriminate. intros [= <-].
    apply parse_items_spec in PM. apply parse_users_spec in PU.
    apply items_spec in RI.
    2:{ clear - PM. induction PM; constructor; auto. eapply parse_item_ok; eauto. }
    destruct RI as (ips & F & E1 & E2 & E3 & E4). simpl in E1, E2, E3, E4.
    assert (EX : exists ps, Forall2 ip_part ips ps).
    { assert (AL : forall us, In (IUsers us) ips -> us = users).
      { intros us I. assert (In us (iusers ips)) as IU by (apply in_flat_map; exists (IUsers us); simpl; auto).
        rewrite E2 in IU. destruct users; [destruct IU|]. destruct IU as [<-|[]]. reflexivity. }
      clear - AL PU. induction ips as [|ip ips IH]; [exists []; constructor|].
      destruct IH as (ps & F); [intros us I; apply AL; right; exact I|].
      destruct ip as [n|us|l].
      - exists (PartPort n :: ps). constructor; simpl; auto.
      - exists (PartUsers ids :: ps). constructor; simpl; auto. rewrite (AL us); [exact PU|left; reflexivity].
      - exists (PartTransports l :: ps). constructor; simpl; auto. }
    destruct EX as (ps & FP). destruct (ip_lists _ _ FP) as (L1 & L2 & L3).
    exists (split_on 47 t), ps. split; [apply split_on_separated; reflexivity|]. split.
    { clear - PM F FP. revert m ips ps PM F FP. induction (split_on 47 t) as [|x l IH]; intros m ips ps PM F FP;
        inversion PM as [|? it ? m' H1 PM']; subst; inversion F as [|? ip ? ips' H2 F']; subst;
        inversion FP as [|? p ? ps' H3 FP']; subst; constructor.
      - apply part_iff. exists it, ip. split; [exact H1|]. split; [eapply parse_item_ok; eauto|]. auto.
      - eapply IH; eauto. }
    simpl. split; [congruence|]. split.
    { rewrite E2 in L3. destruct users as [|u us]; simpl in L3.
      - left. inversion L3. inversion PU. auto.
      - right. inversion L3 as [|? y ? ys H R]; subst. inversion R; subst. f_equal.
        clear - H PU. revert ids y PU H. induction (u :: us) as [|a l IH]; intros ids y P H; inversion P; inversion H; subst; auto.
        f_equal; [eapply id_text_fun; eauto|]. apply IH; auto. }
    rewrite L2. apply default_tcp; auto.
  - intros (ts & ps & S & F & EP & EU & ET & ED). apply split_on_separated in S.
    assert (EX : exists m ips, Forall2 (fun x i => parse_item x = Ok i) ts m /\ Forall2 item_is m ips /\ Forall2 ip_part ips ps
                  /\ Forall item_ok m).
    { clear - F. induction F as [|x p ts ps H F (m & ips & A & B & C & D)]; [exists [], []; auto|].
      apply part_iff in H. destruct H as (it & ip & H1 & H2 & H3 & H4). exists (it :: m), (ip :: ips). auto. }
    destruct EX as (m & ips & A & B & C & D). rewrite S. rewrite (proj2 (parse_items_spec _ _) A). cbn [bind].
    destruct (ip_lists _ _ C) as (L1 & L2 & L3).
    assert (EX : exists users, ulist users = iusers ips /\ Forall2 id_text users (rs_users r)).
    { destruct EU as [(E & E')|E]; rewrite E in L3.
      - inversion L3; subst. exists []. rewrite E'. auto.
      - inversion L3 as [|u ? us ? H R]; subst. inversion R; subst.
        destruct u as [|u0 u].
        + exfalso. assert (In (IUsers []) ips) as IN.
          { assert (In [] (iusers ips)) as I2 by (rewrite <- H0; left; reflexivity).
            apply in_flat_map in I2. destruct I2 as (ip & I2 & I3). destruct ip; simpl in I3; try contradiction.
            destruct I3 as [->|[]]. exact I2. }
          clear - IN B D. induction B as [|it ip m ips H B IH]; [destruct IN|].
          inversion D as [|? ? D1 D2]; subst. destruct IN as [->|IN]; [|apply IH; auto].
          destruct it; simpl in *; try contradiction; destruct H as (_ & H); try discriminate. congruence.
        + exists (u0 :: u). auto. }
    destruct EX as (users & U1 & U2).
    assert (RI : resource_items m (None, [], false, false) =
                 Ok (Some (rs_port r), users, existsb is_tcp (itrans ips), existsb (fun x => negb (is_tcp x)) (itrans ips))).
    { apply items_spec; [exact D|]. exists ips. split; [exact B|]. simpl. split; [congruence|]. auto. }
    rewrite RI. cbn [bind]. rewrite (proj2 (parse_users_spec _ _) U2). cbn [bind].
    destruct (default_tcp (itrans ips) _ _ eq_refl eq_refl) as (T1 & T2). rewrite L2 in ET, ED.
    destruct r as [p tcp udp ids]. cbn [rs_port rs_tcp rs_udp rs_users] in *.
    f_equal. f_equal; apply bool_iff; tauto.
Qed.
Lemma parse_resource_no_panic : forall t, parse_resource t <> Panic.
Proof.
  intros t. unfold parse_resource. pose proof (parse_map_no_panic t). destruct (parse_map t) as [m| |]; try congruence; try discriminate.
  cbn [bind]. pose proof (resource_items_no_panic m (None, [], false, false)).
  destruct (resource_items m (None, [], false, false)) as [[[[port users] tcp] udp]| |]; try congruence; try discriminate. cbn [bind].
  destruct port; [|discriminate]. pose proof (parse_users_no_panic users). destruct (parse_users users); try congruence; discriminate.
Qed.
