(** Loading a configuration: the control port, the tables and the whole file. *)

From Coq Require Import String ZArith NArith List Bool Lia ZifyBool ZifyNat ZifyN Permutation.
From Verif Require Import M_Base M_IpAddr M_ConfTypes M_Text M_Str M_Utf8 M_Conf S_Wire S_Text S_Conf
  P_Base P_Text P_Str P_Ini P_Conf.
Import ListNotations.
Local Open Scope N_scope.

(** *** The control port *)

Lemma digit_10 : forall c, is_ascii_digit c = true <-> exists d, digit 10 c d.
Proof.
  intros c. unfold is_ascii_digit, digit. split.
  - intros H. exists (c - 48). lia.
  - intros (d & H). lia.
Qed.
Lemma digit_hex : forall c, is_ascii_hexdigit c = true <-> exists d, digit 16 c d.
Proof.
  intros c. unfold is_ascii_hexdigit, is_ascii_digit, digit. split.
  - intros H. destruct (N.leb_spec c 57); [exists (c - 48); lia|].
    destruct (N.leb_spec c 70); [exists (c - 55); lia|exists (c - 87); lia].
  - intros (d & H). lia.
Qed.
Lemma numeral_forallb : forall f base t v, (forall c, f c = true <-> exists d, digit base c d) ->
  numeral base t v -> forallb f t = true.
Proof.
  intros f base t v E N. apply forallb_forall. intros c I. apply E. eapply numeral_digits; eauto.
Qed.
Lemma number_plain : forall f base t v, (forall c, f c = true <-> exists d, digit base c d) ->
  forallb f t = true -> number base t v -> t <> [] /\ numeral base t v.
Proof.
  intros f base t v E A (ds & NE & N & [->| ->]); [auto|]. exfalso. simpl in A. apply andb_prop in A.
  destruct A as (A & _). apply E in A. destruct A as (d & D). eapply plus_no_digit; eauto.
Qed.

Lemma plain_spec : forall t n, plain_int_text 65536 t n <->
  is_number (trim t) = true /\ parse_u16 (trim t) = Ok n.
Proof.
  intros t n. unfold is_number, parse_u16, parse_uint, U16_BOUND. rewrite trim_trim. split.
  - intros (body & P & L & [(NE & N)|(h & E & NE & N)]); apply padded_trim in P; rewrite P.
    + assert (strip_prefix (lit "0x") body = None) as ->.
      { destruct (strip_prefix (lit "0x") body) as [h|] eqn:SP; [|reflexivity]. exfalso.
        apply strip_prefix_some in SP. apply (number_x h n). rewrite <- SP. exists body. auto. }
      split; [eapply numeral_forallb; [exact digit_10|exact N]|]. apply from_str_radix_spec; try lia.
      split; [|exact L]. exists body. auto.
    + rewrite (proj2 (strip_prefix_some (lit "0x") body h) E).
      split; [eapply numeral_forallb; [exact digit_hex|exact N]|]. apply from_str_radix_spec; try lia.
      split; [|exact L]. exists h. auto.
  - intros (A & B). exists (trim t). split; [apply trim_padded|].
    destruct (strip_prefix (lit "0x") (trim t)) as [h|] eqn:SP.
    + apply from_str_radix_spec in B; try lia. destruct B as (B & L). split; [exact L|]. right.
      apply strip_prefix_some in SP. exists h. split; [exact SP|]. eapply number_plain; eauto. exact digit_hex.
    + apply from_str_radix_spec in B; try lia. destruct B as (B & L). split; [exact L|]. left.
      eapply number_plain; eauto. exact digit_10.
Qed.

Lemma trans_no_number : forall t x, trans_is (trim t) x -> is_number (trim t) = false.
Proof.
  intros t x H. unfold is_number. rewrite trim_trim. unfold trans_is in H.
  assert (exists c r, trim t = c :: r /\ c <> 48 /\ is_ascii_digit c = false) as (c & r & E & N1 & N2).
  { destruct (trim t) as [|c r]; [destruct x; discriminate|]. exists c, r. split; [reflexivity|].
    assert (L : lower_char c = 116 \/ lower_char c = 117) by (destruct x; injection H; auto).
    unfold lower_char in L. unfold is_ascii_digit.
    destruct ((65 <=? c) && (c <=? 90))%bool eqn:E1; [lia|]. destruct (c =? 8490) eqn:E2; lia. }
  rewrite E. apply N.eqb_neq in N1.
  assert (strip_prefix (lit "0x") (c :: r) = None) as ->.
  { destruct (strip_prefix (lit "0x") (c :: r)) as [h|] eqn:SP; [|reflexivity]. apply strip_prefix_some in SP.
    injection SP as -> _. discriminate N1. }
  simpl. rewrite N2. reflexivity.
Qed.

Definition port_item_is (it : map_item) (p : port_part) : Prop :=
  match it, p with
  | Values vs, PPort n => exists v, vs = [v] /\ is_number v = true /\ parse_u16 v = Ok n
  | Values vs, PTransports l => (Nat.eqb (length vs) 1 && is_number (hd [] vs))%bool = false /\ Forall2 trans_is vs l
  | _, _ => False
  end.

Lemma last_cons : forall (A : Type) (l : list A) x d, last (x :: l) d = last l x.
Proof.
  intros A l. induction l as [|y l IH]; intros x d; [reflexivity|].
  change (last (x :: y :: l) d) with (last (y :: l) d). rewrite !IH. reflexivity.
Qed.

Lemma port_items_spec : forall l cp cp', port_items l cp = Ok cp' <->
  exists ps, Forall2 port_item_is l ps /\ cp_port cp' = last (pp_ports ps) (cp_port cp)
    /\ cp_tcp cp' = (cp_tcp cp || existsb is_tcp (pp_transports ps))%bool
    /\ cp_udp cp' = (cp_udp cp || existsb (fun x => negb (is_tcp x)) (pp_transports ps))%bool.
Proof.
  induction l as [|it l IH]; intros cp cp'; cbn [port_items].
  - split.
    + intros [= <-]. exists []. simpl. rewrite !orb_false_r. auto.
    + intros (ps & F & E1 & E2 & E3). inversion F; subst. simpl in *. rewrite orb_false_r in E2, E3.
      destruct cp, cp'; simpl in *; congruence.
  - destruct it as [k v|k vs|vs].
    1,2: split; [discriminate|]; intros (ps & F & _); inversion F as [|? x ? ps' H F']; subst; destruct x; destruct H.
    destruct (Nat.eqb (length vs) 1 && is_number (hd [] vs))%bool eqn:C.
    + apply andb_prop in C. destruct C as (C1 & C2). apply Nat.eqb_eq in C1.
      destruct vs as [|v [|]]; try discriminate. cbn [hd] in *.
      destruct (parse_u16 v) as [p| |] eqn:PU.
      2,3: cbn [bind]; split; [discriminate|]; intros (ps & F & _); exfalso; inversion F as [|? x ? ps' H F']; subst;
        destruct x; cbn [port_item_is] in H; [destruct H as (v' & [= <-] & _ & H); congruence|
          destruct H as (H & _); cbn [length Nat.eqb hd andb] in H; congruence].
      cbn [bind]. rewrite IH. cbn [cp_port cp_tcp cp_udp]. split.
      * intros (ps & F & E). exists (PPort p :: ps). split; [constructor; [exists v; auto|exact F]|].
        change (pp_ports (PPort p :: ps)) with (p :: pp_ports ps). rewrite last_cons. exact E.
      * intros (ps & F & E). inversion F as [|? x ? ps' H F']; subst. destruct x; cbn [port_item_is] in H.
        -- destruct H as (v' & [= <-] & _ & H). assert (n = p) by congruence. subst n. exists ps'. split; [exact F'|].
           change (pp_ports (PPort p :: ps')) with (p :: pp_ports ps') in E. rewrite last_cons in E. exact E.
        -- destruct H as (H & _). cbn [length Nat.eqb hd andb] in H. congruence.
    + destruct (transport_words vs (cp_tcp cp) (cp_udp cp)) as [[tcp1 udp1]| |] eqn:TW.
      2,3: cbn [bind]; split; [discriminate|]; intros (ps & F & _); exfalso; inversion F as [|? x ? ps' H F']; subst;
        destruct x; cbn [port_item_is] in H; [destruct H as (v' & -> & H & _); cbn [length Nat.eqb hd andb] in C; congruence|];
        destruct H as (_ & H);
        assert (T : transport_words vs (cp_tcp cp) (cp_udp cp) =
          Ok ((cp_tcp cp || existsb is_tcp l0)%bool, (cp_udp cp || existsb (fun x => negb (is_tcp x)) l0)%bool))
             by (apply transport_words_spec; eauto); congruence.
      cbn [bind fst snd]. rewrite IH. cbn [cp_port cp_tcp cp_udp]. split.
      * intros (ps & F & E1 & E2 & E3). apply transport_words_spec in TW. destruct TW as (l0 & T1 & -> & ->).
        exists (PTransports l0 :: ps). split; [constructor; [split; auto|exact F]|].
        change (pp_transports (PTransports l0 :: ps)) with (l0 ++ pp_transports ps).
        split; [exact E1|]. rewrite !existsb_app, !orb_assoc. auto.
      * intros (ps & F & E1 & E2 & E3). inversion F as [|? x ? ps' H F']; subst. destruct x; cbn [port_item_is] in H.
        { destruct H as (v' & -> & H & _). cbn [length Nat.eqb hd andb] in C. congruence. }
        destruct H as (_ & H).
        assert (T : transport_words vs (cp_tcp cp) (cp_udp cp) =
          Ok ((cp_tcp cp || existsb is_tcp l0)%bool, (cp_udp cp || existsb (fun x => negb (is_tcp x)) l0)%bool))
             by (apply transport_words_spec; eauto).
        rewrite T in TW. injection TW as <- <-. exists ps'. split; [exact F'|].
        change (pp_transports (PTransports l0 :: ps')) with (l0 ++ pp_transports ps') in E2, E3.
        split; [exact E1|]. rewrite !existsb_app, !orb_assoc in *. auto.
Qed.

Lemma port_part_iff : forall x p, port_part_text x p <-> exists it, parse_item x = Ok it /\ port_item_is it p.
Proof.
  intros x p. unfold port_part_text. split.
  - intros (NI & H). exists (Values (values_of x)). split.
    { unfold parse_item. rewrite (proj2 (cut_at_none _ _) NI). reflexivity. }
    destruct p as [n|l]; cbn [port_item_is].
    + destruct H as (N44 & H). apply plain_spec in H. exists (trim x). unfold values_of.
      rewrite (split_one 44 x N44). auto.
    + destruct H as (ws & S & F). apply separated_values in S. subst ws.
      assert (F' : Forall2 trans_is (values_of x) l).
      { unfold values_of. apply Forall2_map_l. eapply Forall2_iff; [|exact F]. intros a b. symmetry. apply transport_word_spec. }
      split; [|exact F']. unfold values_of in *. destruct (split_on 44 x) as [|y [|]]; try reflexivity.
      cbn [map length Nat.eqb hd andb]. inversion F' as [|? z ? ? H ?]; subst. eapply trans_no_number; eauto.
  - intros (it & PI & II). assert (NI : ~ In 58 x).
    { apply cut_at_none. destruct (cut_at 58 x) as [[k0 v]|] eqn:C; [|reflexivity]. exfalso.
      destruct (parse_item_keyed x it) as (k & w & E & NI & NE & [(I44 & ->)|(N44 & ->)]); [eauto|exact PI| |];
        destruct p; exact II. }
    split; [exact NI|]. unfold parse_item in PI. rewrite (proj2 (cut_at_none _ _) NI) in PI. injection PI as <-.
    destruct p as [n|l]; cbn [port_item_is] in II.
    + destruct II as (v & E & A & B). destruct (split_on 44 x) as [|y [|]] eqn:S; try discriminate. injection E as <-.
      apply split_on_separated in S. destruct S as (_ & S1 & S2). simpl in S2. subst y.
      split; [apply S1; left; reflexivity|]. apply plain_spec. auto.
    + destruct II as (_ & F). exists (split_on 44 x). split; [apply separated_values; reflexivity|].
      apply (proj1 (Forall2_map_l _ _ _ trim trans_is _ _)) in F. eapply Forall2_iff; [|exact F]. intros a b. apply transport_word_spec.
Qed.

Definition parse_port (t : text) : res control_port :=
  bind (parse_map t) (fun m =>
  bind (port_items m (ControlPort PORT false false)) (fun cp =>
  Ok (if negb (cp_tcp cp) && negb (cp_udp cp) then ControlPort (cp_port cp) true (cp_udp cp) else cp))).

Lemma parse_port_spec : forall t c, parse_port t = Ok c <-> control_port_text t c.
Proof.
  intros t c. unfold parse_port, parse_map. split.
  - destruct (parse_items (split_on 47 t)) as [m| |] eqn:PM; try discriminate. cbn [bind].
    destruct (port_items m (ControlPort PORT false false)) as [cp| |] eqn:PI; try discriminate. cbn [bind]. intros [= <-].
    apply parse_items_spec in PM. apply port_items_spec in PI. destruct PI as (ps & F & E1 & E2 & E3).
    cbn [cp_port cp_tcp cp_udp orb] in *. exists (split_on 47 t), ps. split; [apply split_on_separated; reflexivity|]. split.
    { clear - PM F. revert m ps PM F. induction (split_on 47 t) as [|x l IH]; intros m ps PM F;
        inversion PM as [|? it ? m' H1 PM']; subst; inversion F as [|? ip ? ips' H2 F']; subst; constructor.
      - apply port_part_iff. exists it. auto.
      - eapply IH; eauto. }
    destruct (default_tcp (pp_transports ps) _ _ E2 E3) as (T1 & T2).
    destruct (negb (cp_tcp cp) && negb (cp_udp cp))%bool; cbn [cp_port cp_tcp cp_udp]; auto.
  - intros (ts & ps & S & F & EP & ET & EU). apply split_on_separated in S. subst ts.
    assert (EX : exists m, Forall2 (fun x i => parse_item x = Ok i) (split_on 47 t) m /\ Forall2 port_item_is m ps).
    { clear - F. induction F as [|x p ts ps H F (m & A & B)]; [exists []; auto|].
      apply port_part_iff in H. destruct H as (it & H1 & H2). exists (it :: m). auto. }
    destruct EX as (m & A & B). rewrite (proj2 (parse_items_spec _ _) A). cbn [bind].
    set (tcp := existsb is_tcp (pp_transports ps)) in *.
    set (udp := existsb (fun x => negb (is_tcp x)) (pp_transports ps)) in *.
    assert (PI : port_items m (ControlPort PORT false false) = Ok (ControlPort (last (pp_ports ps) PORT) tcp udp)).
    { apply port_items_spec. exists ps. auto. }
    rewrite PI. cbn [bind cp_port cp_tcp cp_udp].
    destruct (default_tcp (pp_transports ps) tcp udp eq_refl eq_refl) as (T1 & T2).
    destruct c as [p tc ud]. cbn [cp_port cp_tcp cp_udp] in *. f_equal.
    assert (ud = udp) as -> by (apply bool_iff; tauto).
    assert (tc = if (negb tcp && negb udp)%bool then true else tcp) as -> by (apply bool_iff; tauto).
    subst p. destruct (negb tcp && negb udp)%bool; reflexivity.
Qed.
Lemma port_items_no_panic : forall l cp, port_items l cp <> Panic.
Proof.
  induction l as [|it l IH]; intros cp; cbn [port_items]; [discriminate|]. destruct it; try discriminate.
  assert (B : forall r : res control_port, r <> Panic -> bind r (fun a => port_items l a) <> Panic).
  { intros [a|e|] N; simpl; [apply IH|discriminate|congruence]. }
  apply B. destruct (_ && _)%bool.
  - unfold parse_u16. pose proof (parse_uint_no_panic U16_BOUND (hd [] vs)). destruct (parse_uint U16_BOUND (hd [] vs)); try congruence; discriminate.
  - pose proof (transport_words_no_panic vs (cp_tcp cp) (cp_udp cp)). destruct (transport_words vs (cp_tcp cp) (cp_udp cp)); try congruence; discriminate.
Qed.
Lemma parse_port_no_panic : forall t, parse_port t <> Panic.
Proof.
  intros t. unfold parse_port. pose proof (parse_map_no_panic t). destruct (parse_map t) as [m| |]; try congruence; try discriminate.
  cbn [bind]. pose proof (port_items_no_panic m (ControlPort PORT false false)).
  destruct (port_items m (ControlPort PORT false false)); try congruence; discriminate.
Qed.

(** *** The tables *)

Lemma key_parse : forall t k, key_text t k <->
  parse_hex 32 t = Ok k /\ k <> repeat 0 32 /\ k <> repeat 255 32.
Proof.
  intros t k. rewrite parse_hex_spec. unfold key_text. split.
  - intros (b & P & H & L & A & B). split; [exists b; auto|auto].
  - intros ((b & P & H & L) & A & B). exists b. auto.
Qed.

Definition entry {A : Type} (means : text -> A -> Prop) (e : text * text) (x : N * A) : Prop :=
  id_text (fst e) (fst x) /\ means (snd e) (snd x).

Lemma nlookup_none : forall (A : Type) (m : nmap A) id, nlookup id m = None <-> ~ In id (map fst m).
Proof.
  intros A m id. induction m as [|[k v] m IH]; simpl; [tauto|]. destruct (id =? k) eqn:E.
  - apply N.eqb_eq in E. split; [discriminate|]. intros X. exfalso. apply X. auto.
  - apply N.eqb_neq in E. rewrite IH. split; intros X; [intros [Y|Y]; auto|auto].
Qed.
Lemma nlookup_in : forall (A : Type) (m : nmap A) id x, NoDup (map fst m) -> nlookup id m = Some x <-> In (id, x) m.
Proof.
  intros A m id x ND. induction m as [|[k v] m IH]; simpl; [split; [discriminate|contradiction]|].
  inversion ND as [|? ? NI ND']; subst. destruct (id =? k) eqn:E.
  - apply N.eqb_eq in E. subst k. split; [intros [= <-]; auto|]. intros [[= <-]|I]; [reflexivity|].
    exfalso. apply NI. apply in_map_iff. exists (id, x). auto.
  - apply N.eqb_neq in E. rewrite IH by exact ND'. split; [auto|]. intros [[= -> ->]|I]; [congruence|exact I].
Qed.

Lemma NoDup_snoc_iff : forall (A : Type) (l : list A) x, NoDup (l ++ [x]) <-> NoDup l /\ ~ In x l.
Proof.
  intros A l x. split.
  - intros N. apply NoDup_remove in N. rewrite app_nil_r in N. exact N.
  - intros (N & I). apply NoDup_Add with (a := x) (l := l); [|auto]. rewrite <- (app_nil_r l) at 1. apply Add_app.
Qed.

Lemma NoDup_prefix : forall (A : Type) (a b : list A), NoDup (a ++ b) -> NoDup a.
Proof. intros A a b. induction a; simpl; intros N; [constructor|]. inversion N; subst. constructor; [|auto]. intros I. apply H1. apply in_or_app. auto. Qed.

Lemma keys_loop_spec : forall l acc m, NoDup (map fst acc) ->
  keys_loop l acc = Ok m <-> exists es, Forall2 (entry key_text) l es /\ m = acc ++ es /\ NoDup (map fst m).
Proof.
  induction l as [|[it kt] l IH]; intros acc m ND; cbn [keys_loop].
  - split.
    + intros [= <-]. exists []. rewrite app_nil_r. auto.
    + intros (es & F & -> & _). inversion F; subst. rewrite app_nil_r. reflexivity.
  - destruct (parse_id it) as [id| |] eqn:PI.
    2,3: cbn [bind]; split; [discriminate|]; intros (es & F & _); exfalso; inversion F as [|? [i k] ? es' H F']; subst;
         destruct H as (H & _); cbn [fst] in H; apply parse_id_spec in H; congruence.
    cbn [bind]. destruct (parse_hex 32 kt) as [k| |] eqn:PH.
    2,3: cbn [bind]; split; [discriminate|]; intros (es & F & _); exfalso; inversion F as [|? [i k] ? es' H F']; subst;
         destruct H as (_ & H); cbn [snd] in H; apply key_parse in H; destruct H; congruence.
    cbn [bind]. apply parse_id_spec in PI.
    assert (U : forall es, Forall2 (entry key_text) ((it, kt) :: l) es ->
              exists es', es = (id, k) :: es' /\ Forall2 (entry key_text) l es' /\ key_text kt k).
    { intros es F. inversion F as [|? [i k'] ? es' (H1 & H2) F']; subst. cbn [fst snd] in *.
      pose proof (id_text_fun _ _ _ PI H1). subst i. pose proof (proj1 (key_parse _ _) H2) as (H3 & _).
      assert (k' = k) by congruence. subst k'. eauto. }
    destruct (list_eqb k (repeat 0 32)) eqn:Z0.
    { apply list_eqb_spec in Z0. split; [discriminate|]. intros (es & F & _). destruct (U es F) as (_ & _ & _ & K).
      apply key_parse in K. destruct K as (_ & K & _). congruence. }
    destruct (list_eqb k (repeat 255 32)) eqn:Z1.
    { apply list_eqb_spec in Z1. split; [discriminate|]. intros (es & F & _). destruct (U es F) as (_ & _ & _ & K).
      apply key_parse in K. destruct K as (_ & _ & K). congruence. }
    apply list_eqb_false in Z0, Z1.
    assert (K : key_text kt k) by (apply key_parse; auto).
    destruct (nlookup id acc) as [x|] eqn:NL.
    + split; [discriminate|]. intros (es & F & -> & ND'). exfalso. destruct (U es F) as (es' & -> & _).
      rewrite map_app in ND'. simpl in ND'. apply NoDup_remove_2 in ND'. apply ND'. apply in_or_app. left.
      apply nlookup_in in NL; [|exact ND]. apply in_map_iff. exists (id, x). auto.
    + apply nlookup_none in NL. rewrite IH.
      2:{ rewrite map_app. apply NoDup_snoc_iff. auto. }
      split.
      * intros (es & F & -> & ND'). exists ((id, k) :: es). split; [constructor; [split; auto|exact F]|].
        split; [rewrite <- app_assoc; reflexivity|exact ND'].
      * intros (es & F & -> & ND'). destruct (U es F) as (es' & -> & F' & _). exists es'. split; [exact F'|].
        split; [rewrite <- app_assoc; reflexivity|exact ND'].
Qed.
Lemma keys_loop_no_panic : forall l acc, keys_loop l acc <> Panic.
Proof.
  induction l as [|[it kt] l IH]; intros acc; cbn [keys_loop]; [discriminate|].
  pose proof (parse_id_no_panic it). destruct (parse_id it); try congruence; try discriminate. cbn [bind].
  pose proof (parse_hex_no_panic 32 kt). destruct (parse_hex 32 kt); try congruence; try discriminate. cbn [bind].
  destruct (list_eqb _ _); [discriminate|]. destruct (list_eqb _ _); [discriminate|].
  destruct (nlookup _ _); [discriminate|apply IH].
Qed.

Definition ports_of (m : nmap resource) : list N := map (fun y => rs_port (snd y)) m.
Lemma resources_loop_spec : forall l acc m, NoDup (map fst acc) -> NoDup (ports_of acc) ->
  resources_loop l acc = Ok m <->
  exists es, Forall2 (entry resource_text) l es /\ m = acc ++ es /\ NoDup (map fst m) /\ NoDup (ports_of m).
Proof.
  induction l as [|[it rt] l IH]; intros acc m ND NP; cbn [resources_loop].
  - split.
    + intros [= <-]. exists []. rewrite app_nil_r. auto.
    + intros (es & F & -> & _). inversion F; subst. rewrite app_nil_r. reflexivity.
  - destruct (parse_id it) as [id| |] eqn:PI.
    2,3: cbn [bind]; split; [discriminate|]; intros (es & F & _); exfalso; inversion F as [|? [i k] ? es' H F']; subst;
         destruct H as (H & _); cbn [fst] in H; apply parse_id_spec in H; congruence.
    cbn [bind]. destruct (parse_resource rt) as [r| |] eqn:PR.
    2,3: cbn [bind]; split; [discriminate|]; intros (es & F & _); exfalso; inversion F as [|? [i k] ? es' H F']; subst;
         destruct H as (_ & H); cbn [snd] in H; apply parse_resource_spec in H; congruence.
    cbn [bind]. apply parse_id_spec in PI.
    assert (U : forall es, Forall2 (entry resource_text) ((it, rt) :: l) es ->
              exists es', es = (id, r) :: es' /\ Forall2 (entry resource_text) l es').
    { intros es F. inversion F as [|? [i k'] ? es' (H1 & H2) F']; subst. cbn [fst snd] in *.
      pose proof (id_text_fun _ _ _ PI H1). subst i. apply parse_resource_spec in H2.
      assert (k' = r) by congruence. subst k'. eauto. }
    apply parse_resource_spec in PR.
    destruct (existsb (fun y => (fst y =? id) || (rs_port (snd y) =? rs_port r))%bool acc) eqn:EX.
    + split; [discriminate|]. intros (es & F & -> & ND' & NP'). exfalso. destruct (U es F) as (es' & -> & _).
      apply existsb_exists in EX. destruct EX as ([i y] & I & EX). cbn [fst snd] in EX. apply orb_prop in EX.
      unfold ports_of in NP'. rewrite map_app in ND', NP'. simpl in ND', NP'. apply NoDup_remove_2 in ND', NP'.
      destruct EX as [EX|EX]; apply N.eqb_eq in EX.
      * apply ND'. apply in_or_app. left. apply in_map_iff. exists (i, y). auto.
      * apply NP'. apply in_or_app. left. apply in_map_iff. exists (i, y). auto.
    + assert (N1 : ~ In id (map fst acc) /\ ~ In (rs_port r) (ports_of acc)).
      { split; intros I; apply in_map_iff in I; destruct I as ([i y] & E & I); cbn [fst snd] in E;
          (assert (X : existsb (fun y => (fst y =? id) || (rs_port (snd y) =? rs_port r))%bool acc = true);
           [apply existsb_exists; exists (i, y); split; [exact I|]; cbn [fst snd]; subst; rewrite ?E, N.eqb_refl; auto using orb_true_r|congruence]). }
      rewrite IH.
      2:{ rewrite map_app. apply NoDup_snoc_iff. tauto. }
      2:{ unfold ports_of. rewrite map_app. apply NoDup_snoc_iff. tauto. }
      split.
      * intros (es & F & -> & ND'). exists ((id, r) :: es). split; [constructor; [split; auto|exact F]|].
        split; [rewrite <- app_assoc; reflexivity|exact ND'].
      * intros (es & F & -> & ND'). destruct (U es F) as (es' & -> & F'). exists es'. split; [exact F'|].
        split; [rewrite <- app_assoc; reflexivity|exact ND'].
Qed.
Lemma resources_loop_no_panic : forall l acc, resources_loop l acc <> Panic.
Proof.
  induction l as [|[it kt] l IH]; intros acc; cbn [resources_loop]; [discriminate|].
  pose proof (parse_id_no_panic it). destruct (parse_id it); try congruence; try discriminate. cbn [bind].
  pose proof (parse_resource_no_panic kt). destruct (parse_resource kt); try congruence; try discriminate. cbn [bind].
  destruct (existsb _ _); [discriminate|apply IH].
Qed.

(** Entries in some order are a table. *)
Lemma Forall2_in_l : forall (A B : Type) (R : A -> B -> Prop) l l', Forall2 R l l' ->
  forall a, In a l -> exists b, In b l' /\ R a b.
Proof. intros A B R l l' F. induction F; intros z I; [destruct I|]. destruct I as [<-|I]; [eexists; split; [left; reflexivity|assumption]|]. destruct (IHF z I) as (b & I' & H'). exists b. split; [right; exact I'|exact H']. Qed.
Lemma Forall2_in_r : forall (A B : Type) (R : A -> B -> Prop) l l', Forall2 R l l' ->
  forall b, In b l' -> exists a, In a l /\ R a b.
Proof. intros A B R l l' F. induction F; intros z I; [destruct I|]. destruct I as [<-|I]; [eexists; split; [left; reflexivity|assumption]|]. destruct (IHF z I) as (b & I' & H'). exists b. split; [right; exact I'|exact H']. Qed.

Section Tables.
Variable A : Type.
Variable means : text -> A -> Prop.
Hypothesis means_fun : forall t x y, means t x -> means t y -> x = y.

Lemma entries_nodup : forall l es, Forall2 (entry means) l es -> NoDup (map fst l) ->
  ((forall e1 e2 id, In e1 l -> In e2 l -> id_text (fst e1) id -> id_text (fst e2) id -> fst e1 = fst e2)
   <-> NoDup (map fst es)).
Proof.
  intros l es F ND. split.
  - intros U. induction F as [|e x l es H F IH]; simpl; [constructor|]. inversion ND as [|? ? NI ND']; subst.
    constructor; [|apply IH; [exact ND'|intros; eapply U; eauto; right; auto]].
    intros I. apply in_map_iff in I. destruct I as (y & E & I).
    destruct (Forall2_in_r _ _ _ _ _ F y I) as (e2 & I2 & H2).
    apply NI. rewrite (U e e2 (fst x)); [apply in_map; exact I2|left; reflexivity|right; exact I2|apply H|].
    rewrite <- E. apply H2.
  - intros NE. induction F as [|e x l es H F IH]; [intros e1 e2 id []|]. simpl in ND, NE.
    inversion ND as [|? ? NI ND']; subst. inversion NE as [|? ? NI2 NE']; subst.
    assert (X : forall e2 id, In e2 l -> id_text (fst e) id -> id_text (fst e2) id -> False).
    { intros e2 id I H1 H2. destruct (Forall2_in_l _ _ _ _ _ F e2 I) as (y & I' & (H3 & _)).
      apply NI2. apply in_map_iff. exists y. split; [|exact I'].
      rewrite (id_text_fun _ _ _ H3 H2). symmetry. destruct H as (H & _). eapply id_text_fun; eauto. }
    intros e1 e2 id [<-|I1] [<-|I2] H1 H2; [reflexivity|exfalso; eapply X; eauto|exfalso; eapply X; eauto|eapply IH; eauto].
Qed.

Lemma table_of_entries : forall ls s l es,
  (forall o v, has_option ls (lit s) o v <-> In (o, v) l) -> NoDup (map fst l) ->
  Forall2 (entry means) l es -> NoDup (map fst es) ->
  table ls s means (fun id => nlookup id es).
Proof.
  intros ls s l es HO ND F NE. split; [|split].
  - intros o v H. apply HO in H. destruct (Forall2_in_l _ _ _ _ _ F (o, v) H) as ([id x] & _ & H1 & H2). eauto.
  - intros o1 o2 v1 v2 id H1 H2 I1 I2. apply HO in H1, H2.
    apply (proj2 (entries_nodup l es F ND) NE (o1, v1) (o2, v2) id); auto.
  - intros id x. rewrite nlookup_in by exact NE. split.
    + intros I. destruct (Forall2_in_r _ _ _ _ _ F (id, x) I) as ([o v] & I' & H1 & H2). exists o, v.
      split; [apply HO; exact I'|]. auto.
    + intros (o & v & H & H1 & H2). apply HO in H.
      destruct (Forall2_in_l _ _ _ _ _ F (o, v) H) as ([id' x'] & I & H3 & H4). cbn [fst snd] in *.
      rewrite (id_text_fun _ _ _ H1 H3), (means_fun _ _ _ H2 H4). exact I.
Qed.

Lemma entries_of_table : forall ls s l lookup,
  (forall o v, has_option ls (lit s) o v <-> In (o, v) l) -> NoDup (map fst l) ->
  table ls s means lookup ->
  exists es, Forall2 (entry means) l es /\ NoDup (map fst es) /\ forall id, nlookup id es = lookup id.
Proof.
  intros ls s l lookup HO ND (T1 & T2 & T3).
  assert (EX : exists es, Forall2 (entry means) l es).
  { assert (H : forall e, In e l -> exists x, entry means e x).
    { intros [o v] I. apply HO in I. destruct (T1 o v I) as (id & x & H1 & H2). exists (id, x). split; auto. }
    clear - H. induction l as [|e l IH]; [exists []; constructor|].
    destruct IH as (es & F); [intros; apply H; right; auto|]. destruct (H e) as (x & X); [left; reflexivity|].
    exists (x :: es). constructor; auto. }
  destruct EX as (es & F). exists es. split; [exact F|].
  assert (NE : NoDup (map fst es)).
  { apply (proj1 (entries_nodup l es F ND)). intros [o1 v1] [o2 v2] id I1 I2 H1 H2. apply HO in I1, I2. eapply T2; eauto. }
  split; [exact NE|]. intros id.
  destruct (table_of_entries ls s l es HO ND F NE) as (_ & _ & T3').
  destruct (lookup id) as [x|] eqn:E.
  - apply T3'. apply T3. exact E.
  - destruct (nlookup id es) as [x|] eqn:E2; [|reflexivity]. apply T3', T3 in E2. congruence.
Qed.
End Tables.

Lemma key_text_fun : forall t x y, key_text t x -> key_text t y -> x = y.
Proof. intros t x y H1 H2. apply key_parse in H1, H2. destruct H1, H2. congruence. Qed.
Lemma resource_text_fun : forall t x y, resource_text t x -> resource_text t y -> x = y.
Proof. intros t x y H1 H2. apply parse_resource_spec in H1, H2. congruence. Qed.

(** *** The whole file *)

Section Whole.
Variable float : text -> option N.
Variable order : omap -> omap.
Hypothesis order_perm : forall m, Permutation m (order m).

Notation dur := (duration_text float).

Lemma parse_duration_spec : forall t n, parse_duration float t = Ok n <-> dur t n.
Proof.
  intros t n. unfold parse_duration, parse_u32, duration_text.
  destruct (parse_uint U32_BOUND t) as [s|e|] eqn:P.
  - apply parse_uint_spec in P; [|reflexivity]. split.
    + intros [= <-]. left. exists s. split; [exact P|reflexivity].
    + intros [(s' & P' & ->)|(N & _)]; [|exfalso; eapply N; exact P].
      rewrite (int_text_fun U32_BOUND t s s'); [reflexivity|reflexivity|exact P|exact P'].
  - assert (N : forall s, ~ int_text 4294967296 t s).
    { intros s H. apply (parse_uint_spec U32_BOUND) in H; [|reflexivity]. congruence. }
    destruct (float (trim t)) as [x|] eqn:F.
    + split.
      * intros [= <-]. right. split; [exact N|]. exists (trim t). split; [apply trim_padded|exact F].
      * intros [(s & H & _)|(_ & b & H & F')]; [exfalso; eapply N; exact H|].
        apply padded_trim in H. rewrite H in F. congruence.
    + split; [discriminate|]. intros [(s & H & _)|(_ & b & H & F')]; [exfalso; eapply N; exact H|].
      apply padded_trim in H. rewrite H in F. congruence.
  - exfalso. eapply parse_uint_no_panic; eauto.
Qed.
Lemma parse_duration_no_panic : forall t, parse_duration float t <> Panic.
Proof.
  intros t. unfold parse_duration, parse_u32. pose proof (parse_uint_no_panic U32_BOUND t).
  destruct (parse_uint U32_BOUND t); try discriminate; [|congruence]. destruct (float (trim t)); discriminate.
Qed.

Variable ls : list text.
Variable i : ini.
Hypothesis IG : forall s o v, ini_get i s o = Some v <-> has_option ls s o v.
Hypothesis IND : forall s o, sget i s = Some o -> NoDup (map fst o).

Lemma setting_spec : forall (A : Type) (parse : text -> res A) (means : text -> A -> Prop) s o d x,
  (forall t y, parse t = Ok y <-> means t y) ->
  match get i s o with Some t => parse t | None => Ok d end = Ok x <-> setting ls s o means d x.
Proof.
  intros A parse means s o d x E. unfold get, setting. destruct (ini_get i (lit s) (lit o)) as [t|] eqn:G.
  - apply IG in G as G'. rewrite E. split; [eauto|]. intros [(v & H & M)|(N & _)]; [|exfalso; eapply N; eauto].
    apply IG in H. congruence.
  - split.
    + intros [= <-]. right. split; [|reflexivity]. intros v H. apply IG in H. congruence.
    + intros [(v & H & M)|(_ & ->)]; [|reflexivity]. apply IG in H. congruence.
Qed.

(** The options of a section, in the order of the iteration. *)
Lemma section_list : forall s, exists l, (forall o v, has_option ls s o v <-> In (o, v) l) /\ NoDup (map fst l)
  /\ match sget i s with Some o => order o | None => [] end = l.
Proof.
  intros s. eexists. split; [|split; [|reflexivity]].
  - intros o v. rewrite <- IG. unfold ini_get. destruct (sget i s) as [m|] eqn:G.
    + rewrite (oget_in m o v (IND _ _ G)). split; apply Permutation_in; [apply order_perm|apply Permutation_sym, order_perm].
    + split; [discriminate|intros []].
  - destruct (sget i s) as [m|] eqn:G; [|constructor]. eapply Permutation_NoDup; [|apply (IND _ _ G)].
    apply Permutation_map. apply order_perm.
Qed.

Lemma get_keys_sound : forall m, get_keys order i = Ok m -> table ls "KEYS" key_text (fun id => nlookup id m).
Proof.
  intros m H. destruct (section_list (lit "KEYS")) as (l & HO & ND & E).
  assert (K : keys_loop l [] = Ok m).
  { unfold get_keys in H. destruct (sget i (lit "KEYS")); rewrite <- E; exact H. }
  apply keys_loop_spec in K; [|constructor]. destruct K as (es & F & E2 & NE). simpl in E2. subst es.
  eapply table_of_entries; eauto. exact key_text_fun.
Qed.
Lemma get_keys_complete : forall lookup, table ls "KEYS" key_text lookup -> exists m, get_keys order i = Ok m.
Proof.
  intros lookup T. destruct (section_list (lit "KEYS")) as (l & HO & ND & E).
  destruct (entries_of_table _ key_text key_text_fun ls "KEYS" l lookup HO ND T) as (es & F & NE & _).
  exists es. assert (K : keys_loop l [] = Ok es) by (apply keys_loop_spec; [constructor|]; exists es; auto).
  unfold get_keys. destruct (sget i (lit "KEYS")); rewrite <- E in K; exact K.
Qed.
Lemma ports_unique : forall m, NoDup (map fst m) -> NoDup (ports_of m) <->
  forall a b r r', nlookup a m = Some r -> nlookup b m = Some r' -> rs_port r = rs_port r' -> a = b.
Proof.
  intros m ND. split.
  - intros NP a b r r' H1 H2 E. apply nlookup_in in H1, H2; [|exact ND|exact ND].
    apply In_nth_error in H1, H2. destruct H1 as (n1 & H1). destruct H2 as (n2 & H2).
    assert (n1 = n2).
    { apply (proj1 (NoDup_nth_error (ports_of m)) NP).
      - apply nth_error_Some. unfold ports_of. rewrite (map_nth_error _ _ _ H1). discriminate.
      - unfold ports_of. rewrite (map_nth_error _ _ _ H1), (map_nth_error _ _ _ H2). simpl. congruence. }
    subst n2. congruence.
  - intros U.
    assert (U' : forall a b r r', In (a, r) m -> In (b, r') m -> rs_port r = rs_port r' -> a = b).
    { intros a b r r' I1 I2. apply U; apply nlookup_in; auto. }
    clear U. induction m as [|[a r] m IH]; simpl; [constructor|]. inversion ND as [|? ? NI ND']; subst.
    constructor; [|apply IH; auto; intros; eapply U'; eauto; right; auto].
    intros I. apply in_map_iff in I. destruct I as ([b r'] & E & I). simpl in E.
    apply NI. rewrite (U' a b r r'); [apply in_map_iff; exists (b, r'); auto|left; reflexivity|right; exact I|auto].
Qed.
Lemma get_resources_sound : forall m, get_resources order i = Ok m ->
  table ls "RESOURCES" resource_text (fun id => nlookup id m)
  /\ forall a b r r', nlookup a m = Some r -> nlookup b m = Some r' -> rs_port r = rs_port r' -> a = b.
Proof.
  intros m H. destruct (section_list (lit "RESOURCES")) as (l & HO & ND & E).
  assert (K : resources_loop l [] = Ok m).
  { unfold get_resources in H. destruct (sget i (lit "RESOURCES")); rewrite <- E; exact H. }
  apply resources_loop_spec in K; [|constructor|constructor]. destruct K as (es & F & E2 & NE & NP). simpl in E2. subst es.
  split; [eapply table_of_entries; eauto; exact resource_text_fun|]. apply ports_unique; auto.
Qed.
Lemma get_resources_complete : forall lookup, table ls "RESOURCES" resource_text lookup ->
  (forall a b r r', lookup a = Some r -> lookup b = Some r' -> rs_port r = rs_port r' -> a = b) ->
  exists m, get_resources order i = Ok m.
Proof.
  intros lookup T U. destruct (section_list (lit "RESOURCES")) as (l & HO & ND & E).
  destruct (entries_of_table _ resource_text resource_text_fun ls "RESOURCES" l lookup HO ND T) as (es & F & NE & EL).
  exists es. assert (K : resources_loop l [] = Ok es).
  { apply resources_loop_spec; [constructor|constructor|]. exists es. split; [exact F|]. split; [reflexivity|].
    split; [exact NE|]. apply ports_unique; [exact NE|]. intros a b r r'. rewrite !EL. apply U. }
  unfold get_resources. destruct (sget i (lit "RESOURCES")); rewrite <- E in K; exact K.
Qed.

Lemma family_spec : forall t x,
  (let s := trim t in if is_lit s "inet" || is_lit s "ip" || is_lit s "ip6" then Ok s
   else Err "[NFTABLES] family is invalid"%string) = Ok x <-> family_text t x.
Proof.
  intros t x. unfold family_text. rewrite padded_trim. cbn zeta. split.
  - destruct (_ || _)%bool eqn:E; [|discriminate]. intros [= <-]. split; [reflexivity|]. lits; auto.
  - intros (<- & O). assert (X : (is_lit (trim t) "inet" || is_lit (trim t) "ip" || is_lit (trim t) "ip6")%bool = true).
    { destruct O as [O|[O|O]]; apply is_lit_spec in O; rewrite O; rewrite ?orb_true_r; reflexivity. }
    rewrite X. reflexivity.
Qed.
Lemma plain_setting : forall s o d, setting ls s o padded d (match get i s o with Some t => trim t | None => d end).
Proof.
  intros s o d. apply (setting_spec _ (fun t => Ok (trim t))).
  - intros t y. rewrite padded_trim. split; [intros [= H]; exact H|intros ->; reflexivity].
  - destruct (get i s o); reflexivity.
Qed.

Lemma get_port_eq : get_port i = match get i "GENERAL" "port" with Some t => parse_port t | None => Ok (ControlPort 5800 true false) end.
Proof. reflexivity. Qed.

Lemma bind_ok : forall (A B : Type) (x : res A) (f : A -> res B) b, bind x f = Ok b -> exists a, x = Ok a /\ f a = Ok b.
Proof. intros A B [a| |] f b H; try discriminate. eauto. Qed.

Lemma load_sound : forall c c', load_ini float order c i = Ok c' ->
  configures dur ls c' /\ c_variant c' = c_variant c /\ c_path c' = c_path c.
Proof.
  intros c c' H. unfold load_ini in H.
  apply bind_ok in H. destruct H as (debug & H1 & H).
  apply bind_ok in H. destruct H as (port & H2 & H).
  apply bind_ok in H. destruct H as (tmo & H3 & H).
  apply bind_ok in H. destruct H as (pol & H4 & H).
  apply bind_ok in H. destruct H as (sec & H5 & H).
  apply bind_ok in H. destruct H as (keys & H6 & H).
  apply bind_ok in H. destruct H as (ress & H7 & H).
  apply (setting_spec _ _ _ "GENERAL" "debug" false debug parse_bool_spec) in H1.
  rewrite get_port_eq in H2. apply (setting_spec _ _ _ "GENERAL" "port" _ port parse_port_spec) in H2.
  apply (setting_spec _ _ _ "GENERAL" "control-timeout" _ tmo parse_duration_spec) in H3.
  apply (setting_spec _ _ _ "GENERAL" "control-error-policy" _ pol parse_policy_spec) in H4.
  apply (setting_spec _ _ _ "GENERAL" "seccomp" _ sec parse_seccomp_spec) in H5.
  apply get_keys_sound in H6. apply get_resources_sound in H7. destruct H7 as (H7 & H8).
  destruct (c_variant c) eqn:V. all: swap 1 2.
  - apply bind_ok in H. destruct H as (user & H9 & H). injection H as <-.
    apply (setting_spec _ _ _ "CLIENT" "default-user" _ user parse_id_spec) in H9.
    split; [|auto]. constructor; try assumption; try discriminate. intros _. exact H9.
  - apply bind_ok in H. destruct H as (fam & H9 & H).
    apply bind_ok in H. destruct H as (ntmo & H10 & H). injection H as <-.
    apply (setting_spec _ _ _ "NFTABLES" "family" _ fam family_spec) in H9.
    apply (setting_spec _ _ _ "NFTABLES" "timeout" _ ntmo parse_duration_spec) in H10.
    split; [|auto]. constructor; try assumption; try discriminate. intros _.
    split; [reflexivity|]. split; [apply plain_setting|]. split; [exact H9|].
    split; [apply plain_setting|]. split; [apply plain_setting|exact H10].
Qed.

Lemma load_complete : forall c c0, configures dur ls c0 -> c_variant c0 = c_variant c ->
  exists c', load_ini float order c i = Ok c'.
Proof.
  intros c c0 [F1 F2 F3 F4 F5 F6 F7 F8 F9 F10] V. unfold load_ini.
  apply (setting_spec _ _ _ "GENERAL" "debug" false _ parse_bool_spec) in F1.
  apply (setting_spec _ _ _ "GENERAL" "port" _ _ parse_port_spec) in F2. rewrite <- get_port_eq in F2.
  apply (setting_spec _ _ _ "GENERAL" "control-timeout" _ _ parse_duration_spec) in F3.
  apply (setting_spec _ _ _ "GENERAL" "control-error-policy" _ _ parse_policy_spec) in F4.
  apply (setting_spec _ _ _ "GENERAL" "seccomp" _ _ parse_seccomp_spec) in F5.
  apply get_keys_complete in F6. destruct F6 as (keys & F6).
  apply get_resources_complete in F7; [|exact F8]. destruct F7 as (ress & F7).
  change (get_debug i = Ok (c_debug c0)) in F1. change (get_control_timeout float i = Ok (c_control_timeout c0)) in F3.
  change (get_policy i = Ok (c_policy c0)) in F4. change (get_seccomp i = Ok (c_seccomp c0)) in F5.
  rewrite F1, F2, F3, F4, F5, F6, F7. cbn [bind]. rewrite <- V.
  destruct (c_variant c0). all: swap 1 2.
  - specialize (F9 eq_refl). apply (setting_spec _ _ _ "CLIENT" "default-user" _ _ parse_id_spec) in F9.
    change (get_default_user i = Ok (c_default_user c0)) in F9. rewrite F9. cbn [bind]. eauto.
  - destruct (F10 eq_refl) as (_ & _ & G2 & _ & _ & G5).
    apply (setting_spec _ _ _ "NFTABLES" "family" _ _ family_spec) in G2.
    apply (setting_spec _ _ _ "NFTABLES" "timeout" _ _ parse_duration_spec) in G5.
    change (get_nft_family i = Ok (c_nft_family c0)) in G2. change (get_nft_timeout float i = Ok (c_nft_timeout c0)) in G5.
    rewrite G2, G5. cbn [bind]. eauto.
Qed.

Lemma load_ini_no_panic : forall c, load_ini float order c i <> Panic.
Proof.
  intros c. unfold load_ini.
  assert (S : forall (A : Type) (p : text -> res A) s o d, (forall t, p t <> Panic) ->
            match get i s o with Some t => p t | None => Ok d end <> Panic).
  { intros A p s o d P. destruct (get i s o); [apply P|discriminate]. }
  assert (B : forall (A B : Type) (x : res A) (f : A -> res B), x <> Panic -> (forall a, f a <> Panic) -> bind x f <> Panic).
  { intros A B [a| |] f H1 H2; simpl; [apply H2|discriminate|congruence]. }
  apply B; [apply (S _ parse_bool), parse_bool_no_panic|intros debug].
  apply B; [rewrite get_port_eq; apply (S _ parse_port), parse_port_no_panic|intros port].
  apply B; [apply (S _ (parse_duration float)), parse_duration_no_panic|intros tmo].
  apply B; [apply (S _ parse_policy), parse_policy_no_panic|intros pol].
  apply B; [apply (S _ parse_seccomp), parse_seccomp_no_panic|intros sec].
  apply B; [unfold get_keys; destruct (sget _ _); [apply keys_loop_no_panic|discriminate]|intros keys].
  apply B; [unfold get_resources; destruct (sget _ _); [apply resources_loop_no_panic|discriminate]|intros ress].
  destruct (c_variant c). all: swap 1 2.
  - apply B; [apply (S _ parse_id), parse_id_no_panic|discriminate].
  - apply B; [|intros fam; apply B; [apply (S _ (parse_duration float)), parse_duration_no_panic|discriminate]].
    unfold get_nft_family. destruct (get _ _ _); [|discriminate]. cbn zeta. destruct (_ || _)%bool; discriminate.
Qed.

End Whole.

(** At most one meaning. *)
Lemma setting_fun : forall (A : Type) ls s o (means : text -> A -> Prop) d x y,
  (forall t a b, means t a -> means t b -> a = b) ->
  (forall v w, has_option ls (lit s) (lit o) v -> has_option ls (lit s) (lit o) w -> v = w) ->
  setting ls s o means d x -> setting ls s o means d y -> x = y.
Proof.
  intros A ls s o means d x y M O [(v & H1 & M1)|(N1 & ->)] [(w & H2 & M2)|(N2 & ->)]; auto.
  - rewrite (O _ _ H1 H2) in M1. eauto.
  - exfalso. eapply N2; eauto.
  - exfalso. eapply N1; eauto.
Qed.
Lemma table_fun : forall (A : Type) ls s (means : text -> A -> Prop) f g,
  table ls s means f -> table ls s means g -> forall id, f id = g id.
Proof.
  intros A ls s means f g (_ & _ & F) (_ & _ & G) id. destruct (f id) as [x|] eqn:E.
  - symmetry. apply G, F, E.
  - destruct (g id) as [y|] eqn:E2; [|reflexivity]. apply G, F in E2. congruence.
Qed.

Lemma has_option_fun : forall ls, well_formed ls -> forall s o v w, has_option ls s o v -> has_option ls s o w -> v = w.
Proof.
  intros ls W s o v w H1 H2. destruct (steps_spec ls) as [(e & _ & NW)|(i & cur & _ & _ & I)]; [contradiction|].
  destruct (proj2 (ii_sections _ _ _ I s) (has_header _ _ _ _ H1)) as (m & G).
  apply (ii_options _ _ _ I _ _ _ _ G) in H1, H2. congruence.
Qed.

Lemma configures_fun : forall float ls a b, well_formed ls ->
  configures (duration_text float) ls a -> configures (duration_text float) ls b -> c_variant a = c_variant b ->
  same_config a b.
Proof.
  intros float ls a b W A B V.
  assert (O : forall s o v w, has_option ls s o v -> has_option ls s o w -> v = w) by (apply has_option_fun; exact W).
  assert (SF : forall (T : Type) (p : text -> res T) (means : text -> T -> Prop) s o d x y,
            (forall t z, p t = Ok z <-> means t z) -> setting ls s o means d x -> setting ls s o means d y -> x = y).
  { intros T p means s o d x y E S1 S2. eapply setting_fun; eauto. intros t u v M1 M2. apply E in M1, M2. congruence. }
  assert (PF : forall s o d x y, setting ls s o padded d x -> setting ls s o padded d y -> x = y).
  { intros s o d x y S1 S2. eapply setting_fun; [exact padded_fun| |exact S1|exact S2]. intros; eapply O; eauto. }
  destruct A as [A1 A2 A3 A4 A5 A6 A7 A8 A9 A10]. destruct B as [B1 B2 B3 B4 B5 B6 B7 B8 B9 B10].
  unfold same_config. split; [exact V|].
  split; [eapply SF; [exact parse_bool_spec|eauto|eauto]|].
  split; [eapply SF; [exact parse_port_spec|eauto|eauto]|].
  split; [eapply SF; [exact (parse_duration_spec float)|eauto|eauto]|].
  split; [eapply SF; [exact parse_policy_spec|eauto|eauto]|].
  split; [eapply SF; [exact parse_seccomp_spec|eauto|eauto]|].
  split; [eapply table_fun; eauto|]. split; [eapply table_fun; eauto|].
  destruct (c_variant a) eqn:VA. all: swap 1 2.
  - split; [eapply SF; [exact parse_id_spec|apply A9; auto|apply B9; auto]|]. discriminate.
  - destruct (A10 eq_refl) as (C1 & C2 & C3 & C4 & C5 & C6). destruct (B10 (eq_sym V)) as (D1 & D2 & D3 & D4 & D5 & D6).
    split; [congruence|]. intros _.
    split; [eapply PF; eauto|]. split; [eapply SF; [exact family_spec|eauto|eauto]|].
    split; [eapply PF; eauto|]. split; [eapply PF; eauto|].
    eapply SF; [exact (parse_duration_spec float)|eauto|eauto].
Qed.
