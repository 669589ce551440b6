(** What is said about a rejected configuration file does not depend on the
    keys in it. *)

From Coq Require Import String ZArith NArith List Bool Lia ZifyBool ZifyNat ZifyN Permutation.
From Verif Require Import M_Base M_IpAddr M_ConfTypes M_Text M_Str M_Utf8 M_Conf M_Report S_Wire S_Text S_Conf S_Report
  P_Base P_Text P_Str P_Ini P_Conf P_Load P_Utf8 P_Gen P_ConfLoad.
Import ListNotations.
Local Open Scope N_scope.

(** *** One key *)

(** Two texts of a key that get the same treatment. *)
Definition alike (t1 t2 : text) : Prop :=
  t1 = t2 \/ exists f, key_flaw_of t1 f /\ key_flaw_of t2 f.

Lemma ascii_spec : forall t, ascii t <-> is_ascii t = true.
Proof.
  intros t. unfold ascii, is_ascii. rewrite forallb_forall. split; intros H c I; specialize (H c I); lia.
Qed.
Lemma ascii_false : forall t, ~ ascii t -> is_ascii t = false.
Proof. intros t H. destruct (is_ascii t) eqn:E; [|reflexivity]. exfalso. apply H. apply ascii_spec. exact E. Qed.

Lemma hexdigit_err : forall c e, parse_hexdigit [c] = Err e -> e = "invalid digit"%string.
Proof.
  intros c e. unfold parse_hexdigit. cbn [length Nat.eqb negb from_str_radix].
  destruct (to_digit 16 c) as [d|] eqn:E; [|intros [= <-]; reflexivity].
  destruct (d <? 256) eqn:L; [discriminate|]. intros _. exfalso.
  unfold to_digit in E. cbv zeta in E.
  destruct ((48 <=? c) && (c <=? 57)); [|destruct ((97 <=? c) && (c <=? 122)); [|destruct ((65 <=? c) && (c <=? 90))]];
    try discriminate;
    match type of E with (if ?x <? 16 then _ else _) = _ => destruct (x <? 16) eqn:X end; try discriminate;
    injection E as <-; lia.
Qed.
Lemma hex_loop_err : forall n s e, length s = (n * 2)%nat -> hex_loop n s = Err e -> e = "invalid digit"%string.
Proof.
  induction n as [|n IH]; intros s e L; [discriminate|].
  destruct s as [|a [|b s]]; try discriminate. injection L as L. cbn [hex_loop].
  rewrite slice_0, slice_1. cbn [bind]. change (skipn 2 (a :: b :: s)) with s.
  destruct (parse_hexdigit [a]) eqn:EA; cbn [bind]; try discriminate;
    [|intros [= <-]; eapply hexdigit_err; exact EA].
  destruct (parse_hexdigit [b]) eqn:EB; cbn [bind]; try discriminate;
    [|intros [= <-]; eapply hexdigit_err; exact EB].
  destruct (hex_loop n s) eqn:ER; cbn [bind]; try discriminate. intros [= <-]. eapply IH; eauto.
Qed.

Lemma hex_bytes_fun : forall s k l, hex_bytes s k -> hex_bytes s l -> k = l.
Proof.
  intros s k l K L. pose proof (hex_bytes_length _ _ K) as N.
  pose proof (proj2 (hex_loop_spec _ s k N) K). pose proof (proj2 (hex_loop_spec _ s l N) L). congruence.
Qed.

Definition key_class (k : list byte) : bool * bool :=
  (list_eqb k (repeat 0 32), list_eqb k (repeat 255 32)).

Lemma not_key : forall t, (forall k, parse_hex 32 t <> Ok k) -> exists e, parse_hex 32 t = Err e.
Proof.
  intros t H. destruct (parse_hex 32 t) as [k|e|] eqn:E; [exfalso; apply (H k); reflexivity|eauto|].
  exfalso. eapply parse_hex_no_panic. exact E.
Qed.

(** What a flaw means for the parser. *)
Definition flaw_says (f : key_flaw) : report :=
  match f with
  | FlawNotAscii => Some [lit "Hex string contains invalid characters."]
  | FlawLength n =>
      Some [lit "Hex string is too short: Expected 64, got " ++ fmt_dec (N.of_nat n) ++ lit " chars"]
  | FlawDigit => Some [lit "invalid digit found in string"]
  | _ => None
  end.
Definition flaw_class (f : key_flaw) : bool * bool :=
  match f with FlawZeros => (true, false) | FlawOnes => (false, true) | _ => (false, false) end.

Lemma flaw_parse : forall t f, key_flaw_of t f ->
  (exists k, parse_hex 32 t = Ok k /\ key_class k = flaw_class f /\ (f = FlawNone \/ f = FlawZeros \/ f = FlawOnes))
  \/ (exists e, parse_hex 32 t = Err e /\ rep_hex t = flaw_says f /\ f <> FlawNone /\ f <> FlawZeros /\ f <> FlawOnes).
Proof.
  intros t f H. destruct f; cbn [key_flaw_of] in H.
  - destruct H as (k & body & P & HB & L & NZ & NO). left. exists k. split; [|split; [|auto]].
    + apply parse_hex_spec. exists body. auto.
    + unfold key_class. cbn [flaw_class]. f_equal.
      * destruct (list_eqb k (repeat 0 32)) eqn:E; [|reflexivity]. apply list_eqb_spec in E. contradiction.
      * destruct (list_eqb k (repeat 255 32)) eqn:E; [|reflexivity]. apply list_eqb_spec in E. contradiction.
  - destruct H as (body & P & HB). left. exists (repeat 0 32). split; [|split; [reflexivity|auto]].
    apply parse_hex_spec. exists body. auto.
  - destruct H as (body & P & HB). left. exists (repeat 255 32). split; [|split; [reflexivity|auto]].
    apply parse_hex_spec. exists body. auto.
  - destruct H as (body & P & NA). right. apply padded_trim in P. subst body. apply ascii_false in NA.
    unfold parse_hex, rep_hex. rewrite NA. eexists. split; [reflexivity|]. split; [reflexivity|]. repeat split; discriminate.
  - destruct H as (body & P & A & L & N). right. apply padded_trim in P. subst body. apply ascii_spec in A.
    unfold parse_hex, rep_hex. rewrite A. cbn [negb]. subst n.
    rewrite (proj2 (Nat.eqb_neq (length (trim t)) (32 * 2)) N).
    rewrite (proj2 (Nat.eqb_neq (length (trim t)) 64) N). cbn [negb].
    eexists. split; [reflexivity|]. split; [reflexivity|]. repeat split; discriminate.
  - destruct H as (body & P & A & L & N). right. apply padded_trim in P. subst body. apply ascii_spec in A.
    unfold parse_hex, rep_hex. rewrite A, L. cbn [negb Nat.eqb Nat.mul Nat.add].
    pose proof (hex_loop_no_panic 32 (trim t) L) as NP. pose proof (hex_loop_spec 32 (trim t)) as HS.
    pose proof (hex_loop_err 32 (trim t)) as HE.
    destruct (hex_loop 32 (trim t)) as [k|e|]; [|clear NP|contradiction].
    + exfalso. apply (N k). apply HS; auto.
    + rewrite (HE e L eq_refl) in *. eexists. split; [reflexivity|]. split; [reflexivity|]. repeat split; discriminate.
Qed.

Lemma alike_parse : forall t1 t2, alike t1 t2 ->
  (exists k1 k2, parse_hex 32 t1 = Ok k1 /\ parse_hex 32 t2 = Ok k2 /\ key_class k1 = key_class k2)
  \/ (exists e1 e2, parse_hex 32 t1 = Err e1 /\ parse_hex 32 t2 = Err e2 /\ rep_hex t1 = rep_hex t2).
Proof.
  intros t1 t2 [->|(f & F1 & F2)].
  - destruct (parse_hex 32 t2) as [k|e|] eqn:E; [left; eauto|right; eauto|].
    exfalso. eapply parse_hex_no_panic. exact E.
  - destruct (flaw_parse _ _ F1) as [(k1 & P1 & C1 & X1)|(e1 & P1 & R1 & X1 & Y1 & Z1)];
      destruct (flaw_parse _ _ F2) as [(k2 & P2 & C2 & X2)|(e2 & P2 & R2 & X2 & Y2 & Z2)].
    + left. exists k1, k2. split; [exact P1|]. split; [exact P2|]. congruence.
    + exfalso. intuition congruence.
    + exfalso. intuition congruence.
    + right. exists e1, e2. split; [exact P1|]. split; [exact P2|]. congruence.
Qed.

(** *** All keys *)

(** Two maps with the same names and values that are alike. *)
Definition orel : omap -> omap -> Prop := Forall2 (fun a b => fst a = fst b /\ alike (snd a) (snd b)).

Lemma orel_names : forall m1 m2, orel m1 m2 -> map fst m1 = map fst m2.
Proof. intros m1 m2 H. induction H as [|a b m1 m2 (E & _) _ IH]; simpl; congruence. Qed.
Lemma orel_refl : forall m, orel m m.
Proof. induction m; constructor; auto. split; [reflexivity|left; reflexivity]. Qed.
Lemma orel_set : forall m1 m2 k v1 v2, orel m1 m2 -> alike v1 v2 -> orel (oset m1 k v1) (oset m2 k v2).
Proof.
  intros m1 m2 k v1 v2 H A. induction H as [|[a x] [b y] m1 m2 (E & V) H IH]; simpl.
  - constructor; [split; auto|constructor].
  - simpl in E. subst b. destruct (list_eqb a k); constructor; auto; split; auto.
Qed.

Lemma nlookup_names : forall (A B : Type) (m1 : nmap A) (m2 : nmap B) k, map fst m1 = map fst m2 ->
  (nlookup k m1 = None <-> nlookup k m2 = None).
Proof.
  intros A B. induction m1 as [|[a x] m1 IH]; intros [|[b y] m2] k E; try discriminate; simpl; [split; reflexivity|].
  simpl in E. injection E as -> E. destruct (k =? b); [split; discriminate|]. apply IH. exact E.
Qed.

Lemma rep_keys_alike : forall l1 l2, orel l1 l2 -> forall k1 k2, map fst k1 = map fst k2 ->
  rep_keys l1 k1 = rep_keys l2 k2.
Proof.
  intros l1 l2 H. induction H as [|[a x] [b y] l1 l2 (E & V) H IH]; intros k1 k2 K; cbn [rep_keys]; [reflexivity|].
  cbn [fst snd] in E, V. subst b. destruct (parse_id a) as [id|e|]; [|reflexivity..].
  destruct (alike_parse _ _ V) as [(q1 & q2 & P1 & P2 & C)|(e1 & e2 & P1 & P2 & R)]; rewrite P1, P2.
  - assert (C1 : list_eqb q1 (repeat 0 32) = list_eqb q2 (repeat 0 32)) by exact (f_equal fst C).
    assert (C2 : list_eqb q1 (repeat 255 32) = list_eqb q2 (repeat 255 32)) by exact (f_equal snd C).
    rewrite C1, C2.
    destruct (list_eqb q2 (repeat 0 32)); [reflexivity|]. destruct (list_eqb q2 (repeat 255 32)); [reflexivity|].
    pose proof (nlookup_names _ _ k1 k2 id K) as NL.
    destruct (nlookup id k1), (nlookup id k2); try reflexivity.
    + exfalso. destruct NL as (_ & NL). discriminate (NL eq_refl).
    + exfalso. destruct NL as (NL & _). discriminate (NL eq_refl).
    + apply IH. rewrite !map_app. simpl. congruence.
  - rewrite R. reflexivity.
Qed.

(** The order of iteration. *)
Lemma orel_oget : forall m1 m2 n v1 v2, orel m1 m2 -> oget m1 n = Some v1 -> oget m2 n = Some v2 -> alike v1 v2.
Proof.
  intros m1 m2 n v1 v2 H. induction H as [|[a x] [b y] m1 m2 (E & V) H IH]; simpl; [discriminate|].
  simpl in E. subst b. destruct (list_eqb a n); [|exact IH]. intros [= <-] [= <-]. exact V.
Qed.
Lemma orel_any : forall (R1 R2 l1 l2 : omap), orel R1 R2 -> map fst l1 = map fst l2 ->
  (forall x, In x l1 -> oget R1 (fst x) = Some (snd x)) -> (forall x, In x l2 -> oget R2 (fst x) = Some (snd x)) ->
  orel l1 l2.
Proof.
  intros R1 R2. induction l1 as [|[a x] l1 IH]; intros [|[b y] l2] H E I1 I2; try discriminate; [constructor|].
  simpl in E. injection E as -> E. constructor.
  - simpl. split; [reflexivity|]. eapply orel_oget; [exact H| |].
    + exact (I1 (b, x) (or_introl eq_refl)).
    + exact (I2 (b, y) (or_introl eq_refl)).
  - apply IH; auto; intros z Z; [apply I1|apply I2]; right; exact Z.
Qed.
Lemma orel_order : forall order m1 m2, (forall m : omap, Permutation m (order m)) -> order_by_names order ->
  NoDup (map fst m1) -> orel m1 m2 -> orel (order m1) (order m2).
Proof.
  intros order m1 m2 P BN ND H. pose proof (orel_names _ _ H) as E.
  apply (orel_any m1 m2); auto.
  - intros x I. apply oget_in; [exact ND|]. destruct x. apply (Permutation_in _ (Permutation_sym (P m1))). exact I.
  - intros x I. apply oget_in; [rewrite <- E; exact ND|]. destruct x.
    apply (Permutation_in _ (Permutation_sym (P m2))). exact I.
Qed.

(** *** The ini file *)

Definition KEYS : text := lit "KEYS".
Record irel (i1 i2 : ini) : Prop := {
  ir_other : forall s, s <> KEYS -> sget i1 s = sget i2 s;
  ir_keys : match sget i1 KEYS, sget i2 KEYS with
            | Some o1, Some o2 => orel o1 o2
            | None, None => True
            | _, _ => False
            end
}.

Lemma irel_refl : forall i, irel i i.
Proof. intros i. constructor; [reflexivity|]. destruct (sget i KEYS); [apply orel_refl|exact I]. Qed.

Lemma irel_sget : forall i1 i2 s, irel i1 i2 ->
  match sget i1 s, sget i2 s with
  | Some o1, Some o2 => orel o1 o2
  | None, None => True
  | _, _ => False
  end.
Proof.
  intros i1 i2 s [O K]. destruct (list_eqb s KEYS) eqn:E.
  - apply list_eqb_spec in E. subst s. exact K.
  - rewrite <- O; [destruct (sget i1 s); [apply orel_refl|exact I]|]. intros ->. rewrite list_eqb_refl in E. discriminate.
Qed.
Lemma irel_set : forall i1 i2 s o1 o2, irel i1 i2 -> orel o1 o2 -> (s <> KEYS -> o1 = o2) ->
  irel (sset i1 s o1) (sset i2 s o2).
Proof.
  intros i1 i2 s o1 o2 [O K] R E. constructor.
  - intros s' N. rewrite !sget_set. destruct (list_eqb s s') eqn:X; [|auto].
    apply list_eqb_spec in X. subst s'. f_equal. auto.
  - rewrite !sget_set. destruct (list_eqb s KEYS); [exact R|exact K].
Qed.

Definition not_ok {A : Type} (r : res A) : Prop := match r with Ok _ => False | _ => True end.

Lemma line_irel : forall i1 i2 cur l, irel i1 i2 ->
  (exists j1 j2 c, parse_line i1 cur l = Ok (j1, c) /\ parse_line i2 cur l = Ok (j2, c) /\ irel j1 j2)
  \/ (not_ok (parse_line i1 cur l) /\ not_ok (parse_line i2 cur l)).
Proof.
  intros i1 i2 cur l R. pose proof (parse_line_class i1 cur l) as P1. pose proof (parse_line_class i2 cur l) as P2.
  destruct (classify l) as [|n|n v|].
  - left. eauto 7.
  - destruct n as [|c n].
    { destruct P1 as (e1 & ->), P2 as (e2 & ->). right. split; exact I. }
    pose proof (irel_sget i1 i2 (c :: n) R) as S.
    destruct (sget i1 (c :: n)), (sget i2 (c :: n)); try contradiction.
    + destruct P1 as (e1 & ->), P2 as (e2 & ->). right. split; exact I.
    + left. eexists _, _, _. split; [exact P1|]. split; [exact P2|]. apply irel_set; [exact R|constructor|reflexivity].
  - destruct cur as [s|].
    2:{ destruct P1 as (e1 & ->), P2 as (e2 & ->). right. split; exact I. }
    pose proof (irel_sget i1 i2 s R) as S. destruct R as [O K].
    destruct (sget i1 s) as [o1|] eqn:G1, (sget i2 s) as [o2|] eqn:G2; try contradiction.
    + left. eexists _, _, _. split; [exact P1|]. split; [exact P2|]. apply irel_set; [constructor; assumption| |].
      * apply orel_set; [exact S|left; reflexivity].
      * intros N. rewrite O, G2 in G1 by exact N. injection G1 as <-. reflexivity.
    + right. rewrite P1, P2. split; exact I.
  - destruct P1 as (e1 & ->), P2 as (e2 & ->). right. split; exact I.
Qed.

Lemma steps_irel : forall ls i1 i2 cur, irel i1 i2 ->
  (exists j1 j2 c, steps i1 cur ls = Ok (j1, c) /\ steps i2 cur ls = Ok (j2, c) /\ irel j1 j2)
  \/ (not_ok (steps i1 cur ls) /\ not_ok (steps i2 cur ls)).
Proof.
  induction ls as [|l ls IH]; intros i1 i2 cur R; simpl.
  - left. eauto 7.
  - destruct (line_irel i1 i2 cur l R) as [(j1 & j2 & c & -> & -> & R')|(N1 & N2)]; simpl.
    + apply IH. exact R'.
    + right. destruct (parse_line i1 cur l), (parse_line i2 cur l); try contradiction; split; exact I.
Qed.

(** The line of the key. *)
Lemma key_line_irel : forall i cur l1 l2 n t1 t2, cur = Some KEYS -> option_line l1 n t1 -> option_line l2 n t2 ->
  alike t1 t2 ->
  (exists j1 j2 c, parse_line i cur l1 = Ok (j1, c) /\ parse_line i cur l2 = Ok (j2, c) /\ irel j1 j2)
  \/ (not_ok (parse_line i cur l1) /\ not_ok (parse_line i cur l2)).
Proof.
  intros i cur l1 l2 n t1 t2 -> O1 O2 A.
  pose proof (parse_line_class i (Some KEYS) l1) as P1. pose proof (parse_line_class i (Some KEYS) l2) as P2.
  apply class_opt in O1, O2. rewrite O1 in P1. rewrite O2 in P2.
  destruct (sget i KEYS) as [o|].
  - left. eexists _, _, _. split; [exact P1|]. split; [exact P2|]. apply irel_set.
    + apply irel_refl.
    + apply orel_set; [apply orel_refl|exact A].
    + intros N. contradiction.
  - right. rewrite P1, P2. split; exact I.
Qed.

Lemma file_irel : forall pre l1 l2 post n t1 t2, in_section pre KEYS -> option_line l1 n t1 -> option_line l2 n t2 ->
  alike t1 t2 ->
  (exists j1 j2 c, steps [] None (pre ++ l1 :: post) = Ok (j1, c) /\ steps [] None (pre ++ l2 :: post) = Ok (j2, c)
     /\ irel j1 j2)
  \/ (not_ok (steps [] None (pre ++ l1 :: post)) /\ not_ok (steps [] None (pre ++ l2 :: post))).
Proof.
  intros pre l1 l2 post n t1 t2 IS O1 O2 A. rewrite !steps_app.
  destruct (steps_spec pre) as [(e & -> & _)|(s & cur & -> & _ & IV)]; [right; split; exact I|].
  cbn [bind fst snd steps].
  assert (cur = Some KEYS).
  { destruct IV as [_ _ _ IC]. destruct cur as [c|].
    - f_equal. symmetry. eapply cur_fun; [exact IS|exact IC].
    - exfalso. destruct IS as (a & h & mid & -> & H & _). eapply IC; [apply in_or_app; right; left; reflexivity|exact H]. }
  destruct (key_line_irel s cur l1 l2 n t1 t2 H O1 O2 A) as [(j1 & j2 & c & -> & -> & R)|(N1 & N2)].
  - cbn [bind fst snd]. apply steps_irel. exact R.
  - right. destruct (parse_line s cur l1), (parse_line s cur l2); try contradiction; split; exact I.
Qed.

(** *** The report *)

Section Report.
Variable lower : text -> text.
Variable res_order : nmap resource -> nmap resource.
Variable float : text -> option N.
Variable order : omap -> omap.
Variable show_path : text -> text.

Lemma report_irel : forall v i1 i2, (forall m, Permutation m (order m)) -> order_by_names order ->
  (forall s o, sget i1 s = Some o -> NoDup (map fst o)) -> irel i1 i2 ->
  rep_load_ini lower res_order float order v i1 = rep_load_ini lower res_order float order v i2.
Proof.
  intros v i1 i2 P BN ND R. pose proof R as [O K].
  assert (G : forall s o, lit s <> KEYS -> get i1 s o = get i2 s o).
  { intros s o N. unfold get, ini_get. rewrite O by exact N. reflexivity. }
  unfold rep_load_ini, get_debug, rep_port, get_control_timeout, rep_policy, rep_seccomp, get_default_user, rep_family,
    get_nft_family, get_nft_timeout.
  rewrite !(G "GENERAL"%string), !(G "CLIENT"%string), !(G "NFTABLES"%string) by discriminate.
  rewrite (O (lit "RESOURCES")) by discriminate. fold KEYS.
  assert (KE : match sget i1 KEYS with Some o => rep_keys (order o) [] | None => None end
               = match sget i2 KEYS with Some o => rep_keys (order o) [] | None => None end).
  { destruct (sget i1 KEYS) as [o1|] eqn:G1, (sget i2 KEYS) as [o2|]; try contradiction; [|reflexivity].
    apply rep_keys_alike; [|reflexivity]. apply orel_order; auto. eapply ND. exact G1. }
  rewrite KE. reflexivity.
Qed.

Lemma file_steps : forall f ls, file_lines f ls ->
  ini_from_file f = bind (steps [] None ls) (fun x => Ok (fst x)).
Proof.
  intros f ls (bytes & t & -> & U & L). unfold ini_from_file. apply from_utf8_spec in U. rewrite U.
  unfold parse_str. rewrite (lines_of_fun _ _ (lines_spec t) _ L). apply parse_lines_steps.
Qed.

Lemma report_alike : forall v path f1 f2 pre l1 l2 post n t1 t2,
  (forall m, Permutation m (order m)) -> order_by_names order ->
  file_lines f1 (pre ++ l1 :: post) -> file_lines f2 (pre ++ l2 :: post) -> in_section pre KEYS ->
  option_line l1 n t1 -> option_line l2 n t2 -> alike t1 t2 ->
  rep_load lower res_order float order show_path v path f1 = rep_load lower res_order float order show_path v path f2.
Proof.
  intros v path f1 f2 pre l1 l2 post n t1 t2 P BN F1 F2 IS O1 O2 A. unfold rep_load.
  pose proof (ini_file f1) as I1. pose proof (ini_file f2) as I2.
  rewrite (file_steps _ _ F1) in *. rewrite (file_steps _ _ F2) in *.
  destruct (file_irel pre l1 l2 post n t1 t2 IS O1 O2 A) as [(j1 & j2 & c & E1 & E2 & R)|(N1 & N2)].
  - rewrite E1, E2 in *. cbn [bind fst] in *. apply report_irel; auto.
    destruct I1 as [(ls & i & _ & _ & [= <-] & _ & ND)|(_ & e & X)]; [exact ND|discriminate].
  - destruct (steps [] None (pre ++ l1 :: post)), (steps [] None (pre ++ l2 :: post)); try contradiction; cbn [bind] in *.
    + reflexivity.
    + exfalso. destruct I2 as [(ls & i & _ & _ & X & _)|(_ & e0 & X)]; discriminate.
    + exfalso. destruct I1 as [(ls & i & _ & _ & X & _)|(_ & e0 & X)]; discriminate.
    + reflexivity.
Qed.

Lemma report_malformed : forall path f, (forall ls, file_lines f ls -> ~ well_formed ls) ->
  rep_load lower res_order float order show_path VarServer path f
  = Some [lit "Failed to load configuration " ++ show_path path]
  /\ rep_load lower res_order float order show_path VarClient path f = None.
Proof.
  intros path f H. unfold rep_load. destruct (ini_file f) as [(ls & i & FL & W & _)|(_ & e & ->)].
  - exfalso. exact (H _ FL W).
  - auto.
Qed.

(** *** The texts go with the errors of M_Conf.v *)

Definition fits {A : Type} (rep : report) (r : res A) : Prop :=
  match r with Ok _ => rep = None | Err _ => exists c t, rep = Some (c :: t) | Panic => rep = None end.

Lemma fits_int : forall A (r : res A), fits (rep_int r) r.
Proof. intros A [x|e|]; simpl; eauto. Qed.
Lemma fits_text : forall A (r : res A), fits (rep_text r) r.
Proof. intros A [x|e|]; simpl; eauto. Qed.
Lemma fits_context : forall A c rep (r : res A), fits rep r -> fits (context c rep) r.
Proof. intros A c rep [x|e|]; simpl; [intros ->; reflexivity| |intros ->; reflexivity]. intros (a & b & ->). simpl. eauto. Qed.
(** Steps in sequence. *)
Lemma fits_bind : forall A B (x : res A) (k : A -> res B) a b, x <> Panic -> fits a x ->
  (forall y, x = Ok y -> fits b (k y)) -> fits (first a b) (bind x k).
Proof.
  intros A B [y|e|] k a b NP F G; simpl in *; [|destruct F as (c & t & ->); simpl; eauto|contradiction].
  subst a. simpl. apply G. reflexivity.
Qed.

Lemma fits_hex : forall t, fits (rep_hex t) (parse_hex 32 t).
Proof.
  intros t. unfold rep_hex, parse_hex. destruct (negb (is_ascii (trim t))); [simpl; eauto|].
  change (32 * 2)%nat with 64%nat. destruct (negb (Nat.eqb (length (trim t)) 64)); [simpl; eauto|]. apply fits_int.
Qed.
Lemma fits_keys : forall l keys, fits (rep_keys l keys) (keys_loop l keys).
Proof.
  induction l as [|[a x] l IH]; intros keys; simpl; [reflexivity|].
  destruct (parse_id a) as [id|e|]; simpl; [|eauto|reflexivity].
  pose proof (fits_hex x) as FH. destruct (parse_hex 32 x) as [key|e|]; simpl in *.
  - destruct (list_eqb key _); [simpl; eauto|]. destruct (list_eqb key _); [simpl; eauto|].
    destruct (nlookup id keys); [simpl; eauto|]. apply IH.
  - destruct FH as (c & t & ->). simpl. eauto.
  - rewrite FH. reflexivity.
Qed.

Lemma fits_words : forall says vs tcp udp, fits (rep_words lower says vs) (transport_words vs tcp udp).
Proof.
  intros says. induction vs as [|v vs IH]; intros tcp udp; simpl; [reflexivity|].
  destruct (is_lit (to_lowercase v) "tcp"); simpl; [apply IH|].
  destruct (is_lit (to_lowercase v) "udp"); simpl; [apply IH|]. eauto.
Qed.

Lemma fits_port_items : forall l cp, fits (rep_port_items lower l) (port_items l cp).
Proof.
  induction l as [|[k v|k vs|vs] l IH]; intros cp; simpl; [reflexivity|eauto|eauto|].
  apply fits_bind.
  - destruct (Nat.eqb (length vs) 1 && is_number (hd [] vs)).
    + pose proof (parse_uint_no_panic U16_BOUND (hd [] vs)) as NP. unfold parse_u16.
      destruct (parse_uint U16_BOUND (hd [] vs)); simpl; [discriminate..|contradiction].
    + pose proof (transport_words_no_panic vs (cp_tcp cp) (cp_udp cp)) as NP.
      destruct (transport_words vs (cp_tcp cp) (cp_udp cp)); simpl; [discriminate..|contradiction].
  - destruct (Nat.eqb (length vs) 1 && is_number (hd [] vs)).
    + pose proof (fits_int _ (parse_u16 (hd [] vs))) as F. destruct (parse_u16 (hd [] vs)); simpl in *; auto.
    + pose proof (fits_words (lit "[GENERAL] port: Unknown option: ") vs (cp_tcp cp) (cp_udp cp)) as F.
      destruct (transport_words vs (cp_tcp cp) (cp_udp cp)); simpl in *; auto.
  - intros y _. apply IH.
Qed.
Lemma fits_port : forall i, fits (rep_port lower i) (get_port i).
Proof.
  intros i. unfold rep_port, get_port. destruct (get i "GENERAL" "port") as [t|]; [|reflexivity].
  pose proof (parse_map_no_panic t) as NP. destruct (parse_map t) as [m|e|]; simpl; [|eauto|contradiction].
  pose proof (fits_port_items m (ControlPort PORT false false)) as F.
  destruct (port_items m (ControlPort PORT false false)); simpl in *; auto.
Qed.
Lemma fits_policy : forall i, fits (rep_policy lower i) (get_policy i).
Proof.
  intros i. unfold rep_policy, get_policy. destruct (get i "GENERAL" "control-error-policy") as [t|]; [|reflexivity].
  destruct (parse_policy t); simpl; eauto.
Qed.
Lemma fits_seccomp : forall i, fits (rep_seccomp lower i) (get_seccomp i).
Proof.
  intros i. unfold rep_seccomp, get_seccomp. destruct (get i "GENERAL" "seccomp") as [t|]; [|reflexivity].
  destruct (parse_seccomp t); simpl; eauto.
Qed.

Lemma fits_resource_items : forall l acc, fits (rep_resource_items lower l acc) (resource_items l acc).
Proof.
  induction l as [|it l IH]; intros [[[port users] tcp] udp]; simpl; [reflexivity|].
  destruct it as [k v|k vs|vs].
  - destruct (is_lit k "port").
    + destruct port; [simpl; eauto|]. pose proof (fits_int _ (parse_u16 v)) as F. pose proof (parse_uint_no_panic U16_BOUND v) as NP.
      unfold parse_u16 in *. destruct (parse_uint U16_BOUND v); simpl in *; [apply IH|eauto|contradiction].
    + destruct (is_lit k "users"); [|simpl; eauto]. destruct users; [apply IH|simpl; eauto].
  - destruct (is_lit k "port"); [simpl; eauto|]. destruct (is_lit k "users"); [|simpl; eauto].
    destruct users; [apply IH|simpl; eauto].
  - pose proof (fits_words (lit "[RESOURCE] unknown option: ") vs tcp udp) as F.
    destruct (transport_words vs tcp udp); simpl in *; [apply IH|exact F|exact F].
Qed.
Lemma fits_resource : forall id t, fits (rep_resource lower id t) (parse_resource t).
Proof.
  intros id t. unfold rep_resource, parse_resource.
  pose proof (parse_map_no_panic t) as NP. destruct (parse_map t) as [m|e|]; simpl; [|eauto|contradiction].
  pose proof (fits_resource_items m (None, [], false, false)) as F.
  destruct (resource_items m (None, [], false, false)) as [[[[port users] tcp] udp]|e|]; simpl in *; [|exact F|exact F].
  destruct port; [|simpl; eauto]. pose proof (parse_users_no_panic users) as NU.
  destruct (parse_users users); simpl; [reflexivity|eauto|contradiction].
Qed.

Lemma conflict_spec : forall rs id port,
  if existsb (fun y => (fst y =? id) || (rs_port (snd y) =? port)) rs
  then exists c t, rep_conflict rs id port = Some (c :: t) else rep_conflict rs id port = None.
Proof.
  induction rs as [|[a x] rs IH]; intros id port; simpl; [reflexivity|].
  destruct (a =? id); simpl; [eauto|]. destruct (rs_port x =? port); simpl; [eauto|]. apply IH.
Qed.
Lemma existsb_perm : forall (A : Type) (f : A -> bool) l1 l2, Permutation l1 l2 -> existsb f l1 = existsb f l2.
Proof. intros A f l1 l2 P. induction P; simpl; try congruence. destruct (f x), (f y); reflexivity. Qed.
Lemma fits_resources : (forall m, Permutation m (res_order m)) ->
  forall l rs, fits (rep_resources lower res_order l rs) (resources_loop l rs).
Proof.
  intros RP. induction l as [|[a x] l IH]; intros rs; simpl; [reflexivity|].
  destruct (parse_id a) as [id|e|]; simpl; [|eauto|reflexivity].
  pose proof (fits_resource id x) as F. destruct (parse_resource x) as [r|e|]; simpl in *; [|exact F|exact F].
  pose proof (conflict_spec (res_order rs) id (rs_port r)) as C.
  rewrite <- (existsb_perm _ _ _ _ (RP rs)) in C.
  destruct (existsb (fun y => (fst y =? id) || (rs_port (snd y) =? rs_port r)) rs).
  - destruct C as (c & t & ->). simpl. eauto.
  - rewrite C. simpl. apply IH.
Qed.

Lemma fits_family : forall i, fits (rep_family i) (get_nft_family i).
Proof.
  intros i. unfold rep_family, get_nft_family. destruct (get i "NFTABLES" "family") as [t|]; [|reflexivity].
  destruct (is_lit (trim t) "inet" || is_lit (trim t) "ip" || is_lit (trim t) "ip6"); simpl; eauto.
Qed.

Lemma bind_not_panic : forall A B (x : res A) (k : A -> res B), bind x k <> Panic -> x <> Panic.
Proof. intros A B [y|e|] k H; try discriminate. exfalso. apply H. reflexivity. Qed.

(** Like [fits_bind], where it is known that the whole does not panic. *)
Lemma fits_seq : forall A B (x : res A) (k : A -> res B) a b, bind x k <> Panic -> fits a x ->
  (forall y, k y <> Panic -> fits b (k y)) -> fits (first a b) (bind x k).
Proof.
  intros A B x k a b NP F G. apply fits_bind; [eapply bind_not_panic; exact NP|exact F|].
  intros y ->. apply G. exact NP.
Qed.

Lemma fits_load_ini : forall c i, (forall m, Permutation m (res_order m)) ->
  load_ini float order c i <> Panic ->
  fits (rep_load_ini lower res_order float order (c_variant c) i) (load_ini float order c i).
Proof.
  intros c i RP. unfold load_ini, rep_load_ini. intros NP.
  apply fits_seq; [exact NP|apply fits_text|clear NP; intros debug NP].
  apply fits_seq; [exact NP|apply fits_port|clear NP; intros port NP].
  apply fits_seq; [exact NP|apply fits_text|clear NP; intros ct NP].
  apply fits_seq; [exact NP|apply fits_policy|clear NP; intros pol NP].
  apply fits_seq; [exact NP|apply fits_seccomp|clear NP; intros sc NP].
  apply fits_seq; [exact NP| |clear NP; intros keys NP].
  { unfold get_keys. destruct (sget i (lit "KEYS")); [apply fits_keys|reflexivity]. }
  apply fits_seq; [exact NP| |clear NP; intros rs NP].
  { unfold get_resources. destruct (sget i (lit "RESOURCES")); [apply fits_resources; exact RP|reflexivity]. }
  destruct (c_variant c).
  - apply fits_seq; [exact NP|apply fits_family|clear NP; intros fam NP].
    pose proof (fits_text _ (get_nft_timeout float i)) as F. destruct (get_nft_timeout float i); simpl in *; auto.
  - pose proof (fits_int _ (get_default_user i)) as F. destruct (get_default_user i); simpl in *; auto.
Qed.

Lemma fits_load : forall c path f, (forall m, Permutation m (order m)) -> (forall m, Permutation m (res_order m)) ->
  fits (rep_load lower res_order float order show_path (c_variant c) path f) (snd (conf_load float order c path f)).
Proof.
  intros c path f OP RP. unfold rep_load, conf_load. destruct (ini_from_file f) as [i|e|].
  - assert (NP : load_ini float order c i <> Panic) by (apply load_ini_no_panic). pose proof (fits_load_ini c i RP NP) as F.
    destruct (load_ini float order c i); simpl in *; auto.
  - destruct (c_variant c); simpl; eauto.
  - reflexivity.
Qed.

End Report.
