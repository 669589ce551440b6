(** The ini parser computes exactly the specified meaning. *)

From Coq Require Import String ZArith NArith List Bool Lia ZifyBool ZifyNat ZifyN.
From Verif Require Import M_Base M_IpAddr M_ConfTypes M_Text M_Str M_Utf8 M_Conf S_Wire S_Text S_Conf
  P_Base P_Text P_Str.
Import ListNotations.
Local Open Scope N_scope.

Inductive lclass := LIgn | LHead (n : text) | LOpt (n v : text) | LBad.
Definition classify (l : text) : lclass :=
  let line := trim_start l in
  match line with
  | [] => LIgn
  | c :: _ =>
      if c =? 35 then LIgn
      else if c =? 91 then
        match strip_last 93 (trim_end line) with None => LBad | Some x => LHead (tl x) end
      else match cut_at 61 line with
           | None => LBad
           | Some ([], _) => LBad
           | Some (n, v) => LOpt (trim_end n) v
           end
  end.

Lemma white_not : forall c, In c [35; 91; 93; 61] -> ~ white_space c.
Proof. intros c I W. apply is_white_spec in W. repeat (destruct I as [<-|I]; [discriminate W|]). contradiction. Qed.

Lemma trim_start_at : forall w c r, blank w -> ~ white_space c -> trim_start (w ++ c :: r) = c :: r.
Proof. intros w c r B N. rewrite trim_start_blank by exact B. apply trim_start_tight. intros x s [= <- _]. exact N. Qed.

Lemma trim_end_at : forall r c w, blank w -> ~ white_space c -> trim_end (r ++ c :: w) = r ++ [c].
Proof.
  intros r c w B N. replace (r ++ c :: w) with ((r ++ [c]) ++ w) by (rewrite <- app_assoc; reflexivity).
  rewrite trim_end_blank by exact B. apply trim_end_tight. intros s x E. apply app_inj_tail in E.
  destruct E as (_ & <-). exact N.
Qed.

Lemma classify_ign : forall l, ignored_line l -> classify l = LIgn.
Proof.
  intros l [B|(w & r & -> & B)]; unfold classify.
  - assert (trim_start l = []) as ->; [|reflexivity].
    rewrite <- (app_nil_r l), trim_start_blank by exact B. reflexivity.
  - rewrite trim_start_at; [reflexivity|exact B|apply white_not; simpl; auto].
Qed.
Lemma classify_head : forall l n, header_line l n -> classify l = LHead n.
Proof.
  intros l n (w1 & w2 & -> & B1 & B2). unfold classify.
  rewrite trim_start_at; [|exact B1|apply white_not; simpl; auto]. cbn [N.eqb Pos.eqb].
  rewrite app_comm_cons, trim_end_at; [|exact B2|apply white_not; simpl; auto].
  assert (strip_last 93 ((91 :: n) ++ [93]) = Some (91 :: n)) as -> by (apply strip_last_some; reflexivity).
  reflexivity.
Qed.
Lemma classify_opt : forall l n v, option_line l n v -> classify l = LOpt n v.
Proof.
  intros l n v (w1 & w2 & -> & B1 & B2 & T & NI & c & r & -> & N1 & N2). unfold classify.
  assert (~ white_space c) as NW by (eapply (proj1 T); reflexivity).
  cbn [app]. rewrite trim_start_at by (exact B1 || exact NW).
  apply N.eqb_neq in N1, N2. rewrite N1, N2.
  assert (cut_at 61 (c :: r ++ w2 ++ 61 :: v) = Some ((c :: r) ++ w2, v)) as ->.
  { apply cut_at_some. split; [rewrite <- app_assoc; reflexivity|].
    intros I. apply in_app_or in I. destruct I as [I|I]; [auto|]. apply (white_not 61); simpl; auto. }
  cbn [app]. f_equal. change (c :: r ++ w2) with ((c :: r) ++ w2).
  rewrite trim_end_blank by exact B2. apply trim_end_tight. apply T.
Qed.

Lemma classify_spec : forall l, match classify l with
  | LIgn => ignored_line l
  | LHead n => header_line l n
  | LOpt n v => option_line l n v
  | LBad => True
  end.
Proof.
  intros l. unfold classify. destruct (trim_start_spec l) as (w & E & B & N).
  destruct (trim_start l) as [|c r] eqn:TS.
  - left. rewrite E, app_nil_r. exact B.
  - specialize (N c r eq_refl). destruct (c =? 35) eqn:E1.
    { apply N.eqb_eq in E1. subst c. right. exists w, r. auto. }
    destruct (c =? 91) eqn:E2.
    + apply N.eqb_eq in E2. subst c. destruct (strip_last 93 (trim_end (91 :: r))) as [x|] eqn:SL; [|exact I].
      apply strip_last_some in SL. destruct (trim_end_spec (91 :: r)) as (b & E3 & B3 & _).
      destruct (trim_end_keeps_head (91 :: r) 91 r eq_refl N) as (r' & E4).
      rewrite SL in E3. rewrite SL in E4. destruct x as [|y x]; [discriminate|]. injection E4 as -> E4.
      cbn [tl]. exists w, b. split; [|auto]. rewrite E, E3. cbn [app]. rewrite <- app_assoc. reflexivity.
    + destruct (cut_at 61 (c :: r)) as [[[|y n] v]|] eqn:CA; try exact I.
      apply cut_at_some in CA. destruct CA as (CA & NI). injection CA as <- CA.
      destruct (trim_end_spec (c :: n)) as (b & E3 & B3 & N3).
      destruct (trim_end_keeps_head (c :: n) c n eq_refl N) as (r' & E4).
      exists w, b. split.
      { rewrite E, CA. rewrite (app_assoc (trim_end _)), <- E3. reflexivity. }
      split; [exact B|]. split; [exact B3|]. split.
      { split; [|exact N3]. intros d s X. rewrite E4 in X. injection X as <- _. exact N. }
      split.
      { intros X. apply NI. rewrite E3. apply in_or_app. left. exact X. }
      exists c, r'. split; [exact E4|]. apply N.eqb_neq in E1, E2. auto.
Qed.

Lemma class_ign : forall l, classify l = LIgn <-> ignored_line l.
Proof. intros l. split; [|apply classify_ign]. intros E. pose proof (classify_spec l) as C. rewrite E in C. exact C. Qed.
Lemma class_head : forall l n, classify l = LHead n <-> header_line l n.
Proof. intros l n. split; [|apply classify_head]. intros E. pose proof (classify_spec l) as C. rewrite E in C. exact C. Qed.
Lemma class_opt : forall l n v, classify l = LOpt n v <-> option_line l n v.
Proof. intros l n v. split; [|apply classify_opt]. intros E. pose proof (classify_spec l) as C. rewrite E in C. exact C. Qed.

Lemma header_fun : forall l n m, header_line l n -> header_line l m -> n = m.
Proof. intros l n m A B. apply class_head in A, B. congruence. Qed.
Lemma option_fun : forall l n m v w, option_line l n v -> option_line l m w -> n = m /\ v = w.
Proof. intros l n m v w A B. apply class_opt in A, B. rewrite A in B. injection B. auto. Qed.

Lemma header_dec : forall l, {n | header_line l n} + {forall n, ~ header_line l n}.
Proof.
  intros l. destruct (classify l) as [|n|n v|] eqn:C.
  2:{ left. exists n. apply class_head. exact C. }
  all: right; intros n' H; apply class_head in H; congruence.
Qed.

(** The parser in terms of the class of the line. *)
Lemma parse_line_class : forall s i l,
  match classify l with
  | LIgn => parse_line s i l = Ok (s, i)
  | LHead [] => exists e, parse_line s i l = Err e
  | LHead n => match sget s n with
               | Some _ => exists e, parse_line s i l = Err e
               | None => parse_line s i l = Ok (sset s n [], Some n)
               end
  | LOpt n v => match i with
                | None => exists e, parse_line s i l = Err e
                | Some c => match sget s c with
                            | None => parse_line s i l = Panic
                            | Some o => parse_line s i l = Ok (sset s c (oset o n v), i)
                            end
                end
  | LBad => exists e, parse_line s i l = Err e
  end.
Proof.
  intros s i l. unfold classify, parse_line. destruct (trim_start l) as [|c r]; [reflexivity|].
  destruct (c =? 35); [reflexivity|]. destruct (c =? 91).
  - destruct (strip_last 93 (trim_end (c :: r))) as [x|]; [|eauto].
    destruct (tl x) as [|y n]; [eauto|]. destruct (sget s (y :: n)); eauto.
  - destruct (cut_at 61 (c :: r)) as [[[|y n] v]|]; destruct i; eauto.
    destruct (sget s l0); reflexivity.
Qed.

(** *** Maps *)

Lemma oget_set : forall m k v k', oget (oset m k v) k' = if list_eqb k k' then Some v else oget m k'.
Proof.
  induction m as [|[a b] m IH]; intros k v k'; simpl; [reflexivity|].
  destruct (list_eqb a k) eqn:E; simpl.
  - apply list_eqb_spec in E. subst a. destruct (list_eqb k k'); reflexivity.
  - rewrite IH. destruct (list_eqb a k') eqn:E2; [|reflexivity].
    apply list_eqb_spec in E2. subst a. destruct (list_eqb k k') eqn:E3; [|reflexivity].
    apply list_eqb_spec in E3. subst k. rewrite list_eqb_refl in E. discriminate.
Qed.
Lemma sget_set : forall m k v k', sget (sset m k v) k' = if list_eqb k k' then Some v else sget m k'.
Proof.
  induction m as [|[a b] m IH]; intros k v k'; simpl; [reflexivity|].
  destruct (list_eqb a k) eqn:E; simpl.
  - apply list_eqb_spec in E. subst a. destruct (list_eqb k k'); reflexivity.
  - rewrite IH. destruct (list_eqb a k') eqn:E2; [|reflexivity].
    apply list_eqb_spec in E2. subst a. destruct (list_eqb k k') eqn:E3; [|reflexivity].
    apply list_eqb_spec in E3. subst k. rewrite list_eqb_refl in E. discriminate.
Qed.
Lemma oset_keys : forall m k v, NoDup (map fst m) -> NoDup (map fst (oset m k v))
  /\ forall x, In x (map fst (oset m k v)) -> x = k \/ In x (map fst m).
Proof.
  induction m as [|[a b] m IH]; intros k v ND; simpl.
  - split; [constructor; [intros []|constructor]|]. intros x [<-|[]]. auto.
  - inversion ND as [|? ? NI ND']; subst. destruct (list_eqb a k) eqn:E; simpl.
    + split; [exact ND|]. auto.
    + destruct (IH k v ND') as (IH1 & IH2). split.
      * constructor; [|exact IH1]. intros I. apply IH2 in I. destruct I as [->|I]; [|auto].
        rewrite list_eqb_refl in E. discriminate.
      * intros x [<-|I]; [auto|]. apply IH2 in I. destruct I; auto.
Qed.
Lemma oget_in : forall m k v, NoDup (map fst m) -> oget m k = Some v <-> In (k, v) m.
Proof.
  induction m as [|[a b] m IH]; intros k v ND; simpl; [split; [discriminate|contradiction]|].
  inversion ND as [|? ? NI ND']; subst. destruct (list_eqb a k) eqn:E.
  - apply list_eqb_spec in E. subst a. split; [intros [= <-]; auto|].
    intros [[= <-]|I]; [reflexivity|]. exfalso. apply NI. apply in_map_iff. exists (k, v). auto.
  - rewrite IH by exact ND'. split; [auto|]. intros [[= -> ->]|I]; [|exact I].
    rewrite list_eqb_refl in E. discriminate.
Qed.

(** *** Reading line by line *)

Fixpoint steps (s : ini) (i : option text) (ls : list text) : res (ini * option text) :=
  match ls with
  | [] => Ok (s, i)
  | l :: r => bind (parse_line s i l) (fun x => steps (fst x) (snd x) r)
  end.
Lemma parse_lines_steps : forall ls s i,
  parse_lines s i ls = bind (steps s i ls) (fun x => Ok (fst x)).
Proof.
  induction ls as [|l ls IH]; intros s i; simpl; [reflexivity|].
  destruct (parse_line s i l) as [[s' i']| |]; simpl; auto.
Qed.
Lemma steps_app : forall a b s i,
  steps s i (a ++ b) = bind (steps s i a) (fun x => steps (fst x) (snd x) b).
Proof.
  induction a as [|l a IH]; intros b s i; simpl; [reflexivity|].
  destruct (parse_line s i l) as [[s' i']| |]; simpl; auto.
Qed.

(** The name of the last header. *)
Definition cur_header (ls : list text) (s : text) : Prop :=
  exists pre h mid, ls = pre ++ h :: mid /\ header_line h s /\ forall m n, In m mid -> ~ header_line m n.
Definition header_in (ls : list text) (s : text) : Prop := exists h, In h ls /\ header_line h s.
Definition unique_headers (ls : list text) : Prop :=
  forall a b c l m n, ls = a ++ l :: b ++ m :: c -> header_line l n -> ~ header_line m n.

Lemma snoc_cases : forall (A : Type) (a c : list A) (x y : A), a ++ [x] = c ++ y :: [] -> a = c /\ x = y.
Proof. intros. apply app_inj_tail. assumption. Qed.

Lemma snoc_in : forall (A : Type) (ls pre rest : list A) l x, ls ++ [l] = pre ++ x :: rest ->
  (rest = [] /\ ls = pre /\ l = x) \/ (exists rest', rest = rest' ++ [l] /\ ls = pre ++ x :: rest').
Proof.
  intros A ls pre rest l x E. destruct rest as [|y rest _] using rev_ind.
  - left. apply app_inj_tail in E. destruct E. auto.
  - right. rewrite app_comm_cons, app_assoc in E. apply app_inj_tail in E. destruct E as (-> & ->). eauto.
Qed.

Lemma cur_fun : forall ls s, cur_header ls s -> forall c, cur_header ls c -> s = c.
Proof.
  induction ls as [|l ls IH] using rev_ind; intros s (p1 & h1 & m1 & E1 & H1 & N1) c (p2 & h2 & m2 & E2 & H2 & N2).
  - destruct p1; discriminate.
  - destruct (snoc_in _ _ _ _ _ _ E1) as [(-> & -> & ->)|(r1 & -> & ->)];
      destruct (snoc_in _ _ _ _ _ _ E2) as [(-> & X & Y)|(r2 & -> & X)].
    + subst h2. eapply header_fun; eauto.
    + exfalso. eapply N2; [apply in_or_app; right; left; reflexivity|exact H1].
    + subst h2. exfalso. eapply N1; [apply in_or_app; right; left; reflexivity|exact H2].
    + apply IH.
      * exists p1, h1, r1. split; [reflexivity|]. split; [exact H1|]. intros m n I. apply N1. apply in_or_app. auto.
      * exists p2, h2, r2. split; [exact X|]. split; [exact H2|]. intros m n I. apply N2. apply in_or_app. auto.
Qed.

(** Either no header at all or a last one. *)
Lemma cur_dec : forall ls, (exists s, cur_header ls s) \/ (forall l n, In l ls -> ~ header_line l n).
Proof.
  induction ls as [|l ls IH] using rev_ind; [right; intros ? ? []|].
  destruct (header_dec l) as [(n & H)|N].
  - left. exists n. exists ls, l, []. split; [reflexivity|]. split; [exact H|]. intros ? ? [].
  - destruct IH as [(s & C)|NO].
    + left. exists s. destruct C as (p & h & m & -> & H & NM). exists p, h, (m ++ [l]).
      split; [rewrite <- app_assoc; reflexivity|]. split; [exact H|].
      intros x n I. apply in_app_or in I. destruct I as [I|[<-|[]]]; auto.
    + right. intros x n I. apply in_app_or in I. destruct I as [I|[<-|[]]]; auto.
Qed.

Lemma cur_in : forall ls s, cur_header ls s -> header_in ls s.
Proof. intros ls s (p & h & m & -> & H & _). exists h. split; [apply in_or_app; right; left; reflexivity|exact H]. Qed.

(** *** Options, one line at a time *)

Definition kept (rest : list text) (o : text) : Prop :=
  forall a l b v', rest = a ++ l :: b -> option_line l o v' -> exists h n, In h a /\ header_line h n.

Lemma sets_snoc : forall ls l s o v rest, sets_option (ls ++ [l]) s o v rest <->
  (rest = [] /\ option_line l o v /\ cur_header ls s)
  \/ (exists rest', rest = rest' ++ [l] /\ sets_option ls s o v rest').
Proof.
  intros ls l s o v rest. split.
  - intros (pre & h & mid & x & E & H & O & N).
    replace (pre ++ h :: mid ++ x :: rest) with ((pre ++ h :: mid) ++ x :: rest) in E
      by (rewrite <- app_assoc; reflexivity).
    destruct (snoc_in _ _ _ _ _ _ E) as [(-> & -> & ->)|(r & -> & ->)].
    + left. split; [reflexivity|]. split; [exact O|]. exists pre, h, mid. auto.
    + right. exists r. split; [reflexivity|]. exists pre, h, mid, x.
      split; [rewrite <- app_assoc; reflexivity|]. auto.
  - intros [(-> & O & pre & h & mid & -> & H & N)|(r & -> & pre & h & mid & x & -> & H & O & N)].
    + exists pre, h, mid, l. split; [rewrite <- app_assoc; reflexivity|]. auto.
    + exists pre, h, mid, x. split; [rewrite <- !app_assoc; simpl; rewrite <- app_assoc; reflexivity|]. auto.
Qed.

Lemma kept_snoc : forall r l o, kept (r ++ [l]) o <->
  kept r o /\ (forall v, option_line l o v -> exists h n, In h r /\ header_line h n).
Proof.
  intros r l o. split.
  - intros K. split.
    + intros a x b v -> O. apply (K a x (b ++ [l]) v); [rewrite <- app_assoc; reflexivity|exact O].
    + intros v O. apply (K r l [] v eq_refl O).
  - intros (K1 & K2) a x b v E O. destruct (snoc_in _ _ _ _ _ _ E) as [(-> & -> & ->)|(b' & -> & ->)].
    + eapply K2. exact O.
    + eapply K1; [reflexivity|exact O].
Qed.

Lemma has_snoc_other : forall ls l s o v, (forall w, ~ option_line l o w) ->
  has_option (ls ++ [l]) s o v <-> has_option ls s o v.
Proof.
  intros ls l s o v NO. unfold has_option. split.
  - intros (rest & S & K). apply sets_snoc in S. destruct S as [(_ & O & _)|(r & -> & S)].
    + exfalso. eapply NO. exact O.
    + exists r. split; [exact S|]. apply kept_snoc in K. apply K.
  - intros (rest & S & K). exists (rest ++ [l]). split.
    + apply sets_snoc. right. eauto.
    + apply kept_snoc. split; [exact K|]. intros w O. exfalso. eapply NO. exact O.
Qed.

Lemma has_snoc_option : forall ls l c o w s v, unique_headers ls -> cur_header ls c -> option_line l o w ->
  has_option (ls ++ [l]) s o v <-> (s = c /\ v = w) \/ (s <> c /\ has_option ls s o v).
Proof.
  intros ls l c o w s v U C OL. split.
  - intros (rest & S & K). apply sets_snoc in S. destruct S as [(_ & O & CS)|(r & -> & S)].
    + left. split; [eapply cur_fun; eauto|]. eapply option_fun; eauto.
    + right. apply kept_snoc in K. destruct K as (K1 & K2). destruct (K2 w OL) as (g & n & IG & HG).
      split; [|exists r; auto]. intros ->.
      destruct S as (pre & h & mid & x & E & H & O & N).
      (* the last header of r is the current one *)
      destruct (cur_dec r) as [(s & CR)|NO]; [|eapply NO; eauto].
      assert (s = c) as ->.
      { destruct CR as (p & g' & q & ER & HG' & NQ). eapply cur_fun; [|exact C].
        exists (pre ++ h :: mid ++ x :: p), g', q. split; [|auto].
        rewrite E, ER. rewrite <- app_assoc. simpl. rewrite <- app_assoc. reflexivity. }
      destruct CR as (p & g' & q & ER & HG' & NQ).
      apply (U pre (mid ++ x :: p) q h g' c); [|exact H|exact HG'].
      rewrite E, ER. rewrite <- app_assoc. reflexivity.
  - intros [(-> & ->)|(NE & rest & S & K)].
    + exists []. split; [apply sets_snoc; left; auto|]. intros a x b v' E. destruct a; discriminate.
    + exists (rest ++ [l]). split; [apply sets_snoc; right; eauto|]. apply kept_snoc. split; [exact K|].
      intros w' _. destruct S as (pre & h & mid & x & E & H & O & N).
      destruct (cur_dec rest) as [(s' & p & g & q & ER & HG & NQ)|NO].
      * exists g, s'. split; [rewrite ER; apply in_or_app; right; left; reflexivity|exact HG].
      * exfalso. apply NE. eapply cur_fun; [|exact C]. exists pre, h, (mid ++ x :: rest).
        split; [exact E|]. split; [exact H|]. intros m n I. apply in_app_or in I.
        destruct I as [I|[<-|I]]; auto. intros HM. apply class_head in HM. apply class_opt in O. congruence.
Qed.

(** Well-formedness, one line at a time. *)
Lemma unique_snoc : forall ls l, unique_headers (ls ++ [l]) <->
  unique_headers ls /\ forall n, header_line l n -> ~ header_in ls n.
Proof.
  intros ls l. split.
  - intros U. split.
    + intros a b c x m n -> H. apply (U a b (c ++ [l]) x m n); [|exact H].
      rewrite <- app_assoc. simpl. rewrite <- app_assoc. reflexivity.
    + intros n H (h & I & HH). apply in_split in I. destruct I as (a & b & ->).
      apply (U a b [] h l n); auto. rewrite <- app_assoc. reflexivity.
  - intros (U & N) a b c x m n E H.
    replace (a ++ x :: b ++ m :: c) with ((a ++ x :: b) ++ m :: c) in E by (rewrite <- app_assoc; reflexivity).
    destruct (snoc_in _ _ _ _ _ _ E) as [(-> & -> & ->)|(r & -> & ->)].
    + intros HM. apply (N n HM). exists x. split; [apply in_or_app; right; left; reflexivity|exact H].
    + apply (U a b r x m n); [rewrite <- app_assoc; reflexivity|exact H].
Qed.

Definition good_line (ls : list text) (l : text) : Prop :=
  ignored_line l \/ (exists n, header_line l n /\ n <> [] /\ ~ header_in ls n)
  \/ (exists n v, option_line l n v /\ exists m, header_in ls m).

Lemma well_formed_snoc : forall ls l, well_formed (ls ++ [l]) <-> well_formed ls /\ good_line ls l.
Proof.
  intros ls l. split.
  - intros (W1 & W2 & W3). change (unique_headers (ls ++ [l])) in W2. apply unique_snoc in W2. destruct W2 as (W2 & W2').
    split.
    + split; [intros x I; apply W1; apply in_or_app; auto|]. split; [exact W2|].
      intros a x c n v -> O. apply (W3 a x (c ++ [l]) n v); [rewrite <- app_assoc; reflexivity|exact O].
    + destruct (W1 l) as [I|[(n & H & NE)|(n & v & O)]]; [apply in_or_app; right; left; reflexivity| | |].
      * left. exact I.
      * right. left. exists n. auto.
      * right. right. exists n, v. split; [exact O|]. destruct (W3 ls l [] n v eq_refl O) as (h & m & IH & HH).
        exists m, h. auto.
  - intros ((W1 & W2 & W3) & G). split; [|split].
    + intros x I. apply in_app_or in I. destruct I as [I|[<-|[]]]; [auto|].
      destruct G as [I|[(n & H & NE & _)|(n & v & O & _)]]; eauto.
    + apply unique_snoc. split; [exact W2|]. intros n H.
      destruct G as [I|[(m & H' & NE & NI)|(m & v & O & _)]].
      * apply class_ign in I. apply class_head in H. congruence.
      * rewrite (header_fun _ _ _ H H'). exact NI.
      * apply class_opt in O. apply class_head in H. congruence.
    + intros a x c n v E O. destruct (snoc_in _ _ _ _ _ _ E) as [(-> & -> & ->)|(r & -> & ->)].
      * destruct G as [I|[(m & H & _)|(m & w & O' & m' & h & IH & HH)]].
        -- apply class_ign in I. apply class_opt in O. congruence.
        -- apply class_head in H. apply class_opt in O. congruence.
        -- eauto.
      * eapply W3; [reflexivity|exact O].
Qed.

(** *** The invariant *)

Record iinv (ls : list text) (s : ini) (cur : option text) : Prop := {
  ii_sections : forall n, (exists o, sget s n = Some o) <-> header_in ls n;
  ii_nodup : forall n o, sget s n = Some o -> NoDup (map fst o);
  ii_options : forall n o k v, sget s n = Some o -> (oget o k = Some v <-> has_option ls n k v);
  ii_cur : match cur with Some c => cur_header ls c | None => forall l n, In l ls -> ~ header_line l n end
}.

Lemma header_in_snoc : forall ls l n, header_in (ls ++ [l]) n <-> header_in ls n \/ header_line l n.
Proof.
  intros ls l n. split.
  - intros (h & I & H). apply in_app_or in I. destruct I as [I|[<-|[]]]; [left; exists h; auto|auto].
  - intros [(h & I & H)|H].
    + exists h. split; [apply in_or_app; auto|exact H].
    + exists l. split; [apply in_or_app; right; left; reflexivity|exact H].
Qed.
Lemma cur_snoc_other : forall ls l c, (forall n, ~ header_line l n) -> cur_header ls c -> cur_header (ls ++ [l]) c.
Proof.
  intros ls l c N (p & h & m & -> & H & NM). exists p, h, (m ++ [l]).
  split; [rewrite <- app_assoc; reflexivity|]. split; [exact H|].
  intros x n I. apply in_app_or in I. destruct I as [I|[<-|[]]]; auto.
Qed.

Lemma has_header : forall ls s o v, has_option ls s o v -> header_in ls s.
Proof.
  intros ls s o v (rest & (pre & h & mid & l & -> & H & _) & _). exists h.
  split; [apply in_or_app; right; left; reflexivity|exact H].
Qed.

Lemma steps_spec : forall ls,
  (exists e, steps [] None ls = Err e /\ ~ well_formed ls)
  \/ (exists s cur, steps [] None ls = Ok (s, cur) /\ well_formed ls /\ iinv ls s cur).
Proof.
  induction ls as [|l ls IH] using rev_ind.
  - right. exists [], None. split; [reflexivity|]. split.
    + split; [intros ? []|]. split; [intros [] ? ? ? ? ? E; discriminate|intros [] ? ? ? ? E; discriminate].
    + constructor; simpl; try discriminate.
      * intros n. split; [intros (o & E); discriminate|intros (h & [] & _)].
      * intros l n [].
  - rewrite steps_app. destruct IH as [(e & -> & NW)|(s & cur & -> & W & I)].
    { left. exists e. split; [reflexivity|]. intros X. apply well_formed_snoc in X. apply NW. apply X. }
    simpl. pose proof (parse_line_class s cur l) as PC. pose proof (classify_spec l) as CS.
    destruct I as [IS IN IO IC].
    destruct (classify l) as [|n|n v|] eqn:CL.
    + (* ignored *)
      right. rewrite PC. exists s, cur. split; [reflexivity|]. split.
      { apply well_formed_snoc. split; [exact W|]. left. exact CS. }
      assert (NH : forall n, ~ header_line l n) by (intros n H; apply class_head in H; congruence).
      assert (NO : forall n w, ~ option_line l n w) by (intros n w H; apply class_opt in H; congruence).
      constructor.
      * intros n. rewrite IS, header_in_snoc. split; [auto|]. intros [X|X]; [exact X|]. exfalso. eapply NH; eauto.
      * exact IN.
      * intros n o k v G. rewrite has_snoc_other by apply NO. eapply IO; eauto.
      * destruct cur; [apply cur_snoc_other; auto|]. intros x n X. apply in_app_or in X.
        destruct X as [X|[<-|[]]]; auto.
    + (* header *)
      assert (NO : forall k w, ~ option_line l k w) by (intros k w H; apply class_opt in H; congruence).
      assert (BAD : (n = [] \/ header_in ls n) -> ~ well_formed (ls ++ [l])).
      { intros B X. apply well_formed_snoc in X. destruct X as (_ & [I|[(m & H & NE & NI)|(m & w & O & _)]]).
        - apply class_ign in I. congruence.
        - pose proof (header_fun _ _ _ CS H). subst m. destruct B; contradiction.
        - eapply NO; eauto. }
      destruct n as [|c0 n0].
      { left. destruct PC as (e & ->). exists e. split; [reflexivity|]. apply BAD. auto. }
      set (n := c0 :: n0) in *. destruct (sget s n) as [o|] eqn:G.
      { left. destruct PC as (e & ->). exists e. split; [reflexivity|]. apply BAD. right. apply IS. eauto. }
      assert (NI : ~ header_in ls n). { intros X. apply IS in X. destruct X as (o & X). congruence. }
      right. rewrite PC. exists (sset s n []), (Some n). split; [reflexivity|]. split.
      { apply well_formed_snoc. split; [exact W|]. right. left. exists n. split; [exact CS|]. split; [discriminate|exact NI]. }
      constructor.
      * intros m. rewrite sget_set, header_in_snoc. destruct (list_eqb n m) eqn:E.
        -- apply list_eqb_spec in E. subst m. split; [auto|]. eauto.
        -- rewrite IS. split; [auto|]. intros [X|X]; [exact X|].
           rewrite (header_fun _ _ _ X CS), list_eqb_refl in E. discriminate.
      * intros m o. rewrite sget_set. destruct (list_eqb n m); [|apply IN]. intros [= <-]. constructor.
      * intros m o k v. rewrite sget_set. destruct (list_eqb n m) eqn:E.
        -- intros [= <-]. apply list_eqb_spec in E. subst m. rewrite has_snoc_other by apply NO.
           split; [discriminate|]. intros X. exfalso. apply NI. eapply has_header; eauto.
        -- intros G'. rewrite has_snoc_other by apply NO. eapply IO; eauto.
      * exists ls, l, []. split; [reflexivity|]. split; [exact CS|]. intros ? ? [].
    + (* option *)
      assert (NH : forall n, ~ header_line l n) by (intros m H; apply class_head in H; congruence).
      destruct cur as [c|].
      2:{ left. destruct PC as (e & ->). exists e. split; [reflexivity|]. intros X.
          apply well_formed_snoc in X. destruct X as (_ & [I|[(m & H & _)|(m & w & O & m' & h & IH & HH)]]).
          - apply class_ign in I. congruence.
          - eapply NH; eauto.
          - eapply IC; eauto. }
      destruct (proj2 (IS c) (cur_in _ _ IC)) as (o & G). rewrite G in PC.
      right. rewrite PC. exists (sset s c (oset o n v)), (Some c). split; [reflexivity|]. split.
      { apply well_formed_snoc. split; [exact W|]. right. right. exists n, v. split; [exact CS|].
        exists c. apply cur_in. exact IC. }
      assert (U : unique_headers ls) by (destruct W as (_ & W2 & _); exact W2).
      constructor.
      * intros m. rewrite sget_set, header_in_snoc. destruct (list_eqb c m) eqn:E.
        -- apply list_eqb_spec in E. subst m. split; [intros _; left; apply cur_in; exact IC|eauto].
        -- rewrite IS. split; [auto|]. intros [X|X]; [exact X|]. exfalso. eapply NH; eauto.
      * intros m o'. rewrite sget_set. destruct (list_eqb c m) eqn:E; [|apply IN].
        intros [= <-]. apply oset_keys. eapply IN; eauto.
      * intros m o' k w. rewrite sget_set. destruct (list_eqb c m) eqn:E.
        -- intros [= <-]. apply list_eqb_spec in E. subst m. rewrite oget_set.
           destruct (list_eqb n k) eqn:E2.
           ++ apply list_eqb_spec in E2. subst k. rewrite (has_snoc_option ls l c n v c w U IC CS).
              split; [intros [= <-]; auto|]. intros [(_ & ->)|(X & _)]; [reflexivity|congruence].
           ++ rewrite has_snoc_other; [eapply IO; eauto|]. intros w' O.
              destruct (option_fun _ _ _ _ _ CS O) as (-> & _). rewrite list_eqb_refl in E2. discriminate.
        -- intros G'. assert (m <> c) as NE by (intros ->; rewrite list_eqb_refl in E; discriminate).
           destruct (list_eqb n k) eqn:E2.
           ++ apply list_eqb_spec in E2. subst k. rewrite (has_snoc_option ls l c n v m w U IC CS).
              rewrite (IO m o' n w G'). split; [auto|]. intros [(X & _)|(_ & X)]; [congruence|exact X].
           ++ rewrite has_snoc_other; [eapply IO; eauto|]. intros w' O.
              destruct (option_fun _ _ _ _ _ CS O) as (-> & _). rewrite list_eqb_refl in E2. discriminate.
      * apply cur_snoc_other; auto.
    + (* bad *)
      left. destruct PC as (e & ->). exists e. split; [reflexivity|]. intros X. apply well_formed_snoc in X.
      destruct X as (_ & [I|[(m & H & _)|(m & w & O & _)]]).
      * apply class_ign in I. congruence.
      * apply class_head in H. congruence.
      * apply class_opt in O. congruence.
Qed.

(** The parser as a whole. *)
Lemma parse_str_spec : forall content ls, lines_of content ls ->
  (exists e, parse_str content = Err e /\ ~ well_formed ls)
  \/ (exists i, parse_str content = Ok i /\ well_formed ls
        /\ (forall s, (exists o, sget i s = Some o) <-> header_in ls s)
        /\ (forall s o, sget i s = Some o -> NoDup (map fst o))
        /\ (forall s o v, ini_get i s o = Some v <-> has_option ls s o v)).
Proof.
  intros content ls L. unfold parse_str. rewrite (lines_of_fun _ _ (lines_spec content) _ L).
  rewrite parse_lines_steps. destruct (steps_spec ls) as [(e & -> & NW)|(s & cur & -> & W & I)].
  - left. exists e. auto.
  - right. exists s. simpl. split; [reflexivity|]. split; [exact W|]. destruct I as [IS IN IO IC].
    split; [exact IS|]. split; [exact IN|].
    intros n k v. unfold ini_get. destruct (sget s n) as [o|] eqn:G; [apply IO; exact G|].
    split; [discriminate|]. intros X. exfalso. apply has_header in X. apply IS in X. destruct X as (o & X). congruence.
Qed.
