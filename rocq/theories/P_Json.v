(** JSON texts are unambiguous, and what letmeinfwd writes is JSON. *)

From Coq Require Import String ZArith NArith List Bool Permutation Lia ZifyBool ZifyNat ZifyN.
From Verif Require Import M_Base M_IpAddr M_ConfTypes M_Text M_Str M_Utf8 M_Conf M_Firewall M_Json S_Text S_Json
  P_Text P_Str P_Utf8 P_Start.
Import ListNotations.
Local Open Scope N_scope.

(** ** One reading *)

Scheme value_ind2 := Induction for value_text Sort Prop
  with json_ind2 := Induction for json_text Sort Prop
  with elements_ind2 := Induction for elements_text Sort Prop
  with members_ind2 := Induction for members_text Sort Prop.
Combined Scheme json_mutind from value_ind2, json_ind2, elements_ind2, members_ind2.

(** What ends a value. *)
Definition stop (c : N) : Prop := In c [44; 93; 125].
Definition delim (c : N) : Prop := json_ws c \/ stop c.
Definition starts (P : N -> Prop) (r : text) : Prop := r = [] \/ exists c k, r = c :: k /\ P c.

Lemma span : forall (P : N -> Prop) a b r s, Forall (fun c => ~ P c) a -> Forall (fun c => ~ P c) b ->
  starts P r -> starts P s -> (a ++ r)%list = (b ++ s)%list -> a = b /\ r = s.
Proof.
  intros P. induction a as [|c a IH]; intros b r s A B R S E.
  - destruct b as [|d b]; [auto|]. exfalso. cbn in E. destruct R as [->|(c & k & -> & C)]; [discriminate|].
    injection E as -> ->. inversion B; auto.
  - destruct b as [|d b].
    + exfalso. cbn in E. destruct S as [->|(x & k & -> & C)]; [discriminate|]. injection E as <- <-. inversion A; auto.
    + cbn in E. injection E as -> E. inversion A; inversion B; subst. destruct (IH b r s) as [-> ->]; auto.
Qed.

Lemma digit16_fun : forall c d e, digit 16 c d -> digit 16 c e -> d = e.
Proof. unfold digit. intros. lia. Qed.

Lemma app_len_inv : forall (a b r s : text), length a = length b -> (a ++ r)%list = (b ++ s)%list -> a = b /\ r = s.
Proof.
  induction a as [|c a IH]; intros [|d b] r s L E; cbn in *; try discriminate; auto.
  injection E as -> E. destruct (IH b r s) as [-> ->]; auto.
Qed.

Lemma char_det : forall t c, char_text t c -> forall t' c' r r', char_text t' c' ->
  (t ++ r)%list = (t' ++ r')%list -> t = t' /\ c = c' /\ r = r'.
Proof.
  intros t c A t' c' r r' B E.
  destruct A as [c S1 S2 S3 S4|x c I|h v [HL HN] V|h v k w [HL HN] [KL KN] V W];
  destruct B as [c2 T1 T2 T3 T4|x2 c2 I2|h2 v2 [HL2 HN2] V2|h2 v2 k2 w2 [HL2 HN2] [KL2 KN2] V2 W2];
  cbn [app] in E; try (injection E; intros; subst; solve [auto | congruence | tauto]).
  - injection E as -> ->. split; [reflexivity|]. split; [|reflexivity].
    cbn in I, I2. repeat (destruct I as [I|I]; [injection I as <- <-|]);
      repeat (destruct I2 as [I2|I2]; [try (injection I2 as <-; reflexivity); injection I2; intros; exfalso; lia|]); try contradiction; tauto.
  - exfalso. injection E as -> _. cbn in I. repeat (destruct I as [I|I]; [discriminate I|]). exact I.
  - exfalso. injection E as -> _. cbn in I. repeat (destruct I as [I|I]; [discriminate I|]). exact I.
  - exfalso. injection E as <- _. cbn in I2. repeat (destruct I2 as [I2|I2]; [discriminate I2|]). exact I2.
  - injection E as E. destruct (app_len_inv h h2 r r') as [-> ->]; [congruence|exact E|].
    rewrite (numeral_fun _ _ _ HN _ HN2). auto.
  - exfalso. injection E as E. rewrite <- app_assoc in E. destruct (app_len_inv _ _ _ _ (eq_trans HL (eq_sym HL2)) E) as [-> _].
    rewrite (numeral_fun _ _ _ HN _ HN2) in V. lia.
  - exfalso. injection E as <- _. cbn in I2. repeat (destruct I2 as [I2|I2]; [discriminate I2|]). exact I2.
  - exfalso. injection E as E. rewrite <- app_assoc in E. destruct (app_len_inv _ _ _ _ (eq_trans HL (eq_sym HL2)) E) as [-> _].
    rewrite (numeral_fun _ _ _ HN _ HN2) in V. lia.
  - injection E as E. rewrite <- !app_assoc in E. destruct (app_len_inv _ _ _ _ (eq_trans HL (eq_sym HL2)) E) as [-> E2].
    cbn [app] in E2. injection E2 as E2. destruct (app_len_inv _ _ _ _ (eq_trans KL (eq_sym KL2)) E2) as [-> ->].
    rewrite (numeral_fun _ _ _ HN _ HN2), (numeral_fun _ _ _ KN _ KN2). auto.
Qed.

Lemma char_head : forall t c, char_text t c -> exists x r, t = x :: r /\ x <> 34.
Proof. intros t c [d S A B C|x d I|h v H V|h v k w H K V W]; eexists _, _; (split; [reflexivity|]); auto; discriminate. Qed.

Lemma chars_det : forall b s, chars_text b s -> forall b' s' r r', chars_text b' s' ->
  (b ++ 34 :: r)%list = (b' ++ 34 :: r')%list -> b = b' /\ s = s' /\ r = r'.
Proof.
  induction 1 as [|t c k s C K IH]; intros b' s' r r' B E.
  - destruct B as [|t2 c2 k2 s2 C2 K2]; [cbn in E; injection E as ->; auto|].
    exfalso. destruct (char_head _ _ C2) as (x & y & -> & X). cbn in E. injection E as E _. congruence.
  - destruct B as [|t2 c2 k2 s2 C2 K2].
    + exfalso. destruct (char_head _ _ C) as (x & y & -> & X). cbn in E. injection E as E _. congruence.
    + rewrite <- !app_assoc in E. destruct (char_det _ _ C _ _ _ _ C2 E) as (-> & -> & E2).
      destruct (IH _ _ _ _ K2 E2) as (-> & -> & ->). auto.
Qed.

Lemma string_det : forall t s, string_text t s -> forall t' s' r r', string_text t' s' ->
  (t ++ r)%list = (t' ++ r')%list -> t = t' /\ s = s' /\ r = r'.
Proof.
  intros t s (b & B & ->) t' s' r r' (b' & B' & ->) E. cbn [app] in E. injection E as E.
  rewrite <- !app_assoc in E. cbn [app] in E. destruct (chars_det _ _ B _ _ _ _ B' E) as (-> & -> & ->). auto.
Qed.

(** Tokens: null, true, false and numbers. *)
Definition head_is (P : N -> Prop) (t : text) : Prop := exists c r, t = c :: r /\ P c.
Definition num_start (c : N) : Prop := c = 45 \/ 48 <= c < 58.
Lemma number_token : forall t, number_text t ->
  Forall (fun c => ~ delim c) t /\ head_is num_start t.
Proof.
  intros t (m & i & f & e & M & I & F & X & ->).
  assert (D : forall c, 48 <= c < 58 -> ~ delim c).
  { intros c C [W|W]; cbn in W; lia. }
  assert (DS : forall k, Forall (fun c => 48 <= c < 58) k -> Forall (fun c => ~ delim c) k).
  { intros k K. eapply Forall_impl; [|exact K]. exact D. }
  assert (O : forall c, In c [43; 45; 46; 101; 69] -> ~ delim c).
  { intros c C [W|W]; cbn in C, W; lia. }
  split.
  - apply Forall_app; split.
    { destruct M as [<-|[<-|[]]]; repeat constructor. apply O. cbn. auto. }
    apply Forall_app; split.
    { destruct I as [|c k C K]; constructor; auto. apply D. lia. apply D. lia. }
    apply Forall_app; split.
    { destruct F as [|k [_ K]]; constructor; auto. apply O. cbn. auto. }
    destruct X as [|a s k A S [_ K]]; constructor.
    + apply O. destruct A as [<-|[<-|[]]]; cbn; auto 9.
    + apply Forall_app. split; auto. destruct S as [<-|[<-|[<-|[]]]]; repeat constructor; apply O; cbn; auto 9.
  - unfold head_is, num_start. destruct M as [<-|[<-|[]]].
    + destruct I as [|c k C K]; cbn [app]; eexists _, _; (split; [reflexivity|]); lia.
    + cbn [app]. eexists _, _; (split; [reflexivity|]); lia.
Qed.

Lemma lit_token : forall s, Forall (fun c => 97 <= c < 123) (lit s) -> Forall (fun c => ~ delim c) (lit s).
Proof. intros s H. eapply Forall_impl; [|exact H]. cbv beta; intros c C [W|W]; cbn in W; lia. Qed.

Definition token (t : text) (v : json) : Prop :=
  (t = lit "null" /\ v = JNull) \/ (t = lit "true" /\ v = JBool true) \/ (t = lit "false" /\ v = JBool false)
  \/ (number_text t /\ v = JNum t).
Lemma token_shape : forall t v, token t v -> Forall (fun c => ~ delim c) t /\ head_is (fun c => c = 45 \/ 48 <= c < 58 \/ 97 <= c < 123) t.
Proof.
  intros t v [[-> _]|[[-> _]|[[-> _]|[N _]]]].
  1-3: split; [apply lit_token; cbn; repeat constructor; lia | eexists _, _; split; [reflexivity|cbn; lia]].
  destruct (number_token t N) as [A (c & r & E & B)]. split; [exact A|]. exists c, r. split; [exact E|]. unfold num_start in B. tauto.
Qed.
Lemma token_fun : forall t v v', token t v -> token t v' -> v = v'.
Proof.
  assert (X : forall s, head_is (fun c => 97 <= c < 123) (lit s) -> ~ number_text (lit s)).
  { intros s (c & r & E & C) N. destruct (number_token _ N) as [_ (c2 & r2 & E2 & C2)]. rewrite E in E2. injection E2 as -> ->.
    unfold num_start in C2. lia. }
  assert (XN : ~ number_text (lit "null")) by (apply X; eexists _, _; split; [reflexivity|cbn; lia]).
  assert (XT : ~ number_text (lit "true")) by (apply X; eexists _, _; split; [reflexivity|cbn; lia]).
  assert (XF : ~ number_text (lit "false")) by (apply X; eexists _, _; split; [reflexivity|cbn; lia]).
  intros t v v' [[-> ->]|[[-> ->]|[[-> ->]|[N ->]]]] [[E ->]|[[E ->]|[[E ->]|[M ->]]]]; try reflexivity; try discriminate E;
    try contradiction; subst t; contradiction.
Qed.

Lemma ws_not_stop : forall w r, ws w -> starts (fun c => ~ json_ws c) r ->
  forall w' r', ws w' -> starts (fun c => ~ json_ws c) r' -> (w ++ r)%list = (w' ++ r')%list -> w = w' /\ r = r'.
Proof.
  intros w r W R w' r' W' R' E. apply (span (fun c => ~ json_ws c)); auto.
  - eapply Forall_impl; [|exact W]. cbn. tauto.
  - eapply Forall_impl; [|exact W']. cbn. tauto.
Qed.

Lemma ws_not_stop' : forall w w' r r', ws w -> ws w' -> (w ++ r)%list = (w' ++ r')%list ->
  starts (fun c => ~ json_ws c) r -> starts (fun c => ~ json_ws c) r' -> w = w' /\ r = r'.
Proof. intros w w' r r' W W' E R R'. exact (ws_not_stop w r W R w' r' W' R' E). Qed.

(** The first character of a value. *)
Definition value_start (c : N) : Prop := ~ json_ws c /\ ~ stop c /\ c <> 58.
Lemma value_head : forall t v, value_text t v -> head_is value_start t.
Proof.
  assert (V : forall c, c = 34 \/ c = 45 \/ 48 <= c < 58 \/ c = 91 \/ c = 123 \/ 97 <= c < 123 -> value_start c).
  { intros c C. unfold value_start, json_ws, stop. cbn. lia. }
  intros t v [| | |k N|k s (b & B & ->)|w W|k l K|w W|k l K].
  1-3: eexists _, _; split; [reflexivity|apply V; cbn; lia].
  - destruct (number_token _ N) as [_ (c & r & E & C)]. exists c, r. split; [exact E|]. apply V. unfold num_start in C. lia.
  - eexists _, _; split; [reflexivity|apply V; lia].
  - eexists _, _; split; [reflexivity|apply V; lia].
  - eexists _, _; split; [reflexivity|apply V; lia].
  - eexists _, _; split; [reflexivity|apply V; lia].
  - eexists _, _; split; [reflexivity|apply V; lia].
Qed.
Lemma head_starts : forall (P Q : N -> Prop) t r, head_is P t -> (forall c, P c -> Q c) -> starts Q (t ++ r).
Proof. intros P Q t r (c & k & -> & C) H. right. exists c, (k ++ r)%list. auto. Qed.

Lemma json_head : forall t v, json_text t v -> exists a k, t = (a ++ k)%list /\ ws a /\ head_is value_start k.
Proof.
  intros t v [a k v' b A V B]. exists a, (k ++ b)%list. split; [reflexivity|]. split; [exact A|].
  destruct (value_head _ _ V) as (c & r & -> & C). exists c, (r ++ b)%list. auto.
Qed.
Lemma elements_head : forall t l, elements_text t l -> exists a k, t = (a ++ k)%list /\ ws a /\ head_is value_start k.
Proof.
  intros t l [k v J|k v r l' J E]; [exact (json_head _ _ J)|].
  destruct (json_head _ _ J) as (a & b & -> & A & (c & d & -> & C)). exists a, ((c :: d) ++ 44 :: r)%list.
  split; [rewrite app_assoc; reflexivity|]. split; [exact A|]. eexists _, _; split; [reflexivity|exact C].
Qed.
Lemma members_head : forall t l, members_text t l -> exists a k, t = (a ++ k)%list /\ ws a /\ head_is value_start k.
Proof.
  assert (V : value_start 34) by (unfold value_start, json_ws, stop; cbn; lia).
  intros t l [a k s b u v A (x & X & ->) B J|a k s b u v r l' A (x & X & ->) B J M].
  all: eexists a, _; split; [rewrite <- !app_assoc; reflexivity|]; split; [exact A|];
    eexists _, _; split; [cbn [app]; reflexivity|exact V].
Qed.

Definition ends (P : N -> Prop) (r : text) : Prop := exists c k, r = c :: k /\ P c.
Lemma stop_delim : forall r, starts stop r -> starts delim r.
Proof. intros r [->|(c & k & -> & C)]; [left; reflexivity|right; exists c, k; unfold delim; auto]. Qed.
Lemma stop_not_ws : forall c, stop c -> ~ json_ws c.
Proof. intros c S W. cbn in S, W. lia. Qed.
Lemma ws_delim : forall w r, ws w -> starts stop r -> starts delim (w ++ r).
Proof.
  intros [|c w] r W R; [exact (stop_delim r R)|]. right. exists c, (w ++ r)%list. split; [reflexivity|].
  inversion W; left; assumption.
Qed.
Lemma stop_non_ws : forall r, starts stop r -> starts (fun c => ~ json_ws c) r.
Proof. intros r [->|(c & k & -> & C)]; [left; reflexivity|right; exists c, k; split; auto; apply stop_not_ws; exact C]. Qed.

Definition value_det (t : text) (v : json) : Prop := forall t' v' r r', value_text t' v' ->
  starts delim r -> starts delim r' -> (t ++ r)%list = (t' ++ r')%list -> t = t' /\ v = v' /\ r = r'.
Definition json_det (t : text) (v : json) : Prop := forall t' v' r r', json_text t' v' ->
  starts stop r -> starts stop r' -> (t ++ r)%list = (t' ++ r')%list -> t = t' /\ v = v' /\ r = r'.
Definition elements_det (t : text) (l : list json) : Prop := forall t' l' r r', elements_text t' l' ->
  (t ++ 93 :: r)%list = (t' ++ 93 :: r')%list -> t = t' /\ l = l' /\ r = r'.
Definition members_det (t : text) (l : list (text * json)) : Prop := forall t' l' r r', members_text t' l' ->
  (t ++ 125 :: r)%list = (t' ++ 125 :: r')%list -> t = t' /\ l = l' /\ r = r'.

Lemma token_value : forall t v, value_text t v -> token t v \/ head_is (fun c => In c [34; 91; 123]) t.
Proof.
  intros t v [| | |k N|k s (b & B & ->)|w W|k l K|w W|k l K]; unfold token, head_is; auto 6;
    right; eexists _, _; (split; [reflexivity|]); cbn; auto 9.
Qed.
Lemma token_det : forall t v, token t v -> value_det t v.
Proof.
  intros t v T t' v' r r' V R R' E. destruct (token_shape _ _ T) as [A (c & k & EC & C)].
  destruct (token_value _ _ V) as [T'|(c' & k' & EC' & C')].
  - destruct (token_shape _ _ T') as [A' _]. destruct (span delim t t' r r' A A' R R' E) as [-> ->].
    rewrite (token_fun _ _ _ T T'). auto.
  - exfalso. subst t t'. cbn in E. injection E as -> _. cbn in C'. lia.
Qed.
Lemma empty_vs : forall w t k r x r', ws w -> t = (x ++ k)%list -> ws x -> head_is value_start k ->
  forall c, stop c -> (w ++ c :: r)%list = (t ++ r')%list -> False.
Proof.
  intros w t k r x r' W -> X (d & y & -> & D & S & _) c C E. rewrite <- app_assoc in E.
  destruct (ws_not_stop w (c :: r) W) with (w' := x) (r' := (((d :: y) ++ r')%list)) as [_ E2]; auto.
  - right. exists c, r. split; [reflexivity|]. apply stop_not_ws. exact C.
  - right. exists d, (y ++ r')%list. auto.
  - cbn in E2. injection E2 as -> _. contradiction.
Qed.

Lemma json_unique_all :
  (forall t v, value_text t v -> value_det t v) /\ (forall t v, json_text t v -> json_det t v)
  /\ (forall t l, elements_text t l -> elements_det t l) /\ (forall t l, members_text t l -> members_det t l).
Proof.
  assert (S93 : stop 93) by (cbn; auto). assert (S125 : stop 125) by (cbn; auto). assert (S44 : stop 44) by (cbn; auto).
  assert (ST : forall c r, stop c -> starts stop (c :: r)) by (intros c r C; right; exists c, r; auto).
  assert (NW : forall c r, ~ json_ws c -> starts (fun c => ~ json_ws c) (c :: r)) by (intros c r C; right; exists c, r; auto).
  assert (HD : forall t v, value_text t v -> forall c r k r', t = (c :: r)%list -> In c [34; 91; 123] ->
            (t ++ r')%list = k -> forall v', token t v' -> False).
  { intros t v V c r k r' -> C _ v' T. destruct (token_shape _ _ T) as [_ (d & y & E & D)]. injection E as -> ->. cbn in C. lia. }
  apply json_mutind.
  - apply token_det. unfold token; auto.
  - apply token_det. unfold token; auto.
  - apply token_det. unfold token; auto.
  - intros t N. apply token_det. unfold token; auto.
  - intros t s S t' v' r r' V R R' E. pose proof S as (b & _ & EB).
    destruct V as [| | |k N|k s2 S2|w W|k l K|w W|k l K].
    5: { destruct (string_det _ _ S _ _ _ _ S2 E) as (-> & -> & ->). auto. }
    4: { exfalso. destruct (number_token _ N) as [_ (c & y & -> & C)]. subst t. cbn in E. injection E as <- _. unfold num_start in C. lia. }
    all: exfalso; subst t; cbn in E; discriminate E.
  - intros w W t' v' r r' V R R' E. destruct V as [| | |k N|k s2 (b & B & ->)|w2 W2|k l K|w2 W2|k l K].
    4: { exfalso. destruct (number_token _ N) as [_ (c & y & -> & C)]. cbn in E. injection E as <- _. unfold num_start in C. lia. }
    5: { cbn [app] in E. injection E as E. rewrite <- !app_assoc in E. cbn [app] in E.
         destruct (ws_not_stop w (93 :: r) W) with (w' := w2) (r' := 93 :: r') as [-> X]; auto.
         - apply NW. apply stop_not_ws. exact S93.
         - apply NW. apply stop_not_ws. exact S93.
         - injection X as ->. auto. }
    5: { exfalso. cbn [app] in E. injection E as E. rewrite <- !app_assoc in E. cbn [app] in E.
         destruct (elements_head _ _ K) as (x & y & EK & X & Y). eapply (empty_vs w k y r x) with (c := 93); eauto. }
    all: exfalso; cbn in E; discriminate E.
  - intros t l K IH t' v' r r' V R R' E. destruct V as [| | |k N|k s2 (b & B & ->)|w2 W2|k l2 K2|w2 W2|k l2 K2].
    4: { exfalso. destruct (number_token _ N) as [_ (c & y & -> & C)]. cbn in E. injection E as <- _. unfold num_start in C. lia. }
    5: { exfalso. cbn [app] in E. injection E as E. rewrite <- !app_assoc in E. cbn [app] in E. symmetry in E.
         destruct (elements_head _ _ K) as (x & y & EK & X & Y). eapply (empty_vs w2 t y r' x) with (c := 93); eauto. }
    5: { cbn [app] in E. injection E as E. rewrite <- !app_assoc in E. cbn [app] in E.
         destruct (IH _ _ _ _ K2 E) as (-> & -> & ->). auto. }
    all: exfalso; cbn in E; discriminate E.
  - intros w W t' v' r r' V R R' E. destruct V as [| | |k N|k s2 (b & B & ->)|w2 W2|k l K|w2 W2|k l K].
    4: { exfalso. destruct (number_token _ N) as [_ (c & y & -> & C)]. cbn in E. injection E as <- _. unfold num_start in C. lia. }
    7: { cbn [app] in E. injection E as E. rewrite <- !app_assoc in E. cbn [app] in E.
         destruct (ws_not_stop w (125 :: r) W) with (w' := w2) (r' := 125 :: r') as [-> X]; auto.
         - apply NW. apply stop_not_ws. exact S125.
         - apply NW. apply stop_not_ws. exact S125.
         - injection X as ->. auto. }
    7: { exfalso. cbn [app] in E. injection E as E. rewrite <- !app_assoc in E. cbn [app] in E.
         destruct (members_head _ _ K) as (x & y & EK & X & Y). eapply (empty_vs w k y r x) with (c := 125); eauto. }
    all: exfalso; cbn in E; discriminate E.
  - intros t l K IH t' v' r r' V R R' E. destruct V as [| | |k N|k s2 (b & B & ->)|w2 W2|k l2 K2|w2 W2|k l2 K2].
    4: { exfalso. destruct (number_token _ N) as [_ (c & y & -> & C)]. cbn in E. injection E as <- _. unfold num_start in C. lia. }
    7: { exfalso. cbn [app] in E. injection E as E. rewrite <- !app_assoc in E. cbn [app] in E. symmetry in E.
         destruct (members_head _ _ K) as (x & y & EK & X & Y). eapply (empty_vs w2 t y r' x) with (c := 125); eauto. }
    7: { cbn [app] in E. injection E as E. rewrite <- !app_assoc in E. cbn [app] in E.
         destruct (IH _ _ _ _ K2 E) as (-> & -> & ->). auto. }
    all: exfalso; cbn in E; discriminate E.
  - intros a t v b A V IH B t' v' r r' J R R' E. destruct J as [a2 t2 v2 b2 A2 V2 B2]. rewrite <- !app_assoc in E.
    assert (VS : forall c, value_start c -> ~ json_ws c) by (unfold value_start; tauto).
    destruct (ws_not_stop a (t ++ b ++ r) A) with (w' := a2) (r' := (t2 ++ b2 ++ r')%list) as [-> E2]; auto.
    + eapply head_starts; [exact (value_head _ _ V)|exact VS].
    + eapply head_starts; [exact (value_head _ _ V2)|exact VS].
    + destruct (IH _ _ _ _ V2 (ws_delim b r B R) (ws_delim b2 r' B2 R') E2) as (-> & -> & E3).
      destruct (ws_not_stop b r B (stop_non_ws r R) b2 r' B2 (stop_non_ws r' R') E3) as [-> ->]. auto.
  - intros t v J IH t' l' r r' K E. destruct K as [t2 v2 J2|t2 v2 r2 l2 J2 K2].
    + destruct (IH _ _ _ _ J2 (ST _ _ S93) (ST _ _ S93) E) as (-> & -> & X). injection X as ->. auto.
    + exfalso. rewrite <- app_assoc in E. cbn [app] in E. destruct (IH _ _ _ _ J2 (ST _ _ S93) (ST _ _ S44) E) as (_ & _ & X). discriminate X.
  - intros t v r1 l J IH K1 IHK t' l' r r' K E. destruct K as [t2 v2 J2|t2 v2 r2 l2 J2 K2]; rewrite <- !app_assoc in E; cbn [app] in E.
    + exfalso. destruct (IH _ _ _ _ J2 (ST _ _ S44) (ST _ _ S93) E) as (_ & _ & X). discriminate X.
    + destruct (IH _ _ _ _ J2 (ST _ _ S44) (ST _ _ S44) E) as (-> & -> & X). injection X as X.
      destruct (IHK _ _ _ _ K2 X) as (-> & -> & ->). auto.
  - intros a k s b t v A S B J IH t' l' r r' K E.
    assert (N58 : ~ json_ws 58) by (cbn; lia). assert (N34 : ~ json_ws 34) by (cbn; lia).
    destruct K as [a2 k2 s2 b2 t2 v2 A2 S2 B2 J2|a2 k2 s2 b2 t2 v2 r2 l2 A2 S2 B2 J2 K2]; repeat rewrite <- ?app_assoc in E; cbn [app] in E.
    all: repeat rewrite <- ?app_assoc in E; cbn [app] in E.
    all: pose proof S as (x & _ & EX); pose proof S2 as (y & _ & EY).
    all: destruct (ws_not_stop' _ _ _ _ A A2 E) as [<- E2];
      [subst k; cbn [app]; apply NW; exact N34|subst k2; cbn [app]; apply NW; exact N34|].
    all: destruct (string_det _ _ S _ _ _ _ S2 E2) as (<- & <- & E3).
    all: destruct (ws_not_stop' _ _ _ _ B B2 E3) as [<- E4];
      [apply NW; exact N58|apply NW; exact N58|].
    all: injection E4 as E4.
    + destruct (IH _ _ _ _ J2 (ST _ _ S125) (ST _ _ S125) E4) as (-> & -> & X). injection X as ->. auto.
    + exfalso. destruct (IH _ _ _ _ J2 (ST _ _ S125) (ST _ _ S44) E4) as (_ & _ & X). discriminate X.
  - intros a k s b t v r1 l A S B J IH K1 IHK t' l' r r' K E.
    assert (N58 : ~ json_ws 58) by (cbn; lia). assert (N34 : ~ json_ws 34) by (cbn; lia).
    destruct K as [a2 k2 s2 b2 t2 v2 A2 S2 B2 J2|a2 k2 s2 b2 t2 v2 r2 l2 A2 S2 B2 J2 K2]; repeat rewrite <- ?app_assoc in E; cbn [app] in E.
    all: repeat rewrite <- ?app_assoc in E; cbn [app] in E.
    all: repeat rewrite <- ?app_assoc in E; cbn [app] in E.
    all: pose proof S as (x & _ & EX); pose proof S2 as (y & _ & EY).
    all: destruct (ws_not_stop' _ _ _ _ A A2 E) as [<- E2];
      [subst k; cbn [app]; apply NW; exact N34|subst k2; cbn [app]; apply NW; exact N34|].
    all: destruct (string_det _ _ S _ _ _ _ S2 E2) as (<- & <- & E3).
    all: destruct (ws_not_stop' _ _ _ _ B B2 E3) as [<- E4];
      [apply NW; exact N58|apply NW; exact N58|].
    all: injection E4 as E4.
    + exfalso. destruct (IH _ _ _ _ J2 (ST _ _ S44) (ST _ _ S125) E4) as (_ & _ & X). discriminate X.
    + destruct (IH _ _ _ _ J2 (ST _ _ S44) (ST _ _ S44) E4) as (-> & -> & X). injection X as X.
      destruct (IHK _ _ _ _ K2 X) as (-> & -> & ->). auto.
Qed.

Lemma json_text_fun : forall t v v', json_text t v -> json_text t v' -> v = v'.
Proof.
  intros t v v' A B. destruct json_unique_all as (_ & J & _).
  destruct (J t v A t v' [] [] B) as (_ & E & _); auto; left; reflexivity.
Qed.

(** ** What is written *)

Lemma fmt_fuel_head : forall f base n acc, 2 <= base -> base <= 10 -> n <> 0 -> n < 2 ^ N.of_nat f ->
  exists c r, fmt_fuel (S f) LOWER base n acc = (c :: r)%list /\ 49 <= c < 58.
Proof.
  induction f as [|f IH]; intros base n acc B1 B2 N0 H.
  - change (2 ^ N.of_nat 0) with 1 in H. lia.
  - remember (S f) as sf. cbn [fmt_fuel]. destruct (N.ltb_spec n base).
    + exists (digit_char LOWER n), acc. split; [reflexivity|]. unfold digit_char. destruct (N.ltb_spec n 10); lia.
    + subst sf. apply IH; auto.
      * intros Z. apply N.div_small_iff in Z; lia.
      * rewrite Nat2N.inj_succ, N.pow_succ_r' in H. apply N.div_lt_upper_bound; [lia|]. nia.
Qed.
Lemma fmt_dec_number : forall n, number_text (fmt_dec n).
Proof.
  intros n. exists [], (fmt_dec n), [], []. split; [cbn; auto|].
  split; [|split; [constructor|]; split; [constructor|rewrite !app_nil_r; reflexivity]].
  destruct (N.eq_dec n 0) as [->|Z]; [exact ip_zero|].
  destruct (fmt_fuel_head (N.to_nat (N.size n)) 10 n []) as (c & r & E & C); try lia.
  { rewrite N2Nat.id. apply N.size_gt. }
  pose proof (fmt_dec_chars n) as D. unfold fmt_dec, fmt_radix in *. rewrite E in *. constructor; [exact C|].
  apply Forall_forall. intros x X. specialize (D x (or_intror X)). lia.
Qed.

Fixpoint to_json (v : ser) : json :=
  match v with
  | SeNull => JNull
  | SeNum n => JNum (fmt_dec n)
  | SeStr t => JStr t
  | SeSeq l => JArr (map to_json l)
  | SeMap l => JObj (map (fun x => (fst x, to_json (snd x))) l)
  end.

Section SerInd.
  Context (P : ser -> Prop) (H0 : P SeNull) (H1 : forall n, P (SeNum n)) (H2 : forall t, P (SeStr t))
          (H3 : forall l, Forall P l -> P (SeSeq l)) (H4 : forall l, Forall (fun x => P (snd x)) l -> P (SeMap l)).
  Fixpoint ser_ind2 (v : ser) : P v :=
    match v with
    | SeNull => H0
    | SeNum n => H1 n
    | SeStr t => H2 t
    | SeSeq l => H3 l ((fix go (l : list ser) : Forall P l :=
                          match l with [] => Forall_nil _ | x :: r => Forall_cons x (ser_ind2 x) (go r) end) l)
    | SeMap l => H4 l ((fix go (l : list (text * ser)) : Forall (fun x => P (snd x)) l :=
                          match l with [] => Forall_nil _ | x :: r => Forall_cons x (ser_ind2 (snd x)) (go r) end) l)
    end.
End SerInd.

(** All strings of a value are Unicode. *)
Fixpoint unicode (v : ser) : Prop :=
  match v with
  | SeNull | SeNum _ => True
  | SeStr t => Forall scalar t
  | SeSeq l => (fix go l := match l with [] => True | x :: r => unicode x /\ go r end) l
  | SeMap l => (fix go l := match l with [] => True | x :: r => Forall scalar (fst x) /\ unicode (snd x) /\ go r end) l
  end.

Lemma hex_digit : forall d, d < 16 -> digit 16 (digit_char LOWER d) d.
Proof. intros d D. unfold digit, digit_char, LOWER. destruct (N.ltb_spec d 10); lia. Qed.
Lemma esc_char_text : forall c, scalar c -> char_text (esc_char c) c.
Proof.
  intros c S. unfold esc_char.
  repeat match goal with |- context[?a =? ?b] => destruct (N.eqb_spec a b); [subst; apply ct_escape; cbn; auto 12|] end.
  destruct (N.ltb_spec c 32); [|apply ct_plain; auto].
  apply ct_hex; [|lia]. split; [reflexivity|].
  assert (E : c = ((0 * 16 + 0) * 16 + 0) * 16 + 0 \/ True) by auto. clear E.
  assert (D1 : digit 16 (digit_char LOWER (c / 16)) (c / 16)) by (apply hex_digit; apply N.div_lt_upper_bound; lia).
  assert (D2 : digit 16 (digit_char LOWER (c mod 16)) (c mod 16)) by (apply hex_digit; apply N.mod_lt; lia).
  replace c with ((((0 * 16 + 0) * 16 + 0) * 16 + c / 16) * 16 + c mod 16) at 3.
  2: { rewrite (N.div_mod c 16) at 3 by lia. lia. }
  change [48; 48; digit_char LOWER (c / 16); digit_char LOWER (c mod 16)]
    with (((([] ++ [48]) ++ [48]) ++ [digit_char LOWER (c / 16)]) ++ [digit_char LOWER (c mod 16)])%list.
  repeat apply num_snoc; auto; try constructor; lia.
Qed.
Lemma print_str_text : forall t, Forall scalar t -> string_text (print_str t) t.
Proof.
  intros t S. exists (flat_map esc_char t). split; [|reflexivity].
  induction S as [|c t C T IH]; [constructor|]. cbn [flat_map]. constructor; [apply esc_char_text; exact C|exact IH].
Qed.

Lemma value_json : forall t v, value_text t v -> json_text t v.
Proof. intros t v V. rewrite <- (app_nil_r t). apply (jt [] t v []); auto; constructor. Qed.

Lemma print_text : forall v, unicode v -> value_text (print v) (to_json v).
Proof.
  induction v as [|n|t|l IH|l IH] using ser_ind2; intros U; cbn [print to_json].
  - constructor.
  - constructor. apply fmt_dec_number.
  - constructor. apply print_str_text. exact U.
  - destruct l as [|x l]; [apply (vt_arr0 []); constructor|]. apply vt_arr.
    revert x IH U. induction l as [|y l IHl]; intros x IH U; inversion IH as [|? ? HX HR]; subst; destruct U as [UX UR].
    + apply et_one. apply value_json. apply HX. exact UX.
    + change (elements_text (print x ++ 44 :: join 44 (map print (y :: l))) (to_json x :: map to_json (y :: l))).
      apply et_more; [apply value_json; apply HX; exact UX|]. apply IHl; assumption.
  - destruct l as [|x l]; [apply (vt_obj0 []); constructor|]. apply vt_obj.
    revert x IH U. induction l as [|y l IHl]; intros x IH U; inversion IH as [|? ? HX HR]; subst; destruct U as [UK [UX UR]].
    + cbn [map join]. pose proof (mt_one [] (print_str (fst x)) (fst x) [] (print (snd x)) (to_json (snd x))) as M.
      cbn [app] in M. rewrite app_nil_r in M. apply M; [constructor|apply print_str_text; exact UK|constructor|apply value_json; apply HX; exact UX].
    + pose proof (mt_more [] (print_str (fst x)) (fst x) [] (print (snd x)) (to_json (snd x))
        (join 44 (map (fun x => print_str (fst x) ++ 58 :: print (snd x)) (y :: l))%list)
        (map (fun x => (fst x, to_json (snd x))) (y :: l))) as M.
      cbn [app] in M. rewrite app_nil_r in M.
      change (members_text ((print_str (fst x) ++ 58 :: print (snd x)) ++
        44 :: join 44 (map (fun x => print_str (fst x) ++ 58 :: print (snd x)) (y :: l)))%list
        ((fst x, to_json (snd x)) :: map (fun x => (fst x, to_json (snd x))) (y :: l))).
      rewrite <- app_assoc. cbn [app].
      apply M; [constructor|apply print_str_text; exact UK|constructor|apply value_json; apply HX; exact UX|].
      apply IHl; assumption.
Qed.

Lemma esc_scalar : forall c, scalar c -> Forall scalar (esc_char c).
Proof.
  assert (A : forall c, c < 128 -> scalar c) by (unfold scalar; intros; lia).
  intros c S. unfold esc_char.
  repeat match goal with |- context[?a =? ?b] => destruct (N.eqb_spec a b); [repeat constructor; apply A; lia|] end.
  destruct (N.ltb_spec c 32); [|constructor; [exact S|constructor]].
  assert (D1 : c / 16 < 16) by (apply N.div_lt_upper_bound; lia).
  assert (D2 : c mod 16 < 16) by (apply N.mod_lt; lia).
  repeat (apply Forall_cons; [apply A|]); try apply Forall_nil; try lia; unfold digit_char, LOWER;
    repeat match goal with |- context[?a <? ?b] => destruct (N.ltb_spec a b) end; lia.
Qed.
Lemma print_str_scalar : forall t, Forall scalar t -> Forall scalar (print_str t).
Proof.
  intros t S. unfold print_str. constructor; [unfold scalar; lia|]. apply Forall_app. split; [|repeat constructor; unfold scalar; lia].
  induction S as [|c t C T IH]; [constructor|]. cbn [flat_map]. apply Forall_app. split; [apply esc_scalar; exact C|exact IH].
Qed.
Lemma join_scalar : forall l, Forall (Forall scalar) l -> Forall scalar (join 44 l).
Proof.
  intros l H. apply Forall_forall. intros c C. apply join_chars in C. destruct C as [->|(t & T & C)]; [unfold scalar; lia|].
  rewrite Forall_forall in H. specialize (H t T). rewrite Forall_forall in H. auto.
Qed.
Lemma print_scalar : forall v, unicode v -> Forall scalar (print v).
Proof.
  assert (A : forall c, c < 128 -> scalar c) by (unfold scalar; intros; lia).
  induction v as [|n|t|l IH|l IH] using ser_ind2; intros U; cbn [print].
  - cbn. repeat constructor; apply A; lia.
  - apply Forall_forall. intros c C. apply fmt_dec_chars in C. apply A. lia.
  - apply print_str_scalar. exact U.
  - constructor; [apply A; lia|]. apply Forall_app. split; [|repeat constructor; apply A; lia].
    apply join_scalar. induction IH as [|x l HX HL IHl]; [constructor|]. destruct U as [UX UL]. cbn [map]. constructor; auto.
  - constructor; [apply A; lia|]. apply Forall_app. split; [|repeat constructor; apply A; lia].
    apply join_scalar. induction IH as [|x l HX HL IHl]; [constructor|]. destruct U as [UK [UX UL]]. cbn [map]. constructor; auto.
    apply Forall_app. split; [apply print_str_scalar; exact UK|]. constructor; [apply A; lia|]. auto.
Qed.

(** ** What is asked for *)

Fixpoint assoc {A : Type} (k : text) (l : list (text * A)) : option A :=
  match l with [] => None | (x, v) :: r => if list_eqb x k then Some v else assoc k r end.
Definition member (v : json) (k : text) : option json := match v with JObj m => assoc k m | _ => None end.
Fixpoint distinct (l : list text) : bool :=
  match l with [] => true | x :: r => negb (existsb (list_eqb x) r) && distinct r end.

Lemma text_eqb_eq : forall a b : text, list_eqb a b = true <-> a = b.
Proof.
  induction a as [|x a IH]; intros [|y b]; cbn; split; intros H; try discriminate; try reflexivity.
  - apply andb_prop in H. destruct H as [H1 H2]. apply N.eqb_eq in H1. apply IH in H2. congruence.
  - injection H as -> ->. rewrite N.eqb_refl. apply IH. reflexivity.
Qed.
Lemma distinct_nodup : forall l, distinct l = true -> NoDup l.
Proof.
  induction l as [|x l IH]; intros H; [constructor|]. cbn in H. apply andb_prop in H. destruct H as [A B].
  constructor; [|auto]. intros I. apply negb_true_iff in A. assert (existsb (list_eqb x) l = true); [|congruence].
  apply existsb_exists. exists x. split; [exact I|]. apply text_eqb_eq. reflexivity.
Qed.
Lemma assoc_in : forall (A : Type) (l : list (text * A)) k v, NoDup (map fst l) -> In (k, v) l -> assoc k l = Some v.
Proof.
  induction l as [|[x y] l IH]; intros k v D I; [destruct I|]. cbn in *. inversion D; subst.
  destruct (list_eqb x k) eqn:E.
  - apply text_eqb_eq in E. subst x. destruct I as [I|I]; [injection I as <-; reflexivity|].
    exfalso. apply H1. apply in_map_iff. exists (k, v). auto.
  - destruct I as [I|I]; [injection I as -> ->; rewrite (proj2 (text_eqb_eq k k) eq_refl) in E; discriminate|]. auto.
Qed.
Lemma assoc_none : forall (A : Type) (l : list (text * A)) k, (forall v, ~ In (k, v) l) -> assoc k l = None.
Proof.
  induction l as [|[x y] l IH]; intros k H; [reflexivity|]. cbn. destruct (list_eqb x k) eqn:E.
  - apply text_eqb_eq in E. subst x. exfalso. apply (H y). left. reflexivity.
  - apply IH. intros v I. apply (H v). right. exact I.
Qed.
Lemma assoc_some : forall (A : Type) (l : list (text * A)) k v, assoc k l = Some v -> In (k, v) l.
Proof.
  induction l as [|[x y] l IH]; intros k v H; [discriminate|]. cbn in *. destruct (list_eqb x k) eqn:E; [|auto].
  apply text_eqb_eq in E. injection H as ->. subst. auto.
Qed.
Lemma assoc_perm : forall (A : Type) (l m : list (text * A)) k, NoDup (map fst l) -> Permutation m l -> assoc k m = assoc k l.
Proof.
  intros A l m k D P. destruct (assoc k l) as [v|] eqn:E.
  - apply assoc_some in E. apply assoc_in.
    + eapply Permutation_NoDup; [|exact D]. apply Permutation_sym. apply Permutation_map. exact P.
    + eapply Permutation_in; [apply Permutation_sym; exact P|exact E].
  - apply assoc_none. intros v I. assert (In (k, v) l) by (eapply Permutation_in; eauto).
    rewrite (assoc_in _ l k v D) in E by assumption. discriminate.
Qed.

Lemma object_member : forall v l k, distinct (map (fun x => lit (fst x)) l) = true -> object v l ->
  member v k = assoc k (map (fun x => (lit (fst x), snd x)) l).
Proof.
  intros v l k D (m & -> & P). cbn. apply assoc_perm; [|exact P]. rewrite map_map. cbn. apply distinct_nodup. exact D.
Qed.


Lemma lit_inj : forall s k, lit s = lit k -> s = k.
Proof.
  induction s as [|a s IH]; intros [|b k] E; cbn in E; try discriminate; [reflexivity|].
  injection E as E1 E2. rewrite (IH k E2). f_equal.
  rewrite <- (Ascii.ascii_N_embedding a), <- (Ascii.ascii_N_embedding b). congruence.
Qed.
Lemma word_inj : forall s k, word s = word k -> s = k.
Proof. intros s k E. injection E as E. apply lit_inj. exact E. Qed.

Lemma obj1_inv : forall v k x y, object v [(k, x)] -> object v [(k, y)] -> x = y.
Proof.
  intros v k x y (m & -> & P) (m' & E & Q). injection E as <-. cbn in P, Q.
  apply Permutation_sym, Permutation_length_1_inv in P. apply Permutation_sym, Permutation_length_1_inv in Q. congruence.
Qed.
Lemma obj1_key : forall v k k' x y, object v [(k, x)] -> object v [(k', y)] -> k = k'.
Proof.
  intros v k k' x y (m & -> & P) (m' & E & Q). injection E as <-. cbn in P, Q.
  apply Permutation_sym, Permutation_length_1_inv in P. apply Permutation_sym, Permutation_length_1_inv in Q.
  rewrite P in Q. injection Q as Q _. apply lit_inj. exact Q.
Qed.
Lemma objs : forall v l l', object v l -> object v l' ->
  distinct (map (fun x => lit (fst x)) l) = true -> distinct (map (fun x => lit (fst x)) l') = true ->
  forall k, assoc k (map (fun x => (lit (fst x), snd x)) l) = assoc k (map (fun x => (lit (fst x), snd x)) l').
Proof. intros v l l' O O' D D' k. rewrite <- (object_member v l k D O). apply object_member; assumption. Qed.

Lemma natural_fun : forall v n m, natural v n -> natural v m -> n = m.
Proof.
  intros v n m (t & -> & _ & A) (u & E & _ & B). injection E as <-. exact (numeral_fun _ _ _ A _ B).
Qed.

Lemma matches_fun : forall v p f r p' f' r', matches v p f r -> matches v p' f' r' -> p = p' /\ f = f' /\ r = r'.
Proof.
  intros v p f r p' f' r' (m & x & y & A1 & A2 & A3 & A4) (m' & x' & y' & B1 & B2 & B3 & B4).
  rewrite <- (obj1_inv _ _ _ _ A1 B1) in *.
  pose proof (objs _ _ _ A2 B2 eq_refl eq_refl (lit "left")) as E1. pose proof (objs _ _ _ A2 B2 eq_refl eq_refl (lit "right")) as E2.
  cbn in E1, E2. injection E1 as <-. injection E2 as <-.
  rewrite <- (obj1_inv _ _ _ _ A3 B3) in *.
  pose proof (objs _ _ _ A4 B4 eq_refl eq_refl (lit "protocol")) as E3. pose proof (objs _ _ _ A4 B4 eq_refl eq_refl (lit "field")) as E4.
  cbn [map fst snd] in E3, E4. 
  change (Some (word p) = Some (word p')) in E3. change (Some (word f) = Some (word f')) in E4.
  split; [apply word_inj; congruence|]. split; [apply word_inj; congruence|reflexivity].
Qed.

Lemma match_not_accept : forall v p f r, matches v p f r -> object v [("accept", JNull)]%string -> False.
Proof. intros v p f r (m & _ & _ & A & _) B. pose proof (obj1_key _ _ _ _ _ A B) as E. discriminate E. Qed.

Lemma says_fun : forall v s s', says v s -> says v s' -> s = s'.
Proof.
  intros v s s' A B. destruct A as [v v6 a M|v p n M N|v O]; inversion B as [v' v6' a' M' E1 E2|v' p' n' M' N' E1 E2|v' O' E1 E2]; subst.
  - destruct (matches_fun _ _ _ _ _ _ _ M M') as (P & _ & R). injection R as <-. destruct v6, v6'; congruence || discriminate P.
  - destruct (matches_fun _ _ _ _ _ _ _ M M') as (_ & F & _). discriminate F.
  - exfalso. eapply match_not_accept; eassumption.
  - destruct (matches_fun _ _ _ _ _ _ _ M M') as (_ & F & _). discriminate F.
  - destruct (matches_fun _ _ _ _ _ _ _ M M') as (P & _ & <-). pose proof (natural_fun _ _ _ N N') as E.
    destruct p, p'; try discriminate P; cbn in E; subst; reflexivity.
  - exfalso. eapply match_not_accept; eassumption.
  - exfalso. eapply match_not_accept; eassumption.
  - exfalso. eapply match_not_accept; eassumption.
  - reflexivity.
Qed.
Lemma Forall2_fun : forall (A B : Type) (R : A -> B -> Prop), (forall a b c, R a b -> R a c -> b = c) ->
  forall l m k, Forall2 R l m -> Forall2 R l k -> m = k.
Proof.
  intros A B R F. induction l as [|a l IH]; intros m k H K; inversion H; inversion K; subst; [reflexivity|]. f_equal; eauto.
Qed.

Lemma family_word_inj : forall f g, word (family_word f) = word (family_word g) -> f = g.
Proof. intros f g E. apply word_inj in E. destruct f, g; congruence || discriminate E. Qed.
Lemma chain_eq : forall c c', word (family_word (cn_family c)) = word (family_word (cn_family c')) ->
  JStr (cn_table c) = JStr (cn_table c') -> JStr (cn_chain c) = JStr (cn_chain c') -> c = c'.
Proof.
  intros [f t n] [f' t' n'] E1 E2 E3. cbn [cn_family cn_table cn_chain] in *. apply family_word_inj in E1. injection E2 as <-. injection E3 as <-. congruence.
Qed.

Lemma Some_inj : forall (A : Type) (a b : A), Some a = Some b -> a = b.
Proof. congruence. Qed.

Lemma asks_fun : forall v c c', asks v c -> asks v c' -> c = c'.
Proof.
  intros v c c' A B.
  destruct A as [v w c O (x & X1 & X2)|v w c cm e es O (x & X1 & X2) S|v w c h n O (x & X1 & X2) N];
  inversion B as [v' w' c2 O' (x' & Y1 & Y2) E1 E2|v' w' c2 cm' e' es' O' (x' & Y1 & Y2) S' E1 E2|v' w' c2 h' n' O' (x' & Y1 & Y2) N' E1 E2]; subst.
  all: try (exfalso; pose proof (obj1_key _ _ _ _ _ O O') as E; discriminate E).
  all: rewrite <- (obj1_inv _ _ _ _ O O') in *; rewrite <- (obj1_inv _ _ _ _ X1 Y1) in *;
    pose proof (objs _ _ _ X2 Y2 eq_refl eq_refl) as K.
  - pose proof (Some_inj _ _ _ (K (lit "family"))) as K1. pose proof (Some_inj _ _ _ (K (lit "table"))) as K2.
    pose proof (Some_inj _ _ _ (K (lit "name"))) as K3. rewrite (chain_eq c c2 K1 K2 K3). reflexivity.
  - pose proof (Some_inj _ _ _ (K (lit "family"))) as K1. pose proof (Some_inj _ _ _ (K (lit "table"))) as K2.
    pose proof (Some_inj _ _ _ (K (lit "chain"))) as K3. rewrite (chain_eq c c2 K1 K2 K3).
    pose proof (Some_inj _ _ _ (K (lit "comment"))) as K4. injection K4 as <-.
    pose proof (Some_inj _ _ _ (K (lit "expr"))) as K5. injection K5 as <-.
    rewrite (Forall2_fun _ _ _ says_fun _ _ _ S S'). reflexivity.
  - pose proof (Some_inj _ _ _ (K (lit "family"))) as K1. pose proof (Some_inj _ _ _ (K (lit "table"))) as K2.
    pose proof (Some_inj _ _ _ (K (lit "chain"))) as K3. rewrite (chain_eq c c2 K1 K2 K3).
    pose proof (Some_inj _ _ _ (K (lit "handle"))) as K4. assert (K5 : n = n') by exact K4. subst n'. rewrite (natural_fun _ _ _ N N'). reflexivity.
Qed.

Lemma asks_for_fun : forall v l l', asks_for v l -> asks_for v l' -> l = l'.
Proof.
  intros v l l' (m & O & F) (m' & O' & F'). pose proof (obj1_inv _ _ _ _ O O') as E. injection E as <-.
  exact (Forall2_fun _ _ _ asks_fun _ _ _ F F').
Qed.

(** ** The document *)

Lemma obj_same : forall l, object (JObj (map (fun x => (lit (fst x), snd x)) l)) l.
Proof. intros l. eexists. split; [reflexivity|apply Permutation_refl]. Qed.

Lemma dec_natural : forall n, natural (JNum (fmt_dec n)) n.
Proof. intros n. exists (fmt_dec n). split; [reflexivity|]. split; [apply fmt_dec_nonempty|apply fmt_dec_numeral]. Qed.

Lemma match_says : forall p f r, matches (to_json (ser_match p f r)) p f (to_json r).
Proof.
  intros p f r. unfold ser_match, obj1, field. cbn [to_json map fst snd].
  eexists _, _, _. split; [apply (obj_same [(_, _)])|]. split.
  { eexists. split; [reflexivity|]. cbn [map fst snd].
    eapply Permutation_trans; [|apply Permutation_sym, Permutation_cons_append]. cbn [app]. apply Permutation_refl. }
  split; [apply (obj_same [(_, _)])|]. apply (obj_same [(_, _); (_, _)]).
Qed.
Lemma stmt_says : forall s, says (to_json (ser_stmt s)) s.
Proof.
  intros [v6 a|[p|p]|]; unfold ser_stmt.
  - constructor. exact (match_says (if v6 then "ip6" else "ip") "saddr" (SeStr a)).
  - econstructor; [exact (match_says "tcp" "dport" (SeNum p))|apply dec_natural].
  - econstructor; [exact (match_says "udp" "dport" (SeNum p))|apply dec_natural].
  - constructor. apply (obj_same [(_, _)]).
Qed.
Lemma cmd_asks : forall c, asks (to_json (ser_cmd c)) c.
Proof.
  intros [c|c m e|c h]; unfold ser_cmd, obj1, field, ser_family.
  - econstructor; [apply (obj_same [("flush", _)]%string)|]. eexists. split; [apply (obj_same [("chain", _)]%string)|].
    apply (obj_same [("family", _); ("table", _); ("name", _)]%string).
  - econstructor; [apply (obj_same [("add", _)]%string)| |].
    + eexists. split; [apply (obj_same [("rule", _)]%string)|].
      apply (obj_same [("family", _); ("table", _); ("chain", _); ("expr", JArr _); ("comment", _)]%string).
    + induction e as [|s e IH]; constructor; [apply stmt_says|exact IH].
  - econstructor; [apply (obj_same [("delete", _)]%string)| |].
    + eexists. split; [apply (obj_same [("rule", _)]%string)|].
      apply (obj_same [("family", _); ("table", _); ("chain", _); ("expr", JArr _); ("handle", _)]%string).
    + apply dec_natural.
Qed.
Lemma batch_asks : forall cmds, asks_for (to_json (obj1 "nftables" (SeSeq (map ser_cmd cmds)))) cmds.
Proof.
  intros cmds. eexists. split; [apply (obj_same [("nftables", _)]%string)|].
  induction cmds as [|c r IH]; constructor; [apply cmd_asks|exact IH].
Qed.

Lemma lit_scalar : forall s, Forall scalar (lit s).
Proof.
  induction s as [|a s IH]; [constructor|]. cbn [lit]. constructor; [|exact IH].
  pose proof (Ascii.N_ascii_bounded a). unfold scalar. lia.
Qed.
Lemma stmt_unicode : forall s, unicode_stmt s -> unicode (ser_stmt s).
Proof.
  intros [v6 a|[p|p]|] U; cbn [ser_stmt]; unfold ser_match, obj1, field; cbn [unicode fst snd]; cbn in U;
    repeat split; try apply lit_scalar; try exact U.
Qed.
Lemma cmd_unicode : forall c, unicode_cmd c -> unicode (ser_cmd c).
Proof.
  intros [c|c m e|c h] U; cbn [ser_cmd]; unfold obj1, field, ser_family; cbn [unicode fst snd]; cbn [unicode_cmd] in U.
  - destruct U. repeat split; try apply lit_scalar; assumption.
  - destruct U as ((U1 & U2) & U3 & U4). repeat split; try apply lit_scalar; try assumption.
    induction U4 as [|s e S E IH]; [exact I|]. cbn [map]. split; [apply stmt_unicode; exact S|exact IH].
  - destruct U. repeat split; try apply lit_scalar; assumption.
Qed.

Lemma document_read : forall cmds, Forall unicode_cmd cmds -> read_as (document cmds) cmds.
Proof.
  intros cmds U. set (v := obj1 "nftables" (SeSeq (map ser_cmd cmds))).
  assert (UV : unicode v).
  { subst v. unfold obj1, field. cbn [unicode fst snd]. split; [apply lit_scalar|]. split; [|exact I].
    induction U as [|c r C R IH]; [exact I|]. cbn [map]. split; [apply cmd_unicode; exact C|exact IH]. }
  assert (B : utf8 (document cmds) (print v)).
  { split; [apply print_scalar; exact UV|]. unfold document. fold v. rewrite flat_map_concat_map. reflexivity. }
  assert (J : json_text (print v) (to_json v)) by (apply value_json, print_text; exact UV).
  assert (A : asks_for (to_json v) cmds) by (apply batch_asks).
  split; [exists (print v), (to_json v); auto|].
  intros t w cmds' B' J' A'. apply from_utf8_spec in B, B'. rewrite B in B'. injection B' as <-.
  rewrite (json_text_fun _ _ _ J J') in A. exact (asks_for_fun _ _ _ A' A).
Qed.

(** ** The batches *)

Definition names_unicode (conf : config) : Prop := Forall scalar (c_nft_table conf) /\ Forall scalar (c_nft_chain conf).

Lemma nft_names_unicode : forall conf c, names_unicode conf -> nft_names conf = Ok c -> unicode_chain c.
Proof.
  intros conf c [T C] H. unfold nft_names in H.
  destruct (list_eqb _ _); [|destruct (list_eqb _ _); [|destruct (list_eqb _ _); [|discriminate H]]];
    cbn [bind] in H; destruct (c_nft_table conf) eqn:ET; try discriminate H; destruct (c_nft_chain conf) eqn:EC; try discriminate H;
    injection H as <-; split; assumption.
Qed.
Lemma fmt_ip_scalar : forall a, Forall scalar (fmt_ip a).
Proof. intros a. apply Forall_forall. intros c C. apply fmt_ip_chars in C. unfold scalar. lia. Qed.
Lemma dec_scalar : forall n, Forall scalar (fmt_dec n).
Proof. intros n. apply Forall_forall. intros c C. apply fmt_dec_chars in C. unfold scalar. lia. Qed.
Lemma comment_scalar : forall a p, Forall scalar (rule_comment a p).
Proof.
  intros a p. unfold rule_comment. repeat (apply Forall_app; split); try apply lit_scalar.
  - destruct a; [apply fmt_ip_scalar|apply lit_scalar].
  - destruct p; unfold fmt_single_port; apply Forall_app; split; try apply lit_scalar; apply dec_scalar.
Qed.
Lemma saddr_unicode : forall f a s, match_saddr f a = Ok s -> unicode_stmt s.
Proof.
  intros f a s H. unfold match_saddr in H.
  assert (V4S : forall o, Forall scalar (fmt_ipv4 o)) by (intros o; exact (fmt_ip_scalar (V4 o))).
  assert (V6S : forall o, Forall scalar (fmt_ipv6 o)) by (intros o; exact (fmt_ip_scalar (V6 o))).
  destruct a as [o|o]; [|destruct (to_ipv4_mapped o)]; destruct f; try discriminate H; injection H as <-; cbn; auto.
Qed.
Lemma add_unicode : forall conf a p c, names_unicode conf -> gen_add_cmd conf a p = Ok c -> unicode_cmd c.
Proof.
  intros conf a p c U H. unfold gen_add_cmd in H. destruct (nft_names conf) as [n| |] eqn:N; try discriminate H. cbn [bind] in H.
  destruct a as [a|].
  - destruct (match_saddr (cn_family n) a) as [s| |] eqn:S; try discriminate H. cbn [bind] in H. injection H as <-.
    split; [exact (nft_names_unicode _ _ U N)|]. split; [apply comment_scalar|]. constructor; [exact (saddr_unicode _ _ _ S)|repeat constructor].
  - cbn [bind] in H. injection H as <-.
    split; [exact (nft_names_unicode _ _ U N)|]. split; [apply comment_scalar|]. repeat constructor.
Qed.
Lemma collect_forall : forall (A B : Type) (f : A -> res B) (P : B -> Prop) l r,
  (forall a b, f a = Ok b -> P b) -> collect f l = Ok r -> Forall P r.
Proof.
  intros A B f P. induction l as [|a l IH]; intros r F H; cbn in H; [injection H as <-; constructor|].
  destruct (f a) as [b| |] eqn:E; try discriminate H. cbn [bind] in H. destruct (collect f l) as [k| |] eqn:K; try discriminate H.
  injection H as <-. constructor; eauto.
Qed.
Lemma forall_concat : forall (A : Type) (P : A -> Prop) l, Forall (Forall P) l -> Forall P (concat l).
Proof. intros A P l H. induction H; [constructor|]. cbn. apply Forall_app. auto. Qed.

Lemma lease_cmds_unicode : forall conf l cmds, names_unicode conf -> gen_add_cmds conf l = Ok cmds -> Forall unicode_cmd cmds.
Proof. intros conf l cmds U H. eapply collect_forall; [|exact H]. intros p c. apply add_unicode. exact U. Qed.
Lemma delete_cmds_unicode : forall k conf l cmds, names_unicode conf -> gen_delete_cmds k conf l = Ok cmds -> Forall unicode_cmd cmds.
Proof.
  intros k conf l cmds U H. unfold gen_delete_cmds in H. destruct (nft_names conf) as [n| |] eqn:N; try discriminate H. cbn [bind] in H.
  eapply collect_forall; [|exact H]. intros p c E. cbv beta in E. destruct (find_handle k n (l_addr l) p) as [n0| |]; cbn [bind] in E; try discriminate E. assert (c = CmdDelete n n0) as -> by congruence.
  exact (nft_names_unicode _ _ U N).
Qed.

(** An operation on the kernel ruleset is a batch that is read as it is meant, or
    nothing. *)
Definition by_document (k : kernel) (ok : bool) (out : kernel * res unit) : Prop :=
  (fst out = k /\ snd out <> Ok tt) \/ out = (k, Ok tt)
  \/ exists cmds, read_as (document cmds) cmds /\ out = apply_batch k cmds ok.

Lemma add_by_document : forall conf k l ok, names_unicode conf -> by_document k ok (add_lease conf k l ok).
Proof.
  intros conf k l ok U. unfold add_lease. destruct (gen_add_cmds conf l) as [cmds| |] eqn:E; [|left; split; [reflexivity|discriminate]|left; split; [reflexivity|discriminate]].
  right; right. exists cmds. split; [|reflexivity]. apply document_read. exact (lease_cmds_unicode _ _ _ U E).
Qed.
Lemma remove_by_document : forall conf k ls list_ok ok, names_unicode conf -> by_document k ok (remove_leases conf k ls list_ok ok).
Proof.
  intros conf k ls list_ok ok U. unfold remove_leases. destruct ls as [|l ls]; [right; left; reflexivity|].
  destruct list_ok; [|left; split; [reflexivity|discriminate]].
  destruct (collect (gen_delete_cmds k conf) (l :: ls)) as [cmds| |] eqn:E; [|left; split; [reflexivity|discriminate]|left; split; [reflexivity|discriminate]].
  right; right. exists (concat cmds). split; [|reflexivity]. apply document_read. apply forall_concat.
  eapply collect_forall; [|exact E]. intros x c. apply delete_cmds_unicode. exact U.
Qed.
Lemma rebuild_by_document : forall conf k fw order ok, names_unicode conf -> by_document k ok (full_rebuild conf k fw order ok).
Proof.
  intros conf k fw order ok U. unfold full_rebuild.
  destruct (nft_names conf) as [n| |] eqn:N; [|left; split; [reflexivity|discriminate]|left; split; [reflexivity|discriminate]]. cbn [bind].
  pose proof (nft_names_unicode _ _ U N) as UN.
  destruct (fw_shutdown fw); cbn [bind].
  - right; right. exists [CmdFlush n]. split; [|reflexivity]. apply document_read. repeat constructor; apply UN.
  - destruct (collect (gen_add_cmd conf None) (ctrl_ports conf)) as [ctrl| |] eqn:C; [|left; split; [reflexivity|discriminate]|left; split; [reflexivity|discriminate]]. cbn [bind].
    destruct (collect (gen_add_cmds conf) (order (map snd (fw_leases fw)))) as [ls| |] eqn:L; [|left; split; [reflexivity|discriminate]|left; split; [reflexivity|discriminate]]. cbn [bind].
    right; right. eexists. split; [|reflexivity]. apply document_read. constructor; [exact UN|]. apply Forall_app. split.
    + eapply collect_forall; [|exact C]. intros p c. apply add_unicode. exact U.
    + apply forall_concat. eapply collect_forall; [|exact L]. intros x c. apply lease_cmds_unicode. exact U.
Qed.

(** ** The configured names are Unicode *)

Section Chars.
  Context (P : N -> Prop).
  Lemma trim_start_all : forall t, Forall P t -> Forall P (trim_start t).
  Proof. induction t as [|c t IH]; intros H; [exact H|]. cbn. destruct (is_white c); [|exact H]. inversion H; auto. Qed.
  Lemma trim_end_all : forall t, Forall P t -> Forall P (trim_end t).
  Proof.
    induction t as [|c t IH]; intros H; [exact H|]. cbn. inversion H; subst. specialize (IH H3).
    destruct (trim_end t); [destruct (is_white c); auto|]. constructor; assumption.
  Qed.
  Lemma trim_all : forall t, Forall P t -> Forall P (trim t).
  Proof. intros t H. apply trim_end_all, trim_start_all. exact H. Qed.
  Lemma strip_last_all : forall c t r, strip_last c t = Some r -> Forall P t -> Forall P r.
  Proof.
    intros c. induction t as [|x t IH]; intros r E H; [discriminate|]. inversion H; subst. cbn in E. destruct t as [|y t].
    - destruct (x =? c); [|discriminate]. injection E as <-. constructor.
    - destruct (strip_last c (y :: t)) as [k|]; [|discriminate]. injection E as <-. constructor; auto.
  Qed.
  Lemma lines_acc_all : forall t acc, Forall P t -> Forall P acc -> Forall (Forall P) (lines_acc acc t).
  Proof.
    induction t as [|c t IH]; intros acc T A; cbn.
    - destruct acc; [constructor|]. constructor; [|constructor]. apply Forall_rev. exact A.
    - inversion T; subst. destruct (c =? 10); [|apply IH; auto]. constructor; [|apply IH; auto].
      unfold strip_cr. destruct (strip_last 13 (rev acc)) eqn:E; [eapply strip_last_all; [exact E|]|]; apply Forall_rev; exact A.
  Qed.
  Lemma cut_at_all : forall sep t a b, cut_at sep t = Some (a, b) -> Forall P t -> Forall P b.
  Proof.
    intros sep. induction t as [|c t IH]; intros a b E H; [discriminate|]. inversion H; subst. cbn in E.
    destruct (c =? sep); [injection E as <- <-; assumption|]. destruct (cut_at sep t) as [[x y]|] eqn:C; [|discriminate].
    injection E as <- <-. eapply IH; eauto.
  Qed.
  Definition omap_all (o : omap) : Prop := Forall (fun x => Forall P (snd x)) o.
  Definition ini_all (i : ini) : Prop := Forall (fun x => omap_all (snd x)) i.
  Lemma oset_all : forall o k v, omap_all o -> Forall P v -> omap_all (oset o k v).
  Proof.
    intros o k v O V. induction O as [|[x y] o H O IH]; cbn; [repeat constructor; exact V|].
    destruct (list_eqb x k); constructor; auto.
  Qed.
  Lemma sset_all : forall i s o, ini_all i -> omap_all o -> ini_all (sset i s o).
  Proof.
    intros i s o I O. induction I as [|[x y] i H I IH]; cbn; [repeat constructor; exact O|].
    destruct (list_eqb x s); constructor; auto.
  Qed.
  Lemma sget_all : forall i s o, ini_all i -> sget i s = Some o -> omap_all o.
  Proof.
    intros i s o I. induction I as [|[x y] i H I IH]; cbn; [discriminate|].
    destruct (list_eqb x s); [intros E; injection E as <-; exact H|exact IH].
  Qed.
  Lemma oget_all : forall o k v, omap_all o -> oget o k = Some v -> Forall P v.
  Proof.
    intros o k v O. induction O as [|[x y] o H O IH]; cbn; [discriminate|].
    destruct (list_eqb x k); [intros E; injection E as <-; exact H|exact IH].
  Qed.
  Lemma parse_line_all : forall i s l i' s', ini_all i -> Forall P l -> parse_line i s l = Ok (i', s') -> ini_all i'.
  Proof.
    intros i s l i' s' I L H. unfold parse_line in H. apply trim_start_all in L.
    destruct (trim_start l) as [|c r] eqn:T; [injection H as <- _; exact I|].
    destruct (c =? 35); [injection H as <- _; exact I|]. destruct (c =? 91).
    - destruct (strip_last 93 (trim_end (c :: r))) as [x|]; [|discriminate]. destruct (tl x) as [|y z] eqn:TX; [discriminate|].
      destruct (sget i (y :: z)); [discriminate|]. injection H as <- _. apply sset_all; [exact I|constructor].
    - destruct s as [s|]; [|discriminate]. destruct (cut_at 61 (c :: r)) as [[[|a n] v]|] eqn:C; try discriminate.
      destruct (sget i s) as [o|] eqn:G; [|discriminate]. injection H as <- _.
      apply sset_all; [exact I|]. apply oset_all; [exact (sget_all _ _ _ I G)|exact (cut_at_all _ _ _ _ C L)].
  Qed.
  Lemma parse_lines_all : forall ls i s i', ini_all i -> Forall (Forall P) ls -> parse_lines i s ls = Ok i' -> ini_all i'.
  Proof.
    induction ls as [|l ls IH]; intros i s i' I L H; cbn [parse_lines] in H; [injection H as <-; exact I|].
    inversion L; subst. destruct (parse_line i s l) as [[i2 s2]| |] eqn:E; try discriminate H. cbn [bind fst snd] in H.
    eapply IH; [|eassumption|exact H]. exact (parse_line_all _ _ _ _ _ I H2 E).
  Qed.
End Chars.

Lemma loaded_names : forall fraction order v path file conf,
  conf_load fraction order (conf_new v) path file = (conf, Ok tt) -> names_unicode conf.
Proof.
  intros fraction order v path file conf H. unfold conf_load in H.
  destruct (ini_from_file file) as [i|e|] eqn:F.
  2: { destruct v; cbn in H; [discriminate H|injection H as <-; split; constructor]. }
  2: { discriminate. }
  assert (A : ini_all scalar i).
  { unfold ini_from_file in F. destruct file as [bs|]; [|discriminate]. destruct (from_utf8 bs) as [t|] eqn:U; [|discriminate].
    apply from_utf8_spec in U. destruct U as [U _]. unfold parse_str in F.
    eapply parse_lines_all; [| |exact F]; [constructor|]. apply lines_acc_all; [exact U|constructor]. }
  assert (G : forall s k t, get i s k = Some t -> Forall scalar t).
  { intros s k t E. unfold get, ini_get in E. destruct (sget i (lit s)) as [o|] eqn:S; [|discriminate].
    exact (oget_all _ _ _ _ (sget_all _ _ _ _ A S) E). }
  unfold load_ini in H.
  assert (T : Forall scalar (get_nft_table i) /\ Forall scalar (get_nft_chain i)).
  { unfold get_nft_table, get_nft_chain. split.
    - destruct (get i "NFTABLES" "table") eqn:E; [apply trim_all; eauto|constructor].
    - destruct (get i "NFTABLES" "chain-input") eqn:E; [apply trim_all; eauto|constructor]. }
  destruct v; cbn [c_variant conf_new] in H;
    repeat match type of H with context[bind ?x _] => destruct x; cbn [bind] in H; try discriminate H end;
    injection H as <-; [exact T|split; constructor].
Qed.
