(** Lemmas for the start of the daemons. *)

From Coq Require Import String ZArith NArith List Bool Lia ZifyBool ZifyNat ZifyN.
From Verif Require Import M_Base M_ConfTypes M_Text M_Str M_Utf8 M_Conf M_Start S_Text S_Start
  P_Base P_Text P_Str P_Utf8 P_Conf P_Load P_Gen.
Import ListNotations.
Local Open Scope N_scope.

Lemma read_text_spec : forall f t, read_text f = Ok t <-> file_text f t.
Proof.
  intros f t. unfold read_text, file_text. destruct f as [b|].
  - destruct (from_utf8 b) as [u|] eqn:E.
    + apply from_utf8_spec in E. split.
      * intros [= <-]. eauto.
      * intros (b' & [= <-] & U). apply from_utf8_spec in E, U. congruence.
    + split; [discriminate|]. intros (b' & [= <-] & U). apply from_utf8_spec in U. congruence.
  - split; [discriminate|]. intros (b & X & _). discriminate.
Qed.
Lemma read_text_no_panic : forall f, read_text f <> Panic.
Proof. intros [b|]; unfold read_text; [destruct (from_utf8 b)|]; discriminate. Qed.

Lemma file_text_fun : forall f a b, file_text f a -> file_text f b -> a = b.
Proof. intros f a b A B. apply read_text_spec in A, B. congruence. Qed.

Lemma parse_i32_spec : forall t z, parse_i32 t = Ok z <-> i32_text t z.
Proof.
  intros t z. unfold parse_i32, i32_text.
  assert (POS : (forall r, t <> 45 :: r) ->
    (do v <- from_str_radix 2147483648 10 t; Ok (Z.of_N v))%res = Ok z <->
    exists ds v, ds <> [] /\ numeral 10 ds v
    /\ (((t = ds \/ t = 43 :: ds) /\ z = Z.of_N v /\ v < 2147483648)
        \/ (t = 45 :: ds /\ z = (- Z.of_N v)%Z /\ v <= 2147483648))).
  { intros NM. split.
    - intros H. destruct (from_str_radix 2147483648 10 t) as [v| |] eqn:E; try discriminate.
      injection H as <-. apply from_str_radix_spec in E; [|lia..]. destruct E as ((ds & NE & NU & T) & L).
      exists ds, v. split; [exact NE|]. split; [exact NU|]. left. auto.
    - intros (ds & v & NE & NU & [(T & -> & L)|(T & _)]); [|exfalso; eapply NM; eauto].
      assert (E : from_str_radix 2147483648 10 t = Ok v).
      { apply from_str_radix_spec; [lia..|]. split; [exists ds; auto|exact L]. }
      rewrite E. reflexivity. }
  destruct t as [|c r]; [apply POS; discriminate|].
  destruct (N.eq_dec c 45) as [->|NC].
  - destruct r as [|d r'].
    + split; [discriminate|]. intros (ds & v & NE & NU & [([<-|T] & _)|(T & _)]).
      * exfalso. destruct (numeral_digits _ _ _ NU 45 (or_introl eq_refl)) as (d & D). unfold digit in D. lia.
      * discriminate.
      * injection T as <-. congruence.
    + split.
      * intros H. destruct (radix_digits 2147483649 10 0 (d :: r')) as [v| |] eqn:E; try discriminate.
        injection H as <-. apply radix_digits_numeral in E; [|lia..]. destruct E as (NU & L).
        exists (d :: r'), v. split; [discriminate|]. split; [exact NU|]. right. split; [reflexivity|]. split; [reflexivity|lia].
      * intros (ds & v & NE & NU & [([<-|T] & _)|(T & -> & L)]).
        -- exfalso. destruct (numeral_digits _ _ _ NU 45 (or_introl eq_refl)) as (x & D). unfold digit in D. lia.
        -- discriminate.
        -- injection T as <-.
           assert (E : radix_digits 2147483649 10 0 (d :: r') = Ok v) by (apply radix_digits_numeral; [lia..|]; split; [exact NU|lia]).
           rewrite E. reflexivity.
  - assert (NM : forall r0, c :: r <> 45 :: r0) by (intros r0 X; congruence).
    specialize (POS NM).
    replace (match c with 45 => match r with [] => Err "invalid digit" | _ :: _ =>
        (do v <- radix_digits 2147483649 10 0 r; Ok (- Z.of_N v)%Z)%res end
      | _ => (do v <- from_str_radix 2147483648 10 (c :: r); Ok (Z.of_N v))%res end)
      with (do v <- from_str_radix 2147483648 10 (c :: r); Ok (Z.of_N v))%res; [exact POS|].
    destruct c as [|p]; [reflexivity|].
    repeat (destruct p as [p|p|]; try reflexivity). congruence.
Qed.

Lemma parse_i32_no_panic : forall t, parse_i32 t <> Panic.
Proof.
  assert (P : forall t, (do v <- from_str_radix 2147483648 10 t; Ok (Z.of_N v))%res <> Panic).
  { intros t. destruct (from_str_radix 2147483648 10 t) eqn:E; try discriminate.
    exfalso. eapply from_str_radix_no_panic; exact E. }
  intros [|c r]; [apply P|]. unfold parse_i32.
  destruct c as [|p]; [apply P|].
  repeat (destruct p as [p|p|]; try apply P).
  destruct r as [|d r]; [discriminate|].
  destruct (radix_digits 2147483649 10 0 (d :: r)) eqn:E; try discriminate.
  exfalso. eapply radix_digits_no_panic; exact E.
Qed.

Lemma get_pid_spec : forall f pid, get_letmeind_pid f = Ok pid <-> pid_file_says f pid.
Proof.
  intros f pid. unfold get_letmeind_pid, pid_file_says. split.
  - intros H. destruct (read_text f) as [t| |] eqn:E; try discriminate.
    exists t, (trim t). split; [apply read_text_spec; exact E|]. split; [apply trim_padded|].
    apply parse_i32_spec. exact H.
  - intros (t & body & FT & P & I). apply read_text_spec in FT. rewrite FT. apply padded_trim in P. subst body.
    apply parse_i32_spec in I. exact I.
Qed.
Lemma get_pid_no_panic : forall f, get_letmeind_pid f <> Panic.
Proof.
  intros f. unfold get_letmeind_pid. destruct (read_text f) as [t| |] eqn:E; try discriminate.
  - apply parse_i32_no_panic.
  - exfalso. eapply read_text_no_panic; eauto.
Qed.

Lemma i32_text_fun : forall t a b, i32_text t a -> i32_text t b -> a = b.
Proof. intros t a b A B. apply parse_i32_spec in A, B. congruence. Qed.
Lemma pid_file_fun : forall f a b, pid_file_says f a -> pid_file_says f b -> a = b.
Proof. intros f a b A B. apply get_pid_spec in A, B. congruence. Qed.

(** ASCII is UTF-8. *)
Lemma ascii_utf8 : forall t, (forall c, In c t -> c < 128) -> utf8 t t.
Proof.
  intros t H. unfold utf8. split.
  - apply Forall_forall. intros c I. specialize (H c I). unfold scalar. lia.
  - induction t as [|c r IH]; [reflexivity|]. simpl.
    rewrite <- IH by (intros d D; apply H; right; exact D).
    unfold utf8_char. specialize (H c (or_introl eq_refl)). destruct (N.ltb_spec c 128); [reflexivity|lia].
Qed.

Lemma fmt_dec_numeral : forall n, numeral 10 (fmt_dec n) n.
Proof.
  assert (G : forall t, (forall c, In c t -> 48 <= c < 58) -> numeral 10 t (text_val LOWER 10 t)).
  { induction t as [|c t IH] using rev_ind; intros D; [constructor|].
    unfold text_val. rewrite fold_left_app. simpl. constructor.
    - apply IH. intros x I. apply D. apply in_or_app. auto.
    - assert (B : 48 <= c < 58) by (apply D; apply in_or_app; right; left; reflexivity).
      unfold digit, digit_val. destruct (N.ltb_spec c 58); lia. }
  intros n. destruct (fmt_radix_spec LOWER 10 n) as (_ & V & _); try (vm_compute; congruence).
  pose proof (G (fmt_dec n) (fmt_dec_chars n)) as H. unfold fmt_dec in *. rewrite V in H. exact H.
Qed.

Lemma own_pid_file : forall p, p < 2147483648 -> pid_file_says (Some (pidfile_content p)) (Z.of_N p).
Proof.
  intros p L. exists (fmt_dec p ++ [10]), (fmt_dec p). unfold pidfile_content. split; [|split].
  - exists (fmt_dec p ++ [10]). split; [reflexivity|]. apply ascii_utf8. intros c I.
    apply in_app_or in I. destruct I as [I|[<-|[]]]; [apply fmt_dec_chars in I|]; lia.
  - exists [], [10]. split; [reflexivity|]. split; [intros c []|]. split; [intros c [<-|[]]; unfold white_space; simpl; auto|].
    assert (NW : forall c, In c (fmt_dec p) -> ~ white_space c).
    { intros c I W. apply fmt_dec_chars in I. unfold white_space in W. simpl in W. lia. }
    split; intros; apply NW; [rewrite H; left; reflexivity|rewrite H; apply in_or_app; right; left; reflexivity].
  - exists (fmt_dec p), p. split; [apply fmt_dec_nonempty|]. split; [apply fmt_dec_numeral|]. left. auto.
Qed.

(** ** Peer check *)

Lemma fw_accept_spec : forall ids f stream c,
  fw_accept false ids f stream = Ok c <->
  stream = Ok c /\ exists pid, cr_pid c = Some pid /\ pid_file_says f pid /\ cr_uid c = fst ids /\ cr_gid c = snd ids.
Proof.
  intros ids f stream c. unfold fw_accept. split.
  - intros H. destruct stream as [d| |]; try discriminate. simpl in H.
    destruct (cr_pid d) as [pid|] eqn:P; [|discriminate].
    destruct (get_letmeind_pid f) as [e| |] eqn:G; try discriminate. simpl in H.
    destruct (Z.eqb_spec pid e) as [->|]; [|discriminate]. simpl in H.
    destruct (N.eqb_spec (cr_uid d) (fst ids)); [|discriminate]. simpl in H.
    destruct (N.eqb_spec (cr_gid d) (snd ids)); [|discriminate]. simpl in H. injection H as <-.
    split; [reflexivity|]. exists e. apply get_pid_spec in G. auto.
  - intros (-> & pid & P & F & U & G). simpl. rewrite P. apply get_pid_spec in F. rewrite F. simpl.
    rewrite Z.eqb_refl, U, G, !N.eqb_refl. reflexivity.
Qed.
Lemma fw_accept_no_panic : forall tm ids f stream, stream <> Panic -> fw_accept tm ids f stream <> Panic.
Proof.
  intros tm ids f stream NP. unfold fw_accept. destruct stream as [d| |]; try discriminate; [|congruence]. simpl.
  destruct (cr_pid d); [|discriminate]. destruct (get_letmeind_pid f) eqn:G; try discriminate.
  - simpl. destruct (negb _); [discriminate|]. destruct tm; [discriminate|].
    destruct (negb _); [discriminate|]. destruct (negb _); discriminate.
  - exfalso. eapply get_pid_no_panic; eauto.
Qed.

(** ** User database *)

Lemma account_line_split : forall l name fs, account_line l name fs <-> split_on 58 l = name :: fs.
Proof. intros. unfold account_line. rewrite split_on_separated. reflexivity. Qed.

Lemma find_account_spec : forall name ls id,
  find_account name ls = Ok id <->
  exists pre l post fields idt, ls = pre ++ l :: post
    /\ (forall m fs, In m pre -> ~ account_line m name fs)
    /\ account_line l name fields /\ nth_error fields 1 = Some idt
    /\ number 10 idt id /\ id < 4294967296.
Proof.
  intros name ls id. induction ls as [|l r IH].
  - simpl. split; [discriminate|]. intros (pre & l & post & fields & idt & E & _). destruct pre; discriminate.
  - simpl. destruct (split_on 58 l) as [|n fields] eqn:S; [exfalso; eapply split_on_nonempty; eauto|].
    destruct (list_eqb n name) eqn:Q.
    + apply list_eqb_spec in Q. subst n. split.
      * intros H. destruct fields as [|f1 [|idt fs]]; try discriminate.
        apply from_str_radix_spec in H; [|unfold U32_BOUND; lia..]. destruct H as (NU & L).
        exists [], l, r, (f1 :: idt :: fs), idt. split; [reflexivity|]. split; [intros ? ? []|].
        split; [apply account_line_split; exact S|]. split; [reflexivity|]. auto.
      * intros (pre & l' & post & fields' & idt & E & NP & AL & NE & NU & L).
        destruct pre as [|m pre].
        -- injection E as <- <-. apply account_line_split in AL. rewrite S in AL. injection AL as <-.
           destruct fields as [|f1 [|x fs]]; try discriminate. simpl in NE. injection NE as ->.
           apply from_str_radix_spec; [unfold U32_BOUND; lia..|]. auto.
        -- injection E as <- ->. exfalso. eapply NP; [left; reflexivity|]. apply account_line_split. exact S.
    + assert (NAL : forall fs, ~ account_line l name fs).
      { intros fs A. apply account_line_split in A. rewrite S in A. injection A as -> ->. rewrite list_eqb_refl in Q. discriminate. }
      rewrite IH. split.
      * intros (pre & l' & post & fields' & idt & -> & NP & R).
        exists (l :: pre), l', post, fields', idt. split; [reflexivity|]. split; [|exact R].
        intros m fs [<-|I]; [apply NAL|apply NP; exact I].
      * intros (pre & l' & post & fields' & idt & E & NP & AL & R). destruct pre as [|m pre].
        -- injection E as <- <-. exfalso. eapply NAL; eauto.
        -- injection E as <- ->. exists pre, l', post, fields', idt. split; [reflexivity|]. split; [|auto].
           intros m fs I. apply NP. right. exact I.
Qed.

Lemma os_get_id_spec : forall f name id, os_get_id f name = Ok id <-> account f name id.
Proof.
  intros f name id. unfold os_get_id, account. split.
  - intros H. destruct (read_text f) as [t| |] eqn:E; try discriminate. simpl in H.
    apply find_account_spec in H. destruct H as (pre & l & post & fields & idt & E' & R).
    exists t, (lines t), pre, l, post, fields, idt. split; [apply read_text_spec; exact E|].
    split; [apply lines_spec|]. auto.
  - intros (t & ls & pre & l & post & fields & idt & FT & LO & R).
    apply read_text_spec in FT. rewrite FT. simpl.
    rewrite (lines_of_fun _ _ (lines_spec t) _ LO). apply find_account_spec.
    exists pre, l, post, fields, idt. exact R.
Qed.
Lemma os_get_id_no_panic : forall f name, os_get_id f name <> Panic.
Proof.
  intros f name. unfold os_get_id. destruct (read_text f) as [t| |] eqn:E; try discriminate.
  - simpl. induction (lines t) as [|l r IH]; [discriminate|]. simpl.
    destruct (split_on 58 l) as [|n fields]; [discriminate|]. destruct (list_eqb n name); [|exact IH].
    destruct fields as [|a [|b fs]]; try discriminate. apply from_str_radix_no_panic.
  - exfalso. eapply read_text_no_panic; eauto.
Qed.

Lemma read_etc_passwd_spec : forall passwd group ids,
  read_etc_passwd false passwd group = Ok ids <->
  account passwd (lit "letmeind") (fst ids) /\ account group (lit "letmeind") (snd ids).
Proof.
  intros passwd group [u g]. cbn [fst snd]. rewrite <- !os_get_id_spec. unfold read_etc_passwd.
  split.
  - intros H. destruct (os_get_id passwd (lit "letmeind")) as [u'| |]; try discriminate. cbn [bind] in H.
    destruct (os_get_id group (lit "letmeind")) as [g'| |]; try discriminate. cbn [bind] in H.
    injection H as <- <-. auto.
  - intros (-> & ->). reflexivity.
Qed.

(** ** Sockets *)

Lemma mem_N_In : forall x l, mem_N x l = true <-> In x l.
Proof. intros x l. unfold mem_N. rewrite existsb_exists. split; [intros (y & I & E); apply N.eqb_eq in E; subst; exact I|intros I; exists x; split; [exact I|apply N.eqb_refl]]. Qed.

Lemma kernel_says_spec : forall i type families,
  is_socket i && is_some_of (get_socket_type i) [type] && is_some_of (get_socket_family i) families = true
  <-> kernel_says i type families.
Proof.
  intros i type families. rewrite !andb_true_iff. unfold kernel_says, is_socket, get_socket_type, get_socket_family.
  assert (A : (match fd_stat i with Some mode => N.land mode S_IFMT =? S_IFSOCK | None => false end) = true
    <-> exists mode, fd_stat i = Some mode /\ N.land mode 61440 = 49152).
  { destruct (fd_stat i) as [mode|]; unfold S_IFMT, S_IFSOCK; [rewrite N.eqb_eq|]; split.
    - eauto.
    - intros (m & [= <-] & E). exact E.
    - discriminate.
    - intros (m & X & _). discriminate. }
  assert (B : is_some_of (match fd_type i with Some (n, t) => if 4 <=? n then Some t else None | None => None end) [type] = true
    <-> exists n, fd_type i = Some (n, type) /\ 4 <= n).
  { destruct (fd_type i) as [[n t]|].
    - destruct (N.leb_spec 4 n); cbn [is_some_of].
      + rewrite mem_N_In. split; [intros [<-|[]]; eauto|intros (n' & [= <- <-] & _); left; reflexivity].
      + split; [discriminate|intros (n' & [= <- <-] & L); lia].
    - split; [discriminate|intros (n & X & _); discriminate]. }
  assert (C : is_some_of (match fd_name i with Some (n, t) => if 16 <=? n then Some t else None | None => None end) families = true
    <-> exists n f, fd_name i = Some (n, f) /\ 16 <= n /\ In f families).
  { destruct (fd_name i) as [[n t]|].
    - destruct (N.leb_spec 16 n); cbn [is_some_of].
      + rewrite mem_N_In. split; [intros I; exists n, t; auto|intros (n' & f & [= <- <-] & _ & I); exact I].
      + split; [discriminate|intros (n' & f & [= <- <-] & L & _); lia].
    - split; [discriminate|intros (n & f & X & _); discriminate]. }
  rewrite A, B, C. tauto.
Qed.
Lemma udp_fd_spec : forall i, is_udp_socket i = true <-> udp_fd i.
Proof. intros i. apply kernel_says_spec. Qed.
Lemma tcp_fd_spec : forall i, is_tcp_socket i = true <-> tcp_fd i.
Proof. intros i. apply kernel_says_spec. Qed.
Lemma unix_fd_spec : forall i, is_unix_socket i = true <-> unix_fd i.
Proof. intros i. apply kernel_says_spec. Qed.

Lemma kinds_differ : forall i, (udp_fd i -> ~ tcp_fd i) /\ (udp_fd i -> ~ unix_fd i) /\ (tcp_fd i -> ~ unix_fd i).
Proof.
  intros i. unfold udp_fd, tcp_fd, unix_fd, kernel_says.
  split; [|split]; intros (_ & (n & T & _) & (m & f & F & _ & I)) (_ & (n' & T' & _) & (m' & f' & F' & _ & I'));
    rewrite T in T'; injection T' as E; try discriminate.
  rewrite F in F'. injection F' as -> ->. simpl in *. lia.
Qed.

Lemma sort_fds_spec : forall ft fds l, sort_fds ft fds = Ok l <-> Forall2 (sorted_as ft) fds l.
Proof.
  intros ft fds. induction fds as [|i r IH]; intros l.
  - simpl. split; [intros [= <-]; constructor|intros H; inversion H; reflexivity].
  - assert (STEP : forall s, sorted_as ft i s -> (forall s', sorted_as ft i s' -> s' = s) ->
        (match sort_fds ft r with Ok l0 => Ok (s :: l0) | e => e end) = Ok l <-> Forall2 (sorted_as ft) (i :: r) l).
    { intros s S U. split.
      - intros H. destruct (sort_fds ft r) as [l0| |]; try discriminate. injection H as <-.
        constructor; [exact S|apply IH; reflexivity].
      - intros H. inversion H as [|? s' ? l0 A B]; subst. apply IH in B. rewrite B. rewrite (U s' A). reflexivity. }
    cbn [sort_fds]. destruct (kinds_differ i) as (D1 & D2 & D3).
    destruct (ft_udp ft && is_udp_socket i) eqn:EU; [|destruct (ft_tcp ft && is_tcp_socket i) eqn:ET; [|destruct (ft_unix ft && is_unix_socket i) eqn:EX]].
    + apply andb_true_iff in EU. destruct EU as (F & K). apply udp_fd_spec in K. apply STEP.
      * simpl. auto.
      * intros [fd|fd|fd] (-> & K' & _); [reflexivity|exfalso; eapply D1; eauto|exfalso; eapply D2; eauto].
    + apply andb_true_iff in ET. destruct ET as (F & K). apply tcp_fd_spec in K. apply STEP.
      * simpl. auto.
      * intros [fd|fd|fd] (-> & K' & _); [exfalso; eapply D1; eauto|reflexivity|exfalso; eapply D3; eauto].
    + apply andb_true_iff in EX. destruct EX as (F & K). apply unix_fd_spec in K. apply STEP.
      * simpl. auto.
      * intros [fd|fd|fd] (-> & K' & _); [exfalso; eapply D2; eauto|exfalso; eapply D3; eauto|reflexivity].
    + split; [discriminate|]. intros H. inversion H as [|? s ? l0 A B]; subst. exfalso.
      destruct s as [fd|fd|fd]; destruct A as (_ & K & F).
      * apply udp_fd_spec in K. rewrite F, K in EU. discriminate.
      * apply tcp_fd_spec in K. rewrite F, K in ET. discriminate.
      * apply unix_fd_spec in K. rewrite F, K in EX. discriminate.
Qed.

(** ** Listeners of letmeind *)

Fixpoint tcp_of (l : list systemd_socket) : list N :=
  match l with [] => [] | SdTcp fd :: r => fd :: tcp_of r | _ :: r => tcp_of r end.
Fixpoint udp_of (l : list systemd_socket) : list N :=
  match l with [] => [] | SdUdp fd :: r => fd :: udp_of r | _ :: r => udp_of r end.

Definition taken (on : bool) (before : option listener) (fds : list N) (after : option listener) : Prop :=
  match before with
  | Some x => fds = [] /\ after = Some x
  | None => if on then match fds with [] => after = None | [fd] => after = Some (LSystemd fd) | _ => False end
            else after = None
  end.

Lemma take_sockets_spec : forall os cp l tcp udp tcp' udp',
  take_sockets os cp l tcp udp = Ok (tcp', udp') ->
  taken (cp_tcp cp) tcp (tcp_of l) tcp' /\ taken (cp_udp cp) udp (udp_of l) udp' /\ (forall fd, ~ In (SdUnix fd) l).
Proof.
  intros os cp l. induction l as [|s r IH]; intros tcp udp tcp' udp' H.
  - simpl in H. injection H as <- <-. unfold taken. simpl. split; [|split]; [| |intros fd []];
      [destruct tcp, (cp_tcp cp)|destruct udp, (cp_udp cp)]; auto.
  - simpl in H. destruct s as [fd|fd|fd]; [| |discriminate].
    + destruct udp as [u|]; [discriminate|]. destruct (cp_udp cp) eqn:C.
      * simpl in H. destruct (os_adopt os fd); [|discriminate]. apply IH in H. destruct H as (A & B & D).
        split; [exact A|]. split; [|intros x [X|I]; [discriminate|eapply D; eauto]].
        simpl in *. unfold taken in B. destruct B as (-> & ->). reflexivity.
      * simpl in H. apply IH in H. destruct H as (A & B & D). split; [exact A|]. split; [|intros x [X|I]; [discriminate|eapply D; eauto]].
        simpl in *. rewrite ?C in *. exact B.
    + destruct tcp as [u|]; [discriminate|]. destruct (cp_tcp cp) eqn:C.
      * simpl in H. destruct (os_adopt os fd); [|discriminate]. apply IH in H. destruct H as (A & B & D).
        split; [|split; [exact B|intros x [X|I]; [discriminate|eapply D; eauto]]].
        simpl in *. unfold taken in A. destruct A as (-> & ->). reflexivity.
      * simpl in H. apply IH in H. destruct H as (A & B & D). split; [|split; [exact B|intros x [X|I]; [discriminate|eapply D; eauto]]].
        simpl in *. rewrite ?C in *. exact A.
Qed.

Lemma in_tcp_of : forall l fd, In fd (tcp_of l) <-> In (SdTcp fd) l.
Proof. induction l as [|[x|x|x] r IH]; intros fd; simpl; rewrite ?IH; intuition congruence. Qed.
Lemma in_udp_of : forall l fd, In fd (udp_of l) <-> In (SdUdp fd) l.
Proof. induction l as [|[x|x|x] r IH]; intros fd; simpl; rewrite ?IH; intuition congruence. Qed.

Lemma server_new_cases : forall os cp ns sockets tcp udp,
  server_new os cp ns sockets = Ok (tcp, udp) ->
  (exists l, ns = false /\ sockets = Ok l /\ take_sockets os cp l None None = Ok (tcp, udp)
     /\ (tcp <> None \/ udp <> None))
  \/ ((ns = true \/ exists l, ns = false /\ sockets = Ok l /\ take_sockets os cp l None None = Ok (None, None))
      /\ tcp = (if cp_tcp cp then Some (LBound (cp_port cp)) else None)
      /\ udp = (if cp_udp cp then Some (LBound (cp_port cp)) else None)).
Proof.
  intros os cp ns sockets tcp udp H. unfold server_new in H.
  assert (BIND : forall P : Prop, P ->
    (do tcp0 <- (if cp_tcp cp then (if os_bind_tcp os then Ok (Some (LBound (cp_port cp))) else Err "Bind") else Ok None);
     do udp0 <- (if cp_udp cp then (if os_bind_udp os then Ok (Some (LBound (cp_port cp))) else Err "Bind") else Ok None);
     Ok (tcp0, udp0))%res = Ok (tcp, udp) ->
    P /\ tcp = (if cp_tcp cp then Some (LBound (cp_port cp)) else None)
      /\ udp = (if cp_udp cp then Some (LBound (cp_port cp)) else None)).
  { intros P p B. split; [exact p|].
    destruct (cp_tcp cp), (cp_udp cp), (os_bind_tcp os), (os_bind_udp os); simpl in B; try discriminate; injection B as <- <-; auto. }
  destruct ns.
  - right. apply BIND; auto.
  - destruct sockets as [l| |]; try discriminate. cbn [bind] in H.
    destruct (take_sockets os cp l None None) as [[t u]| |] eqn:T; try discriminate. cbn [bind fst snd] in H.
    destruct t as [t|]; [|destruct u as [u|]]; cbn [is_some orb andb] in H.
    + destruct (os_notify os); [|discriminate]. cbn in H. injection H as <- <-. left. exists l.
      split; [reflexivity|]. split; [reflexivity|]. split; [exact T|]. left. discriminate.
    + destruct (os_notify os); [|discriminate]. cbn in H. injection H as <- <-. left. exists l.
      split; [reflexivity|]. split; [reflexivity|]. split; [exact T|]. right. discriminate.
    + right. apply BIND; [right; exists l; auto|exact H].
Qed.
