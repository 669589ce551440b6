(** Lemmas about the main programs. *)

From Coq Require Import String ZArith NArith List Bool Lia Permutation.
From Verif Require Import M_Base M_IpAddr M_ConfTypes M_Text M_Str M_Conf M_Server M_Client M_Firewall M_Start M_Daemon
  M_Seccomp M_Main S_Text S_Conf S_Start S_Seccomp S_Client S_Files S_Firewall S_Main
  P_Base P_Str P_Conf P_Load P_ConfLoad P_Seccomp P_Start P_Client P_FwdProps P_Files Prop_Conf Prop_Seccomp.
Import ListNotations.
Local Open Scope N_scope.

Lemma then_inv : forall (A B : Type) (x : eff A) (k : A -> eff B) tr r, then_ x k = (tr, r) ->
  (exists l a l', x = (l, Ok a) /\ k a = (l', r) /\ tr = l ++ l')
  \/ (exists e, x = (tr, Err e) /\ r = Err e)
  \/ (x = (tr, Panic) /\ r = Panic).
Proof.
  intros A B [l [a|e|]] k tr r H; simpl in H.
  - destruct (k a) as [l' r'] eqn:E. injection H as <- <-. left. exists l, a, l'. auto.
  - injection H as <- <-. eauto.
  - injection H as <- <-. eauto.
Qed.

Lemma then_ok : forall (A B : Type) (x : eff A) (k : A -> eff B) tr b, then_ x k = (tr, Ok b) ->
  exists l a l', x = (l, Ok a) /\ k a = (l', Ok b) /\ tr = l ++ l'.
Proof.
  intros A B x k tr b H. apply then_inv in H. destruct H as [H|[(e & _ & [=])|(_ & [=])]]. exact H.
Qed.

(** Programs without certain effects. *)
Definition without {A : Type} (P : effect -> Prop) (x : eff A) : Prop := forall ev, In ev (fst x) -> ~ P ev.
Lemma without_then : forall (A B : Type) P (x : eff A) (k : A -> eff B),
  without P x -> (forall a, snd x = Ok a -> without P (k a)) -> without P (then_ x k).
Proof.
  intros A B P [l [a|e|]] k X K ev; unfold then_.
  - specialize (K a eq_refl). destruct (k a) as [l' r]. simpl. intros I. apply in_app_or in I.
    destruct I; [apply X|apply K]; assumption.
  - apply X.
  - apply X.
Qed.
Lemma without_nil : forall (A : Type) P (r : res A), without P ([], r).
Proof. intros A P r ev []. Qed.
Lemma without_call : forall P ok l e, (forall ev, In ev l -> ~ P ev) -> without P (call ok l e).
Proof. intros P ok l e H ev I. destruct ok; simpl in I; [apply H; exact I|contradiction]. Qed.

Lemma load_conf_ok : forall fraction order v p file l c, load_conf fraction order v p file = (l, Ok c) ->
  l = [] /\ conf_load fraction order (conf_new v) p file = (c, Ok tt).
Proof.
  intros fraction order v p file l c H. unfold load_conf in H.
  destruct (conf_load fraction order (conf_new v) p file) as [c' [[]|e|]]; try discriminate.
  injection H as <- <-. auto.
Qed.

Lemma server_started : forall fraction order p file c, (forall m, Permutation m (order m)) ->
  conf_load fraction order (conf_new VarServer) p file = (c, Ok tt) ->
  exists ls, started_from fraction VarServer file ls c.
Proof.
  intros fraction order p file c OP H. pose proof H as L. apply (load_cases _ _ OP) in H.
  destruct H as [(ls & c0 & FL & W & _)|[(ls & e & _ & _ & _ & _ & [=])|(_ & [(_ & _ & e & [=])|(V & _)])]]; [|discriminate].
  exists ls, order, p. auto.
Qed.

(** *** letmeind *)

Definition mkdirs (p : path) (d : dir_os) : list effect :=
  match di_meta d with None => [EfMkdir p] | Some _ => [] end.
Definition dir_possible (d : dir_os) : Prop :=
  match di_meta d with None => di_mkdir d = true | Some mode => N.land mode 61440 = 16384 end.
Lemma create_dir_ok : forall p d l u, create_dir_if_not_exists p d = (l, Ok u) <-> l = mkdirs p d /\ dir_possible d.
Proof.
  intros p d l [].
  unfold create_dir_if_not_exists, mkdirs, dir_possible, call, lift, ret. destruct (di_meta d) as [m|].
  - change S_IFMT with 61440. change S_IFDIR with 16384. destruct (N.eqb_spec (N.land m 61440) 16384); simpl;
      split; intros H; try tauto; try discriminate; [injection H as <-; auto|destruct H as (-> & _); reflexivity].
  - destruct (di_mkdir d); split; intros H; try discriminate.
    + injection H as <-. auto.
    + destruct H as (-> & _). reflexivity.
    + destruct H. discriminate.
Qed.

Lemma pidfile_ok : forall p pid o l u, make_pidfile p pid o = (l, Ok u) <->
  l = [EfTruncate p; EfWrite p (pidfile_content pid)] /\ fo_open o = true /\ fo_write o = true.
Proof.
  intros p pid o l []. unfold make_pidfile, call, then_. destruct (fo_open o), (fo_write o); simpl;
    (split; [intros [= <-]; auto|intros (-> & A & B); first [discriminate|reflexivity]]).
Qed.

Definition readies (t u : option listener) : list effect :=
  if from_systemd t || from_systemd u then [EfReady] else [].
Definition letmeind_trace (opts : daemon_opts) (os : letmeind_os) (t u : option listener) (f : option filter)
  : list effect :=
  mkdirs (Under (op_rundir opts) "letmeind") (ld_dir os)
  ++ EfListen t u :: readies t u
  ++ [EfTruncate (Under (op_rundir opts) "letmeind/letmeind.pid");
      EfWrite (Under (op_rundir opts) "letmeind/letmeind.pid") (pidfile_content (ld_pid os));
      EfConfine f; EfServe].

Lemma letmeind_ok : forall fraction order opts os tr conf d,
  letmeind_main fraction order opts os = (tr, Ok (conf, d)) <->
  dir_possible (ld_dir os)
  /\ conf_load fraction order (conf_new VarServer) (op_config opts) (ld_file os) = (conf, Ok tt)
  /\ ld_signals os = true
  /\ (exists t u f, server_new (ld_net os) (c_port conf) (op_no_systemd opts) (ld_sockets os) = Ok (t, u)
      /\ install_seccomp_rules (ld_target os) (ld_install os) LETMEIND_ALLOW
           (match op_seccomp opts with Some m => m | None => c_seccomp conf end) = Ok f
      /\ tr = letmeind_trace opts os t u f)
  /\ fo_open (ld_pidfile os) = true /\ fo_write (ld_pidfile os) = true
  /\ d = daemon_start (op_num_connections opts).
Proof.
  intros fraction order opts os tr conf d. split.
  - intros H. unfold letmeind_main in H.
    apply then_ok in H. destruct H as (l1 & [] & l1' & D & H & ->). apply create_dir_ok in D. destruct D as (-> & DP).
    apply then_ok in H. destruct H as (l2 & conf' & l2' & L & H & ->). apply load_conf_ok in L. destruct L as (-> & L).
    apply then_ok in H. destruct H as (l3 & [] & l3' & S & H & ->).
    apply then_ok in H. destruct H as (l4 & [t u] & l4' & N & H & ->).
    apply then_ok in H. destruct H as (l5 & [] & l5' & E & H & ->).
    apply then_ok in H. destruct H as (l6 & [] & l6' & P & H & ->). apply pidfile_ok in P. destruct P as (-> & PO & PW).
    apply then_ok in H. destruct H as (l7 & f & l7' & F & H & ->).
    apply then_ok in H. destruct H as (l8 & [] & l8' & E2 & H & ->).
    unfold ret in H. injection H as <- <- <-. unfold emit in E, E2. injection E2 as <-. injection E as <-.
    unfold lift in S, N, F. injection S as <- S. injection N as <- N. injection F as <- F.
    destruct (ld_signals os); [|discriminate].
    split; [exact DP|]. split; [exact L|]. split; [reflexivity|]. split; [|auto].
    exists t, u, f. split; [exact N|]. split; [exact F|]. unfold letmeind_trace, readies. reflexivity.
  - intros (DP & L & S & (t & u & f & N & F & ->) & PO & PW & ->). unfold letmeind_main.
    replace (create_dir_if_not_exists _ _)
      with (mkdirs (Under (op_rundir opts) "letmeind") (ld_dir os), Ok tt)
      by (symmetry; apply create_dir_ok; auto).
    replace (load_conf _ _ _ _ _) with (@nil effect, Ok conf) by (unfold load_conf; rewrite L; reflexivity).
    cbn [then_]. rewrite S. cbn [then_ lift]. rewrite N. cbn [then_ lift emit].
    replace (make_pidfile _ _ _) with ([EfTruncate (Under (op_rundir opts) "letmeind/letmeind.pid");
      EfWrite (Under (op_rundir opts) "letmeind/letmeind.pid") (pidfile_content (ld_pid os))], @Ok unit tt)
      by (symmetry; apply pidfile_ok; auto).
    cbn [then_]. rewrite F. cbn [then_ lift ret]. unfold letmeind_trace, readies. cbn [fst snd app].
    destruct (from_systemd t || from_systemd u); reflexivity.
Qed.

(** A certain effect only in programs that succeed. *)
Definition ok_if {A : Type} (P : effect -> Prop) (x : eff A) : Prop :=
  forall ev, In ev (fst x) -> P ev -> exists a, snd x = Ok a.
Lemma ok_if_then : forall (A B : Type) P (x : eff A) (k : A -> eff B),
  without P x -> (forall a, ok_if P (k a)) -> ok_if P (then_ x k).
Proof.
  intros A B P [l [a|e|]] k X K ev I; unfold then_ in *.
  - specialize (K a). destruct (k a) as [l' r] eqn:E. simpl in *. apply in_app_or in I. destruct I as [I|I].
    + intros Pe. exfalso. eapply X; eauto.
    + apply (K ev I).
  - intros Pe. exfalso. eapply X; eauto.
  - intros Pe. exfalso. eapply X; eauto.
Qed.
Lemma ok_if_end : forall (A : Type) P l (a : A), ok_if P (then_ (emit l) (fun _ => ret a)).
Proof. intros A P l a ev I Pe. simpl. eauto. Qed.

Definition is_serve (ev : effect) : Prop := ev = EfServe.
Lemma create_dir_without : forall (P : effect -> Prop) p d, ~ P (EfMkdir p) -> without P (create_dir_if_not_exists p d).
Proof.
  intros P p d N. unfold create_dir_if_not_exists. destruct (di_meta d).
  - destruct (negb _); apply without_nil.
  - apply without_call. intros ev [<-|[]]. exact N.
Qed.
Lemma pidfile_without : forall (P : effect -> Prop) p pid o, ~ P (EfTruncate p) -> (forall c, ~ P (EfWrite p c)) ->
  without P (make_pidfile p pid o).
Proof.
  intros P p pid o A B. apply without_then; [|intros _ _]; apply without_call; intros ev [<-|[]]; auto.
Qed.
Lemma owner_without : forall (P : effect -> Prop) p u g m o, ~ P (EfChown p u g) -> ~ P (EfChmod p m) ->
  without P (set_owner_mode p u g m o).
Proof.
  intros P p u g m o A B. apply without_then; [apply without_call; intros ev []|intros _ _].
  apply without_then; [|intros _ _]; apply without_call; intros ev [<-|[]]; auto.
Qed.
Lemma load_without : forall P fraction order v p file, without P (load_conf fraction order v p file).
Proof.
  intros. unfold load_conf. destruct (conf_load _ _ _ _ _) as [c [|e|]]; apply without_nil.
Qed.
Lemma emit_without : forall (P : effect -> Prop) l, (forall ev, In ev l -> ~ P ev) -> without P (emit l).
Proof. intros P l H ev I. exact (H ev I). Qed.

Lemma letmeind_serves_ok : forall fraction order opts os tr r,
  letmeind_main fraction order opts os = (tr, r) -> In EfServe tr -> exists x, r = Ok x.
Proof.
  intros fraction order opts os tr r H I. change tr with (fst (tr, r)) in I. change r with (snd (tr, r)).
  rewrite <- H in *. revert I. cut (ok_if is_serve (letmeind_main fraction order opts os)).
  { intros K I. exact (K EfServe I eq_refl). }
  unfold letmeind_main, is_serve.
  apply ok_if_then; [apply create_dir_without; discriminate|intros _].
  apply ok_if_then; [apply load_without|intros conf].
  apply ok_if_then; [apply without_nil|intros _].
  apply ok_if_then; [apply without_nil|intros [t u]].
  apply ok_if_then; [apply emit_without|intros _].
  { intros ev [<-|J]; [discriminate|]. destruct (from_systemd _ || _); [destruct J as [<-|[]]; discriminate|destruct J]. }
  apply ok_if_then; [apply pidfile_without; [|intros c]; discriminate|intros _].
  apply ok_if_then; [apply without_nil|intros f]. apply ok_if_end.
Qed.

(** *** letmeinfwd *)

Definition chmods (test : bool) (p : path) (gid mode : N) : list effect :=
  if test then [] else [EfChown p 0 gid; EfChmod p mode].
Definition owner_possible (test : bool) (o : owner_os) : Prop :=
  test = true \/ (ow_stat o = true /\ ow_chown o = true /\ ow_chmod o = true).
Lemma chmods_ok : forall (test : bool) p gid mode o l u,
  (if test then ret tt else set_owner_mode p 0 gid mode o) = (l, Ok u) <->
  l = chmods test p gid mode /\ owner_possible test o.
Proof.
  intros test p gid mode o l []. unfold owner_possible, chmods, set_owner_mode, call, then_, ret.
  destruct test; [split; [intros [= <-]; auto|intros (-> & _); reflexivity]|].
  destruct o as [[] [] []]; simpl;
    (split; [intros [= <-]; auto|intros (-> & [X|(X & Y & Z)]); first [discriminate|reflexivity]]).
Qed.

Definition sock_there (os : letmeinfwd_os) : bool :=
  match lf_at_path os with Some mode => N.land mode 61440 =? 49152 | None => false end.
Definition listens (opts : daemon_opts) (gid : N) (os : letmeinfwd_os) : list effect :=
  let sock := Under (op_rundir opts) "letmeinfwd/letmeinfwd.sock" in
  if op_no_systemd opts then
    (if sock_there os then [EfUnlink sock] else []) ++ EfBind sock :: chmods (op_test opts) sock gid 432
  else [EfReady].
Definition listen_possible (opts : daemon_opts) (os : letmeinfwd_os) : Prop :=
  if op_no_systemd opts
  then (sock_there os = true -> lf_remove os = true) /\ lf_bind os = true /\ owner_possible (op_test opts) (lf_sock_owner os)
  else (exists fd r, lf_sockets os = Ok (SdUnix fd :: r)) /\ lf_adopt os = true /\ lf_notify os = true.

(** The results of [fw_listen] are those of the model without effects. *)
Lemma fw_listen_result : forall opts gid os l,
  snd (fw_listen opts gid os) = Ok l <->
  fw_server_new (op_no_systemd opts) (op_test opts) (lf_sockets os) (lf_adopt os) (lf_notify os) (lf_at_path os)
          (lf_remove os) (lf_bind os)
          (ow_stat (lf_sock_owner os) && ow_chown (lf_sock_owner os) && ow_chmod (lf_sock_owner os)) = Ok l.
Proof.
  intros opts gid os l. unfold fw_listen, fw_server_new, set_owner_mode, call, then_, lift, ret.
  destruct (op_no_systemd opts); simpl.
  - destruct (match lf_at_path os with Some m => _ | None => false end);
      destruct (lf_remove os), (lf_bind os), (op_test opts), (lf_sock_owner os) as [[] [] []]; simpl;
      (split; intros X; try discriminate; exact X).
  - destruct (lf_sockets os) as [[|[fd|fd|fd] s]|e|]; simpl; try destruct (lf_adopt os), (lf_notify os); simpl;
      (split; intros X; try discriminate; exact X).
Qed.

Lemma fw_listen_ok : forall opts gid os tr,
  (exists l, fw_listen opts gid os = (tr, Ok l)) <-> tr = listens opts gid os /\ listen_possible opts os.
Proof.
  intros opts gid os tr. unfold fw_listen, listens, listen_possible. destruct (op_no_systemd opts); cbn [negb].
  - fold (sock_there os).
    assert (E : (match lf_at_path os with Some m => N.land m S_IFMT =? S_IFSOCK | None => false end) = sock_there os)
      by reflexivity.
    rewrite E. split.
    + intros (x & H). apply then_ok in H. destruct H as (l1 & [] & l1' & R & H & ->).
      apply then_ok in H. destruct H as (l2 & [] & l2' & B & H & ->).
      apply then_ok in H. destruct H as (l3 & [] & l3' & O & H & ->). apply chmods_ok in O. destruct O as (-> & O).
      unfold ret in H. injection H as <- <-. unfold call in B. destruct (lf_bind os); [|discriminate]. injection B as <-.
      destruct (sock_there os).
      * unfold call in R. destruct (lf_remove os); [|discriminate]. injection R as <-. rewrite app_nil_r. auto.
      * unfold ret in R. injection R as <-. rewrite app_nil_r. split; [reflexivity|]. split; [discriminate|auto].
    + intros (-> & R & B & O). rewrite B. cbv beta zeta.
      destruct (sock_there os); [rewrite (R eq_refl)|]; cbn [call then_ ret]; 
      match goal with |- context [if op_test opts then ret tt else ?z] =>
        destruct (if op_test opts then ret tt else z) as [l r] eqn:E2 end;
      pose proof (proj2 (chmods_ok (op_test opts) (Under (op_rundir opts) "letmeinfwd/letmeinfwd.sock") gid 432
         (lf_sock_owner os) (chmods (op_test opts) (Under (op_rundir opts) "letmeinfwd/letmeinfwd.sock") gid 432) tt)
         (conj eq_refl O)) as C; unfold ret in *; rewrite C in E2; injection E2 as <- <-;
      eexists; unfold then_; rewrite app_nil_r; reflexivity.
  - split.
    + intros (x & H). apply then_ok in H. destruct H as (l1 & s & l1' & S & H & ->). unfold lift in S. injection S as <- S.
      destruct s as [|[fd|fd|fd] s]; try discriminate. unfold call, then_, ret in H.
      destruct (lf_adopt os), (lf_notify os); try discriminate. injection H as <- <-. cbn [app]. split; [reflexivity|]. eauto.
    + intros (-> & (fd & s & S) & A & N). rewrite S, A, N. cbn. eauto.
Qed.

Definition letmeinfwd_trace (opts : daemon_opts) (os : letmeinfwd_os) (gid : N) (k : kernel) (f : option filter)
  : list effect :=
  mkdirs (Under (op_rundir opts) "letmeinfwd") (lf_dir os)
  ++ chmods (op_test opts) (Under (op_rundir opts) "letmeinfwd") gid 488
  ++ EfRuleset k :: listens opts gid os
  ++ [EfTruncate (Under (op_rundir opts) "letmeinfwd/letmeinfwd.pid");
      EfWrite (Under (op_rundir opts) "letmeinfwd/letmeinfwd.pid") (pidfile_content (lf_pid os));
      EfConfine f; EfServe].

Lemma letmeinfwd_ok : forall fraction order opts os tr conf ids d m,
  letmeinfwd_main fraction order opts os = (tr, Ok (conf, ids, d, m)) <->
  read_etc_passwd (op_test opts) (lf_passwd os) (lf_group os) = Ok ids
  /\ dir_possible (lf_dir os) /\ owner_possible (op_test opts) (lf_owner os)
  /\ conf_load fraction order (conf_new VarServer) (op_config opts) (lf_file os) = (conf, Ok tt)
  /\ lf_signals os = true /\ listen_possible opts os
  /\ (exists k f, fw_start conf (lf_kernel os) (lf_nft_exe os) (lf_nft_ok os) = (k, Ok d)
      /\ install_seccomp_rules (lf_target os) (lf_install os) LETMEINFWD_ALLOW
           (match op_seccomp opts with Some m => m | None => c_seccomp conf end) = Ok f
      /\ tr = letmeinfwd_trace opts os (snd ids) k f)
  /\ fo_open (lf_pidfile os) = true /\ fo_write (lf_pidfile os) = true
  /\ m = daemon_start (op_num_connections opts).
Proof.
  intros fraction order opts os tr conf ids d m. split.
  - intros H. unfold letmeinfwd_main in H.
    apply then_ok in H. destruct H as (l0 & ids' & l0' & P & H & ->).
    apply then_ok in H. destruct H as (l1 & [] & l1' & D & H & ->). apply create_dir_ok in D. destruct D as (-> & DP).
    apply then_ok in H. destruct H as (l2 & [] & l2' & O & H & ->). apply chmods_ok in O. destruct O as (-> & O).
    apply then_ok in H. destruct H as (l3 & conf' & l3' & L & H & ->). apply load_conf_ok in L. destruct L as (-> & L).
    apply then_ok in H. destruct H as (l4 & d' & l4' & I & H & ->).
    apply then_ok in H. destruct H as (l5 & [] & l5' & S & H & ->).
    apply then_ok in H. destruct H as (l6 & fl & l6' & N & H & ->).
    assert (N' : exists l, fw_listen opts (snd ids') os = (l6, Ok l)) by eauto. apply fw_listen_ok in N'.
    destruct N' as (-> & LP).
    apply then_ok in H. destruct H as (l7 & [] & l7' & PF & H & ->). apply pidfile_ok in PF. destruct PF as (-> & PO & PW).
    apply then_ok in H. destruct H as (l8 & f & l8' & F & H & ->).
    apply then_ok in H. destruct H as (l9 & [] & l9' & E2 & H & ->).
    unfold ret in H. injection H as <- <- <- <- <-. unfold emit in E2. injection E2 as <-.
    unfold lift in P, S, F. injection P as <- P. injection S as <- S. injection F as <- F.
    destruct (lf_signals os); [|discriminate].
    unfold init_firewall in I. destruct (fw_start _ _ _ _) as [k [d0|e|]] eqn:FS; try discriminate. injection I as <- <-.
    do 6 (split; [assumption || reflexivity|]). split; [|auto].
    exists k, f. split; [reflexivity|]. split; [exact F|]. unfold letmeinfwd_trace. cbn [app]. reflexivity.
  - intros (P & DP & O & L & S & LP & (k & f & FS & F & ->) & PO & PW & ->). unfold letmeinfwd_main.
    rewrite P. cbn [then_ lift].
    rewrite (proj2 (create_dir_ok (Under (op_rundir opts) "letmeinfwd") (lf_dir os) _ tt) (conj eq_refl DP)). cbn [then_].
    rewrite (proj2 (chmods_ok (op_test opts) (Under (op_rundir opts) "letmeinfwd") (snd ids) 488 (lf_owner os) _ tt) (conj eq_refl O)).
    cbn [then_]. unfold load_conf. rewrite L. cbn [then_ ret]. unfold init_firewall. rewrite FS. cbn [then_]. rewrite S.
    destruct (proj2 (fw_listen_ok opts (snd ids) os _) (conj eq_refl LP)) as (fl & N). cbn [then_ lift]. rewrite N. cbn [then_].
    rewrite (proj2 (pidfile_ok (Under (op_rundir opts) "letmeinfwd/letmeinfwd.pid") (lf_pid os) (lf_pidfile os) _ tt)
               (conj eq_refl (conj PO PW))). cbn [then_]. rewrite F. cbn [then_ lift emit ret app].
    unfold letmeinfwd_trace. reflexivity.
Qed.

Lemma letmeinfwd_serves_ok : forall fraction order opts os tr r,
  letmeinfwd_main fraction order opts os = (tr, r) -> In EfServe tr -> exists x, r = Ok x.
Proof.
  intros fraction order opts os tr r H I. change tr with (fst (tr, r)) in I. change r with (snd (tr, r)).
  rewrite <- H in *. revert I. cut (ok_if is_serve (letmeinfwd_main fraction order opts os)).
  { intros K I. exact (K EfServe I eq_refl). }
  unfold letmeinfwd_main, is_serve.
  apply ok_if_then; [apply without_nil|intros ids].
  apply ok_if_then; [apply create_dir_without; discriminate|intros _].
  apply ok_if_then; [destruct (op_test opts); [apply without_nil|apply owner_without; discriminate]|intros _].
  apply ok_if_then; [apply load_without|intros conf].
  apply ok_if_then; [|intros d].
  { unfold init_firewall. destruct (fw_start _ _ _ _) as [k [|e|]]; try apply without_nil. intros ev [<-|[]]. discriminate. }
  apply ok_if_then; [apply without_nil|intros _].
  apply ok_if_then; [|intros l].
  { unfold fw_listen. destruct (op_no_systemd opts); cbn [negb].
    - apply without_then; [destruct (match lf_at_path os with Some _ => _ | None => _ end);
        [apply without_call; intros ev [<-|[]]; discriminate|apply without_nil]|intros _ _].
      apply without_then; [apply without_call; intros ev [<-|[]]; discriminate|intros _ _].
      apply without_then; [destruct (op_test opts); [apply without_nil|apply owner_without; discriminate]|intros _ _].
      apply without_nil.
    - apply without_then; [apply without_nil|intros s _]. destruct s as [|[fd|fd|fd] s]; try apply without_nil.
      apply without_then; [apply without_call; intros ev []|intros _ _].
      apply without_then; [apply without_call; intros ev [<-|[]]; discriminate|intros _ _]. apply without_nil. }
  apply ok_if_then; [apply pidfile_without; [|intros c]; discriminate|intros _].
  apply ok_if_then; [apply without_nil|intros f]. apply ok_if_end.
Qed.

(** The effects of a program are a prefix of [full], and all of [full] if it
    succeeds. *)
Definition upto {A : Type} (full : list effect) (x : eff A) : Prop :=
  exists rest, fst x ++ rest = full /\ forall a, snd x = Ok a -> rest = [].
Lemma upto_then : forall (A B : Type) f1 f2 (x : eff A) (k : A -> eff B),
  upto f1 x -> (forall a, snd x = Ok a -> upto f2 (k a)) -> upto (f1 ++ f2) (then_ x k).
Proof.
  intros A B f1 f2 [l [a|e|]] k (rest & E & R) K; unfold then_; simpl in *.
  - rewrite (R a eq_refl), app_nil_r in E. subst f1. specialize (K a eq_refl).
    destruct (k a) as [l' r]. destruct K as (rest2 & E2 & R2). exists rest2. simpl in *. rewrite <- app_assoc, E2. auto.
  - exists (rest ++ f2). rewrite <- E, <- app_assoc. split; [reflexivity|discriminate].
  - exists (rest ++ f2). rewrite <- E, <- app_assoc. split; [reflexivity|discriminate].
Qed.
Lemma upto_fail : forall (A : Type) full (r : res A), (forall a, r <> Ok a) -> upto full ([], r).
Proof. intros A full r N. exists full. split; [reflexivity|]. intros a E. destruct (N a E). Qed.
Lemma upto_nil : forall (A : Type) (r : res A), upto [] ([], r).
Proof. intros A r. exists []. split; auto. Qed.
Lemma upto_call : forall ok l e, upto l (call ok l e).
Proof.
  intros [] l e; unfold call; [exists []; rewrite app_nil_r; auto|apply upto_fail; discriminate].
Qed.
Lemma upto_create : forall p d, upto (mkdirs p d) (create_dir_if_not_exists p d).
Proof.
  intros p d. unfold mkdirs, create_dir_if_not_exists. destruct (di_meta d); [destruct (negb _); apply upto_nil|apply upto_call].
Qed.
Lemma upto_owner : forall (test : bool) p gid mode o,
  upto (chmods test p gid mode) (if test then ret tt else set_owner_mode p 0 gid mode o).
Proof.
  intros test p gid mode o. unfold chmods. destruct test; [apply upto_nil|]. unfold set_owner_mode.
  change [EfChown p 0 gid; EfChmod p mode] with ([] ++ [EfChown p 0 gid; EfChmod p mode]).
  apply upto_then; [apply upto_call|intros _ _].
  change [EfChown p 0 gid; EfChmod p mode] with ([EfChown p 0 gid] ++ [EfChmod p mode]).
  apply upto_then; [apply upto_call|intros _ _]. apply upto_call.
Qed.
Lemma upto_pidfile : forall p pid o, upto [EfTruncate p; EfWrite p (pidfile_content pid)] (make_pidfile p pid o).
Proof.
  intros. change [EfTruncate p; EfWrite p (pidfile_content pid)] with ([EfTruncate p] ++ [EfWrite p (pidfile_content pid)]).
  apply upto_then; [apply upto_call|intros _ _]. apply upto_call.
Qed.
Lemma upto_listen : forall opts gid os, upto (listens opts gid os) (fw_listen opts gid os).
Proof.
  intros opts gid os. unfold listens, fw_listen. destruct (op_no_systemd opts); cbn [negb].
  - apply upto_then.
    + change (match lf_at_path os with Some mode => N.land mode S_IFMT =? S_IFSOCK | None => false end) with (sock_there os).
      destruct (sock_there os); [apply upto_call|apply upto_nil].
    + intros _ _. change (EfBind ?p :: ?l) with ([EfBind p] ++ l). apply upto_then; [apply upto_call|intros _ _].
      rewrite <- (app_nil_r (chmods _ _ _ _)). apply upto_then; [apply upto_owner|intros _ _]. apply upto_nil.
  - destruct (lf_sockets os) as [s|e|]; cbn [lift then_]; [|apply upto_fail; discriminate|apply upto_fail; discriminate].
    destruct s as [|[fd|fd|fd] s]; try (apply upto_fail; discriminate).
    unfold call, then_, ret, lift. destruct (lf_adopt os), (lf_notify os); try (apply upto_fail; discriminate).
    exists []. split; reflexivity.
Qed.

Lemma letmeinfwd_upto : forall fraction order opts os tr r,
  letmeinfwd_main fraction order opts os = (tr, r) ->
  tr = []
  \/ exists ids, read_etc_passwd (op_test opts) (lf_passwd os) (lf_group os) = Ok ids
     /\ ((exists rest, tr ++ rest = mkdirs (Under (op_rundir opts) "letmeinfwd") (lf_dir os)
                        ++ chmods (op_test opts) (Under (op_rundir opts) "letmeinfwd") (snd ids) 488)
         \/ exists conf k d f rest,
              conf_load fraction order (conf_new VarServer) (op_config opts) (lf_file os) = (conf, Ok tt)
              /\ fw_start conf (lf_kernel os) (lf_nft_exe os) (lf_nft_ok os) = (k, Ok d)
              /\ tr ++ rest = letmeinfwd_trace opts os (snd ids) k f).
Proof.
  intros fraction order opts os tr r H.
  assert (U : forall full, upto full (letmeinfwd_main fraction order opts os) -> exists rest, tr ++ rest = full).
  { intros full (rest & E & _). rewrite H in E. eauto. }
  destruct (read_etc_passwd (op_test opts) (lf_passwd os) (lf_group os)) as [ids|e|] eqn:P.
  2, 3: left; unfold letmeinfwd_main in H; rewrite P in H; cbn [lift then_] in H; injection H as <- _; reflexivity.
  right. exists ids. split; [reflexivity|].
  assert (HEAD : forall full2,
    (upto full2 (run conf <- load_conf fraction order VarServer (op_config opts) (lf_file os);
      run d <- init_firewall conf os;
      run _ <- lift (if lf_signals os then Ok tt else Panic);
      run _ <- fw_listen opts (snd ids) os;
      run _ <- make_pidfile (Under (op_rundir opts) "letmeinfwd/letmeinfwd.pid") (lf_pid os) (lf_pidfile os);
      run f <- lift (install_seccomp_rules (lf_target os) (lf_install os) LETMEINFWD_ALLOW
                       (match op_seccomp opts with Some m => m | None => c_seccomp conf end));
      run _ <- emit [EfConfine f; EfServe];
      ret (conf, ids, d, daemon_start (op_num_connections opts)))) ->
    exists rest, tr ++ rest = mkdirs (Under (op_rundir opts) "letmeinfwd") (lf_dir os)
                        ++ chmods (op_test opts) (Under (op_rundir opts) "letmeinfwd") (snd ids) 488 ++ full2).
  { intros full2 T. apply U. unfold letmeinfwd_main. rewrite P. change (mkdirs ?a ?b ++ ?l) with ([] ++ mkdirs a b ++ l).
    apply upto_then; [apply upto_nil|]. intros ids' [= <-].
    apply upto_then; [apply upto_create|intros _ _]. apply upto_then; [apply upto_owner|intros _ _]. exact T. }
  unfold load_conf, init_firewall in HEAD.
  destruct (conf_load fraction order (conf_new VarServer) (op_config opts) (lf_file os)) as [conf [[]|e|]] eqn:L.
  2, 3: left; destruct (HEAD []) as (rest & E); [apply upto_nil|]; rewrite app_nil_r in E; eauto.
  destruct (fw_start conf (lf_kernel os) (lf_nft_exe os) (lf_nft_ok os)) as [k [d|e|]] eqn:FS.
  2, 3: left; destruct (HEAD []) as (rest & E); [cbn [then_ ret]; rewrite FS; apply upto_nil|]; rewrite app_nil_r in E; eauto.
  right. exists conf, k, d.
  exists (match install_seccomp_rules (lf_target os) (lf_install os) LETMEINFWD_ALLOW
           (match op_seccomp opts with Some m => m | None => c_seccomp conf end) with Ok f => f | _ => None end).
  cut (exists rest, tr ++ rest = letmeinfwd_trace opts os (snd ids) k
         (match install_seccomp_rules (lf_target os) (lf_install os) LETMEINFWD_ALLOW
           (match op_seccomp opts with Some m => m | None => c_seccomp conf end) with Ok f => f | _ => None end)).
  { intros (rest & E). exists rest. auto. }
  unfold letmeinfwd_trace. apply HEAD. change (EfRuleset k :: ?l) with ([] ++ [EfRuleset k] ++ [] ++ l).
  apply upto_then; [apply upto_nil|]. intros c' [= <-]. rewrite FS.
  apply upto_then; [exists []; auto|]. intros d' [= <-].
  apply upto_then; [apply upto_nil|intros _ _].
  apply upto_then; [apply upto_listen|intros _ _].
  change ([?a; ?b; ?c; ?d]) with ([a; b] ++ [] ++ [c; d]).
  apply upto_then; [apply upto_pidfile|intros _ _].
  apply upto_then; [apply upto_nil|]. intros f' E. cbn [lift snd] in E. rewrite E.
  rewrite <- (app_nil_r [EfConfine f'; EfServe]).
  apply upto_then; [exists []; auto|intros _ _]. apply upto_nil.
Qed.

Lemma letmeind_upto : forall fraction order opts os tr r,
  letmeind_main fraction order opts os = (tr, r) ->
  (exists rest, tr ++ rest = mkdirs (Under (op_rundir opts) "letmeind") (ld_dir os))
  \/ exists conf t u f rest,
       conf_load fraction order (conf_new VarServer) (op_config opts) (ld_file os) = (conf, Ok tt)
       /\ server_new (ld_net os) (c_port conf) (op_no_systemd opts) (ld_sockets os) = Ok (t, u)
       /\ tr ++ rest = letmeind_trace opts os t u f.
Proof.
  intros fraction order opts os tr r H.
  assert (U : forall full, upto full (letmeind_main fraction order opts os) -> exists rest, tr ++ rest = full).
  { intros full (rest & E & _). rewrite H in E. eauto. }
  assert (HEAD : forall full2,
    (upto full2 (run conf <- load_conf fraction order VarServer (op_config opts) (ld_file os);
      run _ <- lift (if ld_signals os then Ok tt else Panic);
      run tu <- lift (server_new (ld_net os) (c_port conf) (op_no_systemd opts) (ld_sockets os));
      run _ <- emit (EfListen (fst tu) (snd tu)
                 :: if from_systemd (fst tu) || from_systemd (snd tu) then [EfReady] else []);
      run _ <- make_pidfile (Under (op_rundir opts) "letmeind/letmeind.pid") (ld_pid os) (ld_pidfile os);
      run f <- lift (install_seccomp_rules (ld_target os) (ld_install os) LETMEIND_ALLOW
                      (match op_seccomp opts with Some m => m | None => c_seccomp conf end));
      run _ <- emit [EfConfine f; EfServe];
      ret (conf, daemon_start (op_num_connections opts)))) ->
    exists rest, tr ++ rest = mkdirs (Under (op_rundir opts) "letmeind") (ld_dir os) ++ full2).
  { intros full2 T. apply U. unfold letmeind_main. apply upto_then; [apply upto_create|intros _ _]. exact T. }
  unfold letmeind_trace.
  unfold load_conf in HEAD.
  destruct (conf_load fraction order (conf_new VarServer) (op_config opts) (ld_file os)) as [conf [[]|e|]] eqn:L.
  2, 3: left; rewrite <- (app_nil_r (mkdirs _ _)); apply HEAD; apply upto_fail; discriminate.
  destruct (server_new (ld_net os) (c_port conf) (op_no_systemd opts) (ld_sockets os)) as [[t u]|e|] eqn:S.
  2, 3: left; rewrite <- (app_nil_r (mkdirs _ _)); apply HEAD; cbn [then_ ret]; rewrite S; destruct (ld_signals os); apply upto_fail; discriminate.
  right. exists conf, t, u, (match install_seccomp_rules (ld_target os) (ld_install os) LETMEIND_ALLOW
           (match op_seccomp opts with Some m => m | None => c_seccomp conf end) with Ok f => f | _ => None end).
  match goal with |- exists rest, _ /\ _ /\ tr ++ rest = ?full => assert (G : exists rest, tr ++ rest = full);
    [|destruct G as (rest & G); exists rest; auto] end.
  apply HEAD. change (EfListen t u :: readies t u ++ ?l) with ([] ++ [] ++ [] ++ (EfListen t u :: readies t u) ++ l).
  apply upto_then; [apply upto_nil|]. intros c' [= <-].
  apply upto_then; [apply upto_nil|intros _ _].
  apply upto_then; [apply upto_nil|]. rewrite S. intros tu [= <-].
  apply upto_then; [exists []; split; [apply app_nil_r|reflexivity]|intros _ _].
  change ([?a; ?b; ?c; ?d]) with ([a; b] ++ [] ++ [c; d]).
  apply upto_then; [apply upto_pidfile|intros _ _].
  apply upto_then; [apply upto_nil|]. intros f' E. cbn [lift snd] in E. rewrite E.
  rewrite <- (app_nil_r [EfConfine f'; EfServe]).
  apply upto_then; [exists []; auto|intros _ _]. apply upto_nil.
Qed.

(** Nothing panics, except that the registration of the signal handlers may. *)
Definition calm {A : Type} (x : eff A) : Prop := snd x <> Panic.
Lemma calm_then : forall (A B : Type) (x : eff A) (k : A -> eff B),
  calm x -> (forall a, snd x = Ok a -> calm (k a)) -> calm (then_ x k).
Proof.
  intros A B [l [a|e|]] k C K; unfold calm in *; simpl in *; [|discriminate|auto].
  specialize (K a eq_refl). destruct (k a). exact K.
Qed.
Lemma calm_lift : forall (A : Type) (r : res A), r <> Panic -> calm (lift r).
Proof. intros A r H. exact H. Qed.
Lemma calm_call : forall ok l e, calm (call ok l e).
Proof. intros [] l e; unfold calm; discriminate. Qed.
Lemma calm_create : forall p d, calm (create_dir_if_not_exists p d).
Proof. intros p d. unfold create_dir_if_not_exists. destruct (di_meta d); [destruct (negb _); unfold calm; discriminate|apply calm_call]. Qed.
Lemma calm_owner : forall p u g m o, calm (set_owner_mode p u g m o).
Proof. intros. unfold set_owner_mode. repeat (apply calm_then; [apply calm_call|intros _ _]). apply calm_call. Qed.
Lemma calm_pidfile : forall p pid o, calm (make_pidfile p pid o).
Proof. intros. unfold make_pidfile. apply calm_then; [apply calm_call|intros _ _]. apply calm_call. Qed.
Lemma calm_load : forall fraction order v p file, (forall m, Permutation m (order m)) -> calm (load_conf fraction order v p file).
Proof.
  intros fraction order v p file OP. unfold load_conf.
  destruct (conf_load fraction order (conf_new v) p file) as [c r] eqn:L. apply (load_cases _ _ OP) in L.
  destruct L as [(ls & c0 & _ & _ & _ & _ & _ & ->)|[(ls & e & _ & _ & _ & _ & ->)|(_ & [(_ & _ & e & ->)|(_ & _ & ->)])]]; unfold calm; discriminate.
Qed.
Lemma install_no_panic : forall tg install l mode, In l [LETMEIND_ALLOW; LETMEINFWD_ALLOW; LETMEIN_ALLOW] ->
  install_seccomp_rules tg install l mode <> Panic.
Proof.
  intros [tg|] install l mode I; [|destruct mode; discriminate].
  destruct (C45_filters_exist tg mode l I) as (f & E & _). unfold install_seccomp_rules in *.
  destruct mode; try discriminate; (destruct (compile tg l _); cbn [bind] in *; [destruct install; discriminate|discriminate|discriminate]).
Qed.
Lemma take_sockets_calm : forall os cp l t u, take_sockets os cp l t u <> Panic.
Proof.
  induction l as [|[x|x|x] l IH]; intros t u; cbn [take_sockets]; try discriminate.
  - destruct u; [discriminate|]. destruct (negb _); [apply IH|]. destruct (os_adopt os x); [apply IH|discriminate].
  - destruct t; [discriminate|]. destruct (negb _); [apply IH|]. destruct (os_adopt os x); [apply IH|discriminate].
Qed.
Lemma server_new_calm : forall os cp ns sockets, sockets <> Panic -> server_new os cp ns sockets <> Panic.
Proof.
  intros os cp ns sockets N. unfold server_new.
  match goal with |- bind ?x ?k <> _ => assert (x <> Panic); [|destruct x as [[t u]|e|] eqn:X; cbn [bind]; try congruence] end.
  - destruct ns; [discriminate|]. destruct sockets as [l|e|]; cbn [bind]; try congruence.
    pose proof (take_sockets_calm os cp l None None). destruct (take_sockets os cp l None None); cbn [bind]; try congruence.
    destruct (_ && _); discriminate.
  - destruct (_ || _); [discriminate|].
    destruct (cp_tcp cp), (os_bind_tcp os), (cp_udp cp), (os_bind_udp os); discriminate.
Qed.

(** The filter of a program and its mode. *)
Lemma confine_ok : forall l may tg install mode f,
  (forall f s argv, install_seccomp_rules (Some tg) true l ScKill = Ok f ->
     (judge f s argv = VAllow <-> may tg s argv) /\ (judge f s argv = VKill <-> ~ may tg s argv)) ->
  install_seccomp_rules (Some tg) install l mode = Ok f -> confinement mode may tg f.
Proof.
  intros l may tg install mode f K H.
  assert (H' : install_seccomp_rules (Some tg) true l mode = Ok f).
  { clear K. unfold install_seccomp_rules in *. destruct mode; [exact H| |].
    - destruct (compile tg l ActLog); [|discriminate H|discriminate H]. destruct install; [exact H|discriminate H].
    - destruct (compile tg l ActKill); [|discriminate H|discriminate H]. destruct install; [exact H|discriminate H]. }
  destruct mode; cbn [confinement].
  - injection H' as <-. reflexivity.
  - intros s argv. apply C45_log_logs_what_kill_kills in H'. destruct H' as (g & G & J).
    destruct (J s argv) as (A & B). destruct (K g s argv G) as (C & D). rewrite A, B. auto.
  - intros s argv. apply K. exact H'.
Qed.
