(** C65: what a started daemon serves, and what a start touches. *)

From Coq Require Import String ZArith NArith List Bool Lia Permutation.
From Verif Require Import M_Base M_Proto M_IpAddr M_FwProto M_ConfTypes M_Text M_Str M_Conf M_Server M_Client M_Firewall M_Start M_Daemon
  M_Seccomp M_Main S_Wire S_System S_Text S_Conf S_Start S_Seccomp S_Client S_Files S_Firewall S_Main
  P_Base P_Utf8 P_Str P_Conf P_Load P_ConfLoad P_Seccomp P_Start P_Client P_FwdProps P_Files P_Main P_Cli Prop_Conf Prop_Start Prop_Seccomp
  Prop_Main.
Import ListNotations.
Local Open Scope N_scope.

(** A letmeind that serves has the configuration of its file and exactly one pair
    of listeners: without systemd the configured port for each configured
    transport; from systemd only configured transports, at least one.  Its accept
    loop waits for the first connection, with the permits of the option
    --num-connections. *)
Theorem C65_letmeind_serves_its_configuration : forall fraction order opts os tr r,
  (forall m, Permutation m (order m)) ->
  letmeind_main fraction order opts os = (tr, r) -> In EfServe tr ->
  exists ls conf t u pre post, started_from fraction VarServer (ld_file os) ls conf
    /\ r = Ok (conf, M_Daemon.Daemon PcAccept (op_num_connections opts) [] 0 [] None)
    /\ tr = pre ++ EfListen t u :: post /\ (forall a b, ~ In (EfListen a b) (pre ++ post)) /\ In EfServe post
    /\ (t <> None -> cp_tcp (c_port conf) = true) /\ (u <> None -> cp_udp (c_port conf) = true)
    /\ (t <> None \/ u <> None)
    /\ (op_no_systemd opts = true \/ ld_sockets os = Ok [] ->
        t = (if cp_tcp (c_port conf) then Some (LBound (cp_port (c_port conf))) else None)
        /\ u = (if cp_udp (c_port conf) then Some (LBound (cp_port (c_port conf))) else None))
    /\ (In EfReady post <-> exists fd, t = Some (LSystemd fd) \/ u = Some (LSystemd fd)).
Proof.
  intros fraction order opts os tr r OP H I. destruct (letmeind_serves_ok _ _ _ _ _ _ H I) as ((conf & d) & ->).
  apply letmeind_ok in H. destruct H as (_ & L & _ & (t & u & f & N & F & ->) & _ & _ & ->).
  destruct (server_started _ _ _ _ _ OP L) as (ls & ST).
  exists ls, conf, t, u, (mkdirs (Under (op_rundir opts) "letmeind") (ld_dir os)),
    (readies t u ++ [EfTruncate (Under (op_rundir opts) "letmeind/letmeind.pid");
      EfWrite (Under (op_rundir opts) "letmeind/letmeind.pid") (pidfile_content (ld_pid os)); EfConfine f; EfServe]).
  split; [exact ST|]. split; [reflexivity|]. split; [reflexivity|].
  split.
  { intros a b J. apply in_app_or in J. destruct J as [J|J].
    - unfold mkdirs in J. destruct (di_meta (ld_dir os)); simpl in J; intuition discriminate.
    - apply in_app_or in J. destruct J as [J|J]; [|simpl in J; intuition discriminate].
      unfold readies in J. destruct (_ || _); simpl in J; intuition discriminate. }
  split; [apply in_or_app; right; simpl; auto|].
  destruct (C44_only_configured _ _ _ _ _ _ N) as (A & B). split; [exact A|]. split; [exact B|].
  split.
  { apply (C44_listens _ _ _ _ _ _ (control_has_transport _ _ (started_control _ _ _ _ _ ST)) N). }
  split; [intros NS; exact (C44_bound_exactly _ _ _ _ _ _ NS N)|]. split.
  - intros J. apply in_app_or in J. destruct J as [J|J]; [|simpl in J; intuition discriminate].
    unfold readies in J. destruct t as [[fd|p]|], u as [[fd'|p']|]; cbn [from_systemd orb] in J; try destruct J; eauto.
  - intros (fd & [-> | ->]); apply in_or_app; left; unfold readies; cbn [from_systemd]; [|rewrite orb_true_r]; left; reflexivity.
Qed.
Print Assumptions C65_letmeind_serves_its_configuration.

(** A letmeinfwd that serves has the configuration of its file, the numbers of the
    accounts of letmeind, and a firewall freshly initialised from its
    configuration; it has announced that it is ready exactly if it works with
    systemd. *)
Theorem C65_letmeinfwd_serves_its_configuration : forall fraction order opts os tr r,
  (forall m, Permutation m (order m)) -> op_test opts = false ->
  letmeinfwd_main fraction order opts os = (tr, r) -> In EfServe tr ->
  exists ls conf uid gid d c, started_from fraction VarServer (lf_file os) ls conf
    /\ r = Ok (conf, (uid, gid), d, M_Daemon.Daemon PcAccept (op_num_connections opts) [] 0 [] None)
    /\ account (lf_passwd os) (lit "letmeind") uid /\ account (lf_group os) (lit "letmeind") gid
    /\ configured_chain conf c /\ history conf c d []
    /\ exists pre k post, tr = pre ++ EfRuleset k :: post /\ (forall k', ~ In (EfRuleset k') (pre ++ post)) /\ In EfServe post
         /\ ruleset_after (lf_kernel os) tr k /\ k = d_kernel d
         /\ (In EfReady post <-> op_no_systemd opts = false).
Proof.
  intros fraction order opts os tr r OP NT H I. destruct (letmeinfwd_serves_ok _ _ _ _ _ _ H I) as ((((conf & ids) & d) & m) & ->).
  apply letmeinfwd_ok in H. destruct H as (P & _ & _ & L & _ & _ & (k & f & FS & _ & ->) & _ & _ & ->).
  destruct (server_started _ _ _ _ _ OP L) as (ls & ST). destruct ids as [uid gid].
  destruct (start_cases _ _ _ _ _ _ FS) as [(d' & c & [= <-] & CC & _ & DK & PH & _ & PM & RE)|(_ & (e & [=]) & _)].
  exists ls, conf, uid, gid, d, c. split; [exact ST|]. split; [reflexivity|].
  rewrite NT in P. apply read_etc_passwd_spec in P. destruct P as (UA & GA). split; [exact UA|]. split; [exact GA|].
  split; [exact CC|]. split; [econstructor; eassumption|].
  set (A := mkdirs (Under (op_rundir opts) "letmeinfwd") (lf_dir os)
    ++ chmods (op_test opts) (Under (op_rundir opts) "letmeinfwd") gid 488).
  set (B := listens opts gid os
    ++ [EfTruncate (Under (op_rundir opts) "letmeinfwd/letmeinfwd.pid");
        EfWrite (Under (op_rundir opts) "letmeinfwd/letmeinfwd.pid") (pidfile_content (lf_pid os)); EfConfine f; EfServe]).
  assert (E : letmeinfwd_trace opts os gid k f = A ++ EfRuleset k :: B).
  { unfold letmeinfwd_trace, A, B. rewrite <- !app_assoc. reflexivity. }
  assert (NA : forall k', ~ In (EfRuleset k') A).
  { intros k' J. unfold A, mkdirs, chmods in J. destruct (di_meta (lf_dir os)), (op_test opts); simpl in J; intuition discriminate. }
  assert (NB : forall k', ~ In (EfRuleset k') B).
  { intros k' J. unfold B, listens, chmods in J. destruct (op_no_systemd opts), (sock_there os), (op_test opts); simpl in J; intuition discriminate. }
  exists A, k, B. cbn [snd]. rewrite E. split; [reflexivity|].
  split; [intros k' J; apply in_app_or in J; destruct J as [J|J]; [exact (NA _ J)|exact (NB _ J)]|].
  split; [unfold B; apply in_or_app; right; simpl; auto|]. split; [right; exists A, B; auto|]. split; [auto|].
  unfold B, listens, chmods. destruct (op_no_systemd opts).
  - split; [|discriminate]. intros J. destruct (sock_there os), (op_test opts); simpl in J; intuition discriminate.
  - split; [reflexivity|]. intros _. apply in_or_app. left. left. reflexivity.
Qed.
Print Assumptions C65_letmeinfwd_serves_its_configuration.

(** Whatever happens, the start of letmeind touches nothing but its directory and
    its PID file, removes nothing, and leaves the firewall alone. *)
Theorem C65_letmeind_footprint : forall fraction order opts os tr r,
  letmeind_main fraction order opts os = (tr, r) -> forall ev, In ev tr ->
  (forall p, touches ev p -> ev = EfMkdir (Under (op_rundir opts) "letmeind")
     \/ p = Under (op_rundir opts) "letmeind/letmeind.pid" /\ (ev = EfTruncate p \/ exists c, ev = EfWrite p c))
  /\ (forall k, ev <> EfRuleset k).
Proof.
  intros fraction order opts os tr r H ev I. apply letmeind_upto in H.
  assert (J : In ev (mkdirs (Under (op_rundir opts) "letmeind") (ld_dir os))
    \/ exists t u f, In ev (letmeind_trace opts os t u f)).
  { destruct H as [(rest & E)|(conf & t & u & f & rest & _ & _ & E)].
    - left. rewrite <- E. apply in_or_app. auto.
    - right. exists t, u, f. rewrite <- E. apply in_or_app. auto. }
  assert (K : In ev (mkdirs (Under (op_rundir opts) "letmeind") (ld_dir os)) ->
    (forall p, touches ev p -> ev = EfMkdir (Under (op_rundir opts) "letmeind")
     \/ p = Under (op_rundir opts) "letmeind/letmeind.pid" /\ (ev = EfTruncate p \/ exists c, ev = EfWrite p c))
    /\ (forall k, ev <> EfRuleset k)).
  { unfold mkdirs. destruct (di_meta (ld_dir os)); [intros []|]. intros [<-|[]]. split; [auto|discriminate]. }
  destruct J as [J|(t & u & f & J)]; [auto|]. unfold letmeind_trace in J. apply in_app_or in J. destruct J as [J|J]; [auto|].
  clear K. destruct J as [<-|J]; [split; [intros p []|discriminate]|]. apply in_app_or in J. destruct J as [J|J].
  - unfold readies in J. destruct (_ || _); [destruct J as [<-|[]]; split; [intros p []|discriminate]|destruct J].
  - destruct J as [<-|[<-|[<-|[<-|[]]]]]; (split; [|discriminate]).
    + intros p T; cbn [touches] in T; subst p. right. split; [reflexivity|left; reflexivity].
    + intros p T; cbn [touches] in T; subst p. right. split; [reflexivity|right; eexists; reflexivity].
    + intros p [].
    + intros p [].
Qed.
Print Assumptions C65_letmeind_footprint.

(** Whatever happens, the start of letmeinfwd touches nothing but its directory, its
    socket and its PID file, and removes nothing but an old socket at the path of
    its socket. *)
Theorem C65_letmeinfwd_footprint : forall fraction order opts os tr r,
  letmeinfwd_main fraction order opts os = (tr, r) -> forall ev, In ev tr ->
  let dir := Under (op_rundir opts) "letmeinfwd" in
  let sock := Under (op_rundir opts) "letmeinfwd/letmeinfwd.sock" in
  let pidfile := Under (op_rundir opts) "letmeinfwd/letmeinfwd.pid" in
  (forall p, touches ev p ->
     (p = dir /\ (ev = EfMkdir p \/ changes_access p ev))
     \/ (p = sock /\ (ev = EfUnlink p \/ ev = EfBind p \/ changes_access p ev))
     \/ (p = pidfile /\ (ev = EfTruncate p \/ exists c, ev = EfWrite p c)))
  /\ (forall p, ev = EfUnlink p -> op_no_systemd opts = true
        /\ exists mode, lf_at_path os = Some mode /\ N.land mode 61440 = 49152).
Proof.
  intros fraction order opts os tr r H ev I dir sock pidfile. apply letmeinfwd_upto in H.
  assert (J : exists gid, In ev (mkdirs dir (lf_dir os)) \/ In ev (chmods (op_test opts) dir gid 488)
    \/ (exists k, ev = EfRuleset k) \/ In ev (listens opts gid os)
    \/ ev = EfTruncate pidfile \/ (exists c, ev = EfWrite pidfile c) \/ (exists f, ev = EfConfine f) \/ ev = EfServe).
  { destruct H as [-> |(ids & RP & [(rest & P)|(conf & k & d & f & rest & L & FS & P)])]; [destruct I| |];
      assert (J : In ev (tr ++ rest)) by (apply in_or_app; auto); rewrite P in J; exists (snd ids).
    - apply in_app_or in J. tauto.
    - unfold letmeinfwd_trace in J. apply in_app_or in J. destruct J as [J|J]; [auto|].
      apply in_app_or in J. destruct J as [J|J]; [auto|]. destruct J as [<-|J]; [eauto|].
      apply in_app_or in J. destruct J as [J|J]; [tauto|].
      destruct J as [<-|[<-|[<-|[<-|[]]]]]; eauto 10. }
  assert (CH : forall p gid mode, In ev (chmods (op_test opts) p gid mode) ->
    (forall q, touches ev q -> q = p /\ changes_access q ev) /\ (forall q, ev <> EfUnlink q)).
  { unfold chmods, changes_access. intros p gid mode. destruct (op_test opts); [intros []|].
    intros [<-|[<-|[]]]; (split; [intros q T; cbn [touches] in T; subst q; eauto|discriminate]). }
  destruct J as (gid & [J|[J|[(k & ->)|[J|[-> |[(c & ->)|[(f & ->)| ->]]]]]]]).
  - unfold mkdirs in J. destruct (di_meta (lf_dir os)); [destruct J|]. destruct J as [<-|[]].
    split; [intros p T; cbn [touches] in T; subst p; auto 8|discriminate].
  - apply CH in J. destruct J as (A & B). split; [intros p T; destruct (A p T); auto|intros p E; destruct (B p E)].
  - split; [intros p []|discriminate].
  - unfold listens in J. fold sock in J. destruct (op_no_systemd opts).
    + apply in_app_or in J. destruct J as [J|[<-|J]].
      * destruct (sock_there os) eqn:S; [|destruct J]. destruct J as [<-|[]]. split; [intros p T; cbn [touches] in T; subst p; auto 8|].
        intros p _. split; [reflexivity|]. unfold sock_there in S. destruct (lf_at_path os) as [mode|]; [|discriminate].
        apply N.eqb_eq in S. eauto.
      * split; [intros p T; cbn [touches] in T; subst p; auto 8|discriminate].
      * apply CH in J. destruct J as (A & B). split; [intros p T; destruct (A p T); auto 6|intros p E; destruct (B p E)].
    + destruct J as [<-|[]]. split; [intros p []|discriminate].
  - split; [intros p T; cbn [touches] in T; subst p; auto 8|discriminate].
  - split; [intros p T; cbn [touches] in T; subst p; eauto 9|discriminate].
  - split; [intros p []|discriminate].
  - split; [intros p []|discriminate].
Qed.
Print Assumptions C65_letmeinfwd_footprint.

Example C65_example : exists tr x tr' y,
  letmeind_main no_fraction no_order (ex_dopts true) (ex_ld (Some ex_target) true true) = (tr, Ok x) /\ In EfServe tr
  /\ letmeinfwd_main no_fraction no_order (ex_dopts false) (ex_lf true true) = (tr', Ok y) /\ In EfServe tr'
  /\ In (EfUnlink (Under (lit "/run") "letmeinfwd/letmeinfwd.sock")) tr'.
Proof.
  do 4 eexists. split; [vm_compute; reflexivity|]. split; [simpl; auto 10|].
  split; [vm_compute; reflexivity|]. split; simpl; auto 20.
Qed.
