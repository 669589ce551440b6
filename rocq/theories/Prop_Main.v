(** C57 - C63: the main programs. *)

From Coq Require Import String ZArith NArith List Bool Lia Permutation.
From Verif Require Import M_Base M_Proto M_IpAddr M_FwProto M_ConfTypes M_Text M_Str M_Conf M_Server M_Client M_Firewall M_Start M_Daemon
  M_Seccomp M_Main S_Wire S_System S_Text S_Conf S_Start S_Seccomp S_Client S_Files S_Firewall S_Main
  P_Base P_Utf8 P_Str P_Conf P_Load P_ConfLoad P_Seccomp P_Start P_Client P_FwdProps P_Files P_Main P_Cli Prop_Conf Prop_Start Prop_Seccomp.
Import ListNotations.
Local Open Scope N_scope.

Local Ltac off := intros; simpl; intuition discriminate.

(** *** C57 *)

(** Whenever letmeind serves, this is the last step of a successful start, and
    before it the process was confined as the command line or else the
    configuration file says. *)
Theorem C57_letmeind_confined : forall fraction order opts os tr r tg,
  (forall m, Permutation m (order m)) -> ld_target os = Some tg ->
  letmeind_main fraction order opts os = (tr, r) -> In EfServe tr ->
  (exists x, r = Ok x)
  /\ exists pre ls mode f, tr = pre ++ [EfServe] /\ ~ In EfServe pre
     /\ file_lines (ld_file os) ls /\ chosen_mode (op_seccomp opts) ls mode
     /\ confined_by pre f /\ confinement mode letmeind_may tg f.
Proof.
  intros fraction order opts os tr r tg OP TG H I. destruct (letmeind_serves_ok _ _ _ _ _ _ H I) as ((conf & d) & ->).
  split; [eauto|]. apply letmeind_ok in H. destruct H as (_ & L & _ & (t & u & f & _ & F & ->) & _).
  destruct (server_started _ _ _ _ _ OP L) as (ls & ST). destruct (started_configures _ _ _ _ _ ST) as (CF & _).
  destruct ST as (o' & p' & _ & FL & _).
  exists (mkdirs (Under (op_rundir opts) "letmeind") (ld_dir os) ++ EfListen t u :: readies t u
    ++ [EfTruncate (Under (op_rundir opts) "letmeind/letmeind.pid");
        EfWrite (Under (op_rundir opts) "letmeind/letmeind.pid") (pidfile_content (ld_pid os)); EfConfine f]), ls,
    (match op_seccomp opts with Some m => m | None => c_seccomp conf end), f.
  assert (MK : forall ev, In ev (mkdirs (Under (op_rundir opts) "letmeind") (ld_dir os)) -> exists p, ev = EfMkdir p)
    by (unfold mkdirs; intros ev; destruct (di_meta (ld_dir os)); [intros []|intros [<-|[]]; eauto]).
  assert (RD : forall ev, In ev (readies t u) -> ev = EfReady)
    by (unfold readies; intros ev; destruct (_ || _); [intros [<-|[]]; auto|intros []]).
  split; [unfold letmeind_trace; rewrite <- app_assoc; cbn [app]; rewrite <- app_assoc; reflexivity|].
  split.
  { intros J. apply in_app_or in J. destruct J as [J|[J|J]]; [destruct (MK _ J); discriminate|discriminate|].
    apply in_app_or in J. destruct J as [J|J]; [apply RD in J; discriminate|simpl in J; intuition discriminate]. }
  split; [exact FL|]. split.
  { destruct (op_seccomp opts) as [m|]; [left; reflexivity|right; split; [reflexivity|exact (cf_seccomp _ _ _ CF)]]. }
  split.
  - exists (mkdirs (Under (op_rundir opts) "letmeind") (ld_dir os) ++ EfListen t u :: readies t u
    ++ [EfTruncate (Under (op_rundir opts) "letmeind/letmeind.pid");
        EfWrite (Under (op_rundir opts) "letmeind/letmeind.pid") (pidfile_content (ld_pid os))]), [].
    split; [rewrite <- app_assoc; cbn [app]; rewrite <- app_assoc; reflexivity|intros g []].
  - rewrite TG in F. eapply confine_ok; [intros; eapply C45_letmeind_exact; eassumption|exact F].
Qed.
Print Assumptions C57_letmeind_confined.

Theorem C57_letmeinfwd_confined : forall fraction order opts os tr r tg,
  (forall m, Permutation m (order m)) -> lf_target os = Some tg ->
  letmeinfwd_main fraction order opts os = (tr, r) -> In EfServe tr ->
  (exists x, r = Ok x)
  /\ exists pre ls mode f, tr = pre ++ [EfServe] /\ ~ In EfServe pre
     /\ file_lines (lf_file os) ls /\ chosen_mode (op_seccomp opts) ls mode
     /\ confined_by pre f /\ confinement mode letmeinfwd_may tg f.
Proof.
  intros fraction order opts os tr r tg OP TG H I. destruct (letmeinfwd_serves_ok _ _ _ _ _ _ H I) as ((((conf & ids) & d) & m) & ->).
  split; [eauto|]. apply letmeinfwd_ok in H. destruct H as (_ & _ & _ & L & _ & _ & (k & f & _ & F & ->) & _).
  destruct (server_started _ _ _ _ _ OP L) as (ls & ST). destruct (started_configures _ _ _ _ _ ST) as (CF & _).
  destruct ST as (o' & p' & _ & FL & _).
  set (A := mkdirs (Under (op_rundir opts) "letmeinfwd") (lf_dir os)
    ++ chmods (op_test opts) (Under (op_rundir opts) "letmeinfwd") (snd ids) 488
    ++ EfRuleset k :: listens opts (snd ids) os
    ++ [EfTruncate (Under (op_rundir opts) "letmeinfwd/letmeinfwd.pid");
        EfWrite (Under (op_rundir opts) "letmeinfwd/letmeinfwd.pid") (pidfile_content (lf_pid os))]).
  assert (E : letmeinfwd_trace opts os (snd ids) k f = A ++ [EfConfine f; EfServe]).
  { unfold letmeinfwd_trace, A. rewrite <- !app_assoc. cbn [app]. rewrite <- !app_assoc. reflexivity. }
  assert (NS : ~ In EfServe A).
  { unfold A, mkdirs, chmods, listens. intros J. repeat (apply in_app_or in J; destruct J as [J|J]).
    - destruct (di_meta (lf_dir os)); simpl in J; intuition discriminate.
    - destruct (op_test opts); simpl in J; intuition discriminate.
    - destruct J as [J|J]; [discriminate|]. apply in_app_or in J. destruct J as [J|J]; [|simpl in J; intuition discriminate].
      destruct (op_no_systemd opts); [|simpl in J; intuition discriminate].
      apply in_app_or in J. destruct J as [J|[J|J]]; [destruct (sock_there os); simpl in J; intuition discriminate|discriminate|].
      destruct (op_test opts); simpl in J; intuition discriminate. }
  exists (A ++ [EfConfine f]), ls, (match op_seccomp opts with Some m => m | None => c_seccomp conf end), f.
  split; [rewrite E, <- app_assoc; reflexivity|].
  split; [intros J; apply in_app_or in J; destruct J as [J|[J|[]]]; [contradiction|discriminate]|].
  split; [exact FL|]. split.
  { destruct (op_seccomp opts) as [md|]; [left; reflexivity|right; split; [reflexivity|exact (cf_seccomp _ _ _ CF)]]. }
  split; [exists A, []; split; [reflexivity|intros g []]|].
  rewrite TG in F. eapply confine_ok; [intros; eapply C45_letmeinfwd_exact; eassumption|exact F].
Qed.
Print Assumptions C57_letmeinfwd_confined.

(** *** Examples used below *)

Definition main_file : list N := lit
  ("[GENERAL]" ++ NL ++ "seccomp = kill" ++ NL ++ "port = 5800 / tcp,udp" ++ NL
   ++ "[NFTABLES]" ++ NL ++ "family = inet" ++ NL ++ "table = filter" ++ NL ++ "chain-input = LETMEIN" ++ NL)%string.
Definition no_order (m : omap) : omap := m.
Definition no_fraction (t : text) : option N := None.
Definition ex_dopts (sd : bool) : daemon_opts := DaemonOpts (lit "/etc/letmeind.conf") (lit "/run") 8 (negb sd) None false.
Definition ex_ld (tg : option target) (install : bool) (pidfile : bool) : letmeind_os :=
  LetmeindOs (DirOs None true) (Some main_file) true (OsStart (fun _ => true) true true true) (Ok [SdTcp 3; SdUdp 4]) 4711
    (FileOs pidfile true) tg install.
Definition ex_target : target := Target true true.
Definition ex_main_chain : chain_name := ChainName INet (lit "filter") (lit "LETMEIN").
Definition ex_main_kernel : kernel := Kernel [ex_main_chain] [] 1.
Definition ex_lf (install : bool) (bind : bool) : letmeinfwd_os :=
  LetmeinfwdOs (Some example_passwd) (Some example_group) (DirOs (Some 16877) true) (OwnerOs true true true) (Some main_file)
    ex_main_kernel true true true (Ok [SdUnix 3]) true true (Some 49645) true bind (OwnerOs true true true) 4712
    (FileOs true true) (Some ex_target) install.

Example C57_witness_letmeind : In EfServe (fst (letmeind_main no_fraction no_order (ex_dopts false) (ex_ld (Some ex_target) true true))).
Proof. vm_compute. intuition. Qed.
Example C57_witness_letmeinfwd : In EfServe (fst (letmeinfwd_main no_fraction no_order (ex_dopts false) (ex_lf true true))).
Proof. vm_compute. intuition. Qed.

(** On a platform without seccomp support the mode "kill" confines nothing, and
    letmeind serves all the same. *)
Theorem C57_on_any_platform_refuted : exists fraction order opts os tr x ls,
  (forall m, Permutation m (order m))
  /\ letmeind_main fraction order opts os = (tr, Ok x) /\ In EfServe tr
  /\ file_lines (ld_file os) ls /\ chosen_mode (op_seccomp opts) ls ScKill
  /\ confined_by tr None /\ forall s argv, judge None s argv = VAllow.
Proof.
  exists no_fraction, no_order, (DaemonOpts (lit "/etc/letmeind.conf") (lit "/run") 8 true (Some ScKill) false), (ex_ld None true true).
  do 2 eexists. exists (lines main_file).
  split; [intros m; apply Permutation_refl|]. split; [vm_compute; reflexivity|]. split; [vm_compute; intuition|].
  split; [exists main_file, main_file; split; [reflexivity|split; [apply from_utf8_spec; vm_compute; reflexivity|apply lines_spec]]|].
  split; [left; reflexivity|].
  split; [|reflexivity].
  do 2 eexists. split; [match goal with |- ?l = _ => instantiate (2 := firstn 4 l) end; reflexivity|]. off.
Qed.
Print Assumptions C57_on_any_platform_refuted.

(** *** C58 *)

(** A start that fails can leave the control port open. *)
Theorem C58_failed_start_changes_nothing_refuted : exists fraction order opts os tr e k c pk,
  (forall m, Permutation m (order m))
  /\ letmeinfwd_main fraction order opts os = (tr, Err e) /\ ruleset_after (lf_kernel os) tr k
  /\ chain_accepts k c pk /\ ~ chain_accepts (lf_kernel os) c pk.
Proof.
  exists no_fraction, no_order, (ex_dopts false), (ex_lf true false). do 3 eexists.
  exists ex_main_chain, (Packet (V4 [192;0;2;1]) Tcp 5800).
  split; [intros m; apply Permutation_refl|]. split; [vm_compute; reflexivity|]. split.
  { right. eexists [_; _], _. split; [reflexivity|]. off. }
  split.
  - split; [exact Logic.I|]. eexists. split; [left; reflexivity|]. split; [reflexivity|]. vm_compute. auto.
  - intros (_ & r & [] & _).
Qed.
Print Assumptions C58_failed_start_changes_nothing_refuted.

(** However far a start of letmeinfwd comes: the firewall is as before, or the
    other chains are as before and letmein's chain accepts the control port and
    nothing else. *)
Theorem C58_start_opens_control_port_only_partial : forall fraction order opts os tr r k,
  (forall m, Permutation m (order m)) ->
  letmeinfwd_main fraction order opts os = (tr, r) -> ruleset_after (lf_kernel os) tr k ->
  k = lf_kernel os
  \/ exists ls conf c, started_from fraction VarServer (lf_file os) ls conf /\ configured_chain conf c
     /\ rules_elsewhere c k = rules_elsewhere c (lf_kernel os)
     /\ forall pk, ip_address (pk_src pk) ->
          (chain_accepts k c pk <-> traverses c pk /\ S_Firewall.to_control_port conf pk).
Proof.
  intros fraction order opts os tr r k OP H R. apply letmeinfwd_upto in H.
  destruct R as [(-> & _)|(a & b & E & _)]; [left; reflexivity|right].
  assert (I : In (EfRuleset k) tr) by (rewrite E; apply in_or_app; right; left; reflexivity).
  destruct H as [-> |(ids & _ & [(rest & P)|(conf & k' & d & f & rest & L & FS & P)])]; [destruct I| |].
  - exfalso. assert (J : In (EfRuleset k) (tr ++ rest)) by (apply in_or_app; auto). rewrite P in J.
    apply in_app_or in J. unfold mkdirs, chmods in J. destruct J as [J|J];
      [destruct (di_meta (lf_dir os)); simpl in J; intuition discriminate|destruct (op_test opts); simpl in J; intuition discriminate].
  - assert (K : k = k').
    { assert (J : In (EfRuleset k) (tr ++ rest)) by (apply in_or_app; auto). rewrite P in J. unfold letmeinfwd_trace in J.
      apply in_app_or in J. unfold mkdirs, chmods in J.
      destruct J as [J|J]; [destruct (di_meta (lf_dir os)); simpl in J; intuition discriminate|].
      apply in_app_or in J. destruct J as [J|[J|J]]; [destruct (op_test opts); simpl in J; intuition discriminate|congruence|].
      exfalso. apply in_app_or in J. destruct J as [J|J]; [|simpl in J; intuition discriminate].
      unfold listens, chmods in J. destruct (op_no_systemd opts); [|simpl in J; intuition discriminate].
      apply in_app_or in J. destruct J as [J|[J|J]]; [destruct (sock_there os); simpl in J; intuition discriminate|discriminate|].
      destruct (op_test opts); simpl in J; intuition discriminate. }
    subst k'. destruct (server_started _ _ _ _ _ OP L) as (ls & ST).
    destruct (start_cases _ _ _ _ _ _ FS) as [(d' & c & [= <-] & CC & _ & DK & PH & _ & _ & RE)|(_ & (e & [=]) & _)].
    exists ls, conf, c. split; [exact ST|]. split; [exact CC|]. split; [exact RE|]. intros pk IA.
    pose proof (hist_start conf c _ _ _ _ _ CC FS) as HS. rewrite <- DK.
    assert (MONO : clock_monotone (@nil (fw_event * option fw_message))).
    { unfold clock_monotone. intros. match goal with X : [] = _ |- _ => symmetry in X; apply app_eq_nil in X; destruct X; discriminate end. }
    rewrite (accepts_exact conf c d [] HS MONO PH pk IA).
    split; [intros (T & [C|(x & pt & port & (pre & y & post & t & Q & _) & _)]); [auto|destruct pre; discriminate]|tauto].
Qed.
Print Assumptions C58_start_opens_control_port_only_partial.

(** *** C59 *)

(** When the unix socket comes into being, its directory already belongs to root
    and the group letmeind and is closed to everybody else, and that does not
    change any more. *)
Theorem C59_socket_is_born_protected : forall fraction order opts os tr r,
  letmeinfwd_main fraction order opts os = (tr, r) -> op_test opts = false ->
  forall p pre post, tr = pre ++ EfBind p :: post ->
  p = Under (op_rundir opts) "letmeinfwd/letmeinfwd.sock"
  /\ exists gid, account (lf_group os) (lit "letmeind") gid
     /\ let dir := Under (op_rundir opts) "letmeinfwd" in
        owned_by pre dir 0 gid /\ mode_is pre dir (octal 7 5 0)
        /\ forall ev, In ev post -> ~ changes_access dir ev.
Proof.
  intros fraction order opts os tr r H NT p pre post E. apply letmeinfwd_upto in H.
  assert (I : In (EfBind p) tr) by (rewrite E; apply in_or_app; right; left; reflexivity).
  destruct H as [-> |(ids & RP & [(rest & P)|(conf & k & d & f & rest & L & FS & P)])]; [destruct I| |].
  - exfalso. assert (J : In (EfBind p) (tr ++ rest)) by (apply in_or_app; auto). rewrite P in J.
    apply in_app_or in J. unfold mkdirs, chmods in J. rewrite NT in J. destruct J as [J|J];
      [destruct (di_meta (lf_dir os)); simpl in J; intuition discriminate|simpl in J; intuition discriminate].
  - rewrite NT in RP. apply read_etc_passwd_spec in RP. destruct RP as (_ & GA).
    set (dir := Under (op_rundir opts) "letmeinfwd") in *.
    set (sock := Under (op_rundir opts) "letmeinfwd/letmeinfwd.sock") in *.
    unfold letmeinfwd_trace, listens, chmods in P. fold dir sock in P. rewrite NT in P.
    assert (ND : dir <> sock) by discriminate.
    assert (SPLIT : forall (X Y pre0 post0 : list effect), ~ In (EfBind p) X -> pre0 ++ EfBind p :: post0 = X ++ Y ->
              exists pre1, pre0 = X ++ pre1 /\ pre1 ++ EfBind p :: post0 = Y).
    { induction X as [|x X IH]; intros Y pre0 post0 N Q; [exists pre0; auto|].
      destruct pre0 as [|y pre0]; cbn [app] in Q; injection Q as Q1 Q2; [destruct N; left; auto|].
      destruct (IH Y pre0 post0) as (p1 & -> & Z); [intros J; apply N; right; exact J|exact Q2|].
      exists p1. subst. auto. }
    assert (PP : pre ++ EfBind p :: (post ++ rest) = mkdirs dir (lf_dir os) ++ [EfChown dir 0 (snd ids); EfChmod dir 488]
                  ++ [EfRuleset k] ++ (if op_no_systemd opts
                    then (if sock_there os then [EfUnlink sock] else []) ++ EfBind sock :: [EfChown sock 0 (snd ids); EfChmod sock 432]
                    else [EfReady])
                  ++ [EfTruncate (Under (op_rundir opts) "letmeinfwd/letmeinfwd.pid");
                      EfWrite (Under (op_rundir opts) "letmeinfwd/letmeinfwd.pid") (pidfile_content (lf_pid os));
                      EfConfine f; EfServe]).
    { cbn [app] in P |- *. rewrite <- P, E, <- app_assoc. reflexivity. }
    apply SPLIT in PP; [|unfold mkdirs; destruct (di_meta (lf_dir os)); off]. destruct PP as (p1 & -> & PP).
    apply SPLIT in PP; [|off]. destruct PP as (p2 & -> & PP).
    apply SPLIT in PP; [|off]. destruct PP as (p3 & -> & PP).
    destruct (op_no_systemd opts).
    2:{ exfalso. assert (J : In (EfBind p) (p3 ++ EfBind p :: post ++ rest)) by (apply in_or_app; right; left; reflexivity).
        rewrite PP in J. simpl in J. intuition discriminate. }
    rewrite <- app_assoc in PP. apply SPLIT in PP; [|destruct (sock_there os); off]. destruct PP as (p4 & -> & PP).
    assert (Q : p4 = [] /\ p = sock /\ post ++ rest = [EfChown sock 0 (snd ids); EfChmod sock 432]
        ++ [EfTruncate (Under (op_rundir opts) "letmeinfwd/letmeinfwd.pid");
            EfWrite (Under (op_rundir opts) "letmeinfwd/letmeinfwd.pid") (pidfile_content (lf_pid os));
            EfConfine f; EfServe]).
    { cbn [app] in PP |- *.
      destruct p4 as [|x0 p4]; cbn [app] in PP; [injection PP as -> ->; auto|exfalso]. injection PP as _ PP.
      assert (J : In (EfBind p) (p4 ++ EfBind p :: post ++ rest)) by (apply in_or_app; right; left; reflexivity).
      rewrite PP in J. simpl in J. intuition discriminate. }
    destruct Q as (-> & -> & Q). split; [reflexivity|]. exists (snd ids). split; [exact GA|]. cbv zeta.
    split; [|split].
    + exists (mkdirs dir (lf_dir os)), (EfChmod dir 488 :: EfRuleset k :: (if sock_there os then [EfUnlink sock] else [])).
      split; [cbn [app]; rewrite app_nil_r; reflexivity|]. destruct (sock_there os); off.
    + exists (mkdirs dir (lf_dir os) ++ [EfChown dir 0 (snd ids)]), (EfRuleset k :: (if sock_there os then [EfUnlink sock] else [])).
      split; [cbn [app]; rewrite app_nil_r, <- app_assoc; reflexivity|]. destruct (sock_there os); off.
    + intros ev J. assert (J' : In ev (post ++ rest)) by (apply in_or_app; auto). rewrite Q in J'. intros [(u & g & ->)|(m & ->)];
        unfold dir, sock in J'; simpl in J'; intuition discriminate.
Qed.
Print Assumptions C59_socket_is_born_protected.

(** When letmeinfwd serves on a socket that it made itself, root and the group
    letmeind can use it, and nobody else. *)
Theorem C59_socket_is_protected_while_serving : forall fraction order opts os tr r,
  letmeinfwd_main fraction order opts os = (tr, r) -> op_test opts = false -> op_no_systemd opts = true -> In EfServe tr ->
  exists gid, account (lf_group os) (lit "letmeind") gid
    /\ In (EfBind (Under (op_rundir opts) "letmeinfwd/letmeinfwd.sock")) tr
    /\ owned_by tr (Under (op_rundir opts) "letmeinfwd/letmeinfwd.sock") 0 gid
    /\ mode_is tr (Under (op_rundir opts) "letmeinfwd/letmeinfwd.sock") (octal 6 6 0).
Proof.
  intros fraction order opts os tr r H NT NS I. destruct (letmeinfwd_serves_ok _ _ _ _ _ _ H I) as ((((conf & ids) & d) & m) & ->).
  apply letmeinfwd_ok in H. destruct H as (RP & _ & _ & L & _ & _ & (k & f & _ & F & ->) & _).
  rewrite NT in RP. apply read_etc_passwd_spec in RP. destruct RP as (_ & GA).
  exists (snd ids). split; [exact GA|]. unfold letmeinfwd_trace, listens, chmods. rewrite NT, NS.
  set (dir := Under (op_rundir opts) "letmeinfwd") in *.
  set (sock := Under (op_rundir opts) "letmeinfwd/letmeinfwd.sock") in *.
  assert (ND : dir <> sock) by discriminate.
  set (A := mkdirs dir (lf_dir os) ++ [EfChown dir 0 (snd ids); EfChmod dir 488] ++ EfRuleset k :: (if sock_there os then [EfUnlink sock] else [])).
  match goal with |- context [In _ ?tr] => replace tr with (A ++ EfBind sock :: EfChown sock 0 (snd ids) :: EfChmod sock 432
      :: [EfTruncate (Under (op_rundir opts) "letmeinfwd/letmeinfwd.pid");
          EfWrite (Under (op_rundir opts) "letmeinfwd/letmeinfwd.pid") (pidfile_content (lf_pid os));
          EfConfine f; EfServe]) end.
  2:{ unfold A. cbn [app]. rewrite <- !app_assoc. cbn [app]. rewrite <- ?app_assoc. reflexivity. }
  split; [apply in_or_app; right; left; reflexivity|]. split.
  - exists (A ++ [EfBind sock]). eexists. split; [rewrite <- app_assoc; reflexivity|]. off.
  - exists (A ++ [EfBind sock; EfChown sock 0 (snd ids)]). eexists. split; [rewrite <- app_assoc; reflexivity|]. off.
Qed.
Print Assumptions C59_socket_is_protected_while_serving.

Example C59_witness : exists pre post,
  fst (letmeinfwd_main no_fraction no_order (ex_dopts false) (ex_lf true true))
  = pre ++ EfBind (Under (lit "/run") "letmeinfwd/letmeinfwd.sock") :: post
  /\ In EfServe post /\ In (EfUnlink (Under (lit "/run") "letmeinfwd/letmeinfwd.sock")) pre.
Proof. exists (firstn 4 (fst (letmeinfwd_main no_fraction no_order (ex_dopts false) (ex_lf true true)))). eexists.
  split; [vm_compute; reflexivity|]. split; vm_compute; intuition. Qed.

(** *** C60 *)

(** While letmeind serves, its PID file contains its process number; so a
    letmeinfwd with the same run directory accepts a connection exactly if it comes
    from this process, running as user and group letmeind. *)
Theorem C60_letmeind_is_recognised : forall fraction order opts os tr r,
  letmeind_main fraction order opts os = (tr, r) -> In EfServe tr ->
  exists content, file_is tr (Under (op_rundir opts) "letmeind/letmeind.pid") content
    /\ (ld_pid os < 2147483648 -> pid_file_says (Some content) (Z.of_N (ld_pid os))
        /\ forall passwd group ids c, read_etc_passwd false passwd group = Ok ids ->
             (fw_accept false ids (Some content) (Ok c) = Ok c <->
              cr_pid c = Some (Z.of_N (ld_pid os)) /\ account passwd (lit "letmeind") (cr_uid c)
              /\ account group (lit "letmeind") (cr_gid c))).
Proof.
  intros fraction order opts os tr r H I. destruct (letmeind_serves_ok _ _ _ _ _ _ H I) as ((conf & d) & ->).
  apply letmeind_ok in H. destruct H as (_ & L & _ & (t & u & f & _ & F & ->) & _).
  exists (pidfile_content (ld_pid os)). split.
  - exists (mkdirs (Under (op_rundir opts) "letmeind") (ld_dir os) ++ EfListen t u :: readies t u), [EfConfine f; EfServe].
    split; [unfold letmeind_trace; rewrite <- app_assoc; reflexivity|]. off.
  - intros B. pose proof (own_pid_file _ B) as OP. split; [exact OP|]. intros passwd group ids c R.
    apply read_etc_passwd_spec in R. destruct R as (U & G). rewrite fw_accept_spec. split.
    + intros (_ & p & CP & PS & EU & EG). rewrite EU, EG. split; [|auto]. rewrite CP. f_equal. eapply pid_file_fun; eauto.
    + intros (CP & AU & AG). split; [reflexivity|]. exists (Z.of_N (ld_pid os)). split; [exact CP|]. split; [exact OP|].
      apply os_get_id_spec in U, G, AU, AG. split; congruence.
Qed.
Print Assumptions C60_letmeind_is_recognised.

Example C60_witness : In EfServe (fst (letmeind_main no_fraction no_order (ex_dopts true) (ex_ld (Some ex_target) true true)))
  /\ In EfReady (fst (letmeind_main no_fraction no_order (ex_dopts true) (ex_ld (Some ex_target) true true))).
Proof. vm_compute. intuition. Qed.

(** *** C61 *)

(** Readiness is announced too early: the start may still fail. *)
Theorem C61_ready_means_serving_refuted :
  (exists fraction order opts os tr e, (forall m, Permutation m (order m))
     /\ letmeind_main fraction order opts os = (tr, Err e) /\ In EfReady tr /\ ~ In EfServe tr)
  /\ (exists fraction order opts os tr e, (forall m, Permutation m (order m))
     /\ letmeinfwd_main fraction order opts os = (tr, Err e) /\ In EfReady tr /\ ~ In EfServe tr).
Proof.
  split.
  - exists no_fraction, no_order, (ex_dopts true), (ex_ld (Some ex_target) true false). do 2 eexists.
    split; [intros m; apply Permutation_refl|]. split; [vm_compute; reflexivity|]. split; [vm_compute; intuition|]. off.
  - exists no_fraction, no_order, (ex_dopts true), (ex_lf false true). do 2 eexists.
    split; [intros m; apply Permutation_refl|]. split; [vm_compute; reflexivity|]. split; [vm_compute; intuition|]. off.
Qed.
Print Assumptions C61_ready_means_serving_refuted.

(** But when letmeind says that it is ready, it has a valid configuration and
    listens on a socket of systemd. *)
Theorem C61_letmeind_ready_partial : forall fraction order opts os tr r,
  (forall m, Permutation m (order m)) ->
  letmeind_main fraction order opts os = (tr, r) -> In EfReady tr ->
  exists ls conf t u pre post, started_from fraction VarServer (ld_file os) ls conf
    /\ tr = pre ++ EfListen t u :: EfReady :: post
    /\ op_no_systemd opts = false
    /\ exists fd, (t = Some (LSystemd fd) /\ cp_tcp (c_port conf) = true) \/ (u = Some (LSystemd fd) /\ cp_udp (c_port conf) = true).
Proof.
  intros fraction order opts os tr r OP H I. apply letmeind_upto in H.
  assert (MK : ~ In EfReady (mkdirs (Under (op_rundir opts) "letmeind") (ld_dir os)))
    by (unfold mkdirs; destruct (di_meta (ld_dir os)); off).
  destruct H as [(rest & E)|(conf & t & u & f & rest & L & S & E)].
  - exfalso. apply MK. rewrite <- E. apply in_or_app. auto.
  - destruct (server_started _ _ _ _ _ OP L) as (ls & ST).
    assert (RD : readies t u = [EfReady]).
    { assert (J : In EfReady (tr ++ rest)) by (apply in_or_app; auto). rewrite E in J. unfold letmeind_trace in J.
      apply in_app_or in J. destruct J as [J|[J|J]]; [contradiction|discriminate|]. apply in_app_or in J.
      unfold readies in *. destruct (_ || _); [reflexivity|]. simpl in J. intuition discriminate. }
    unfold letmeind_trace in E. rewrite RD in E.
    assert (PRE : forall (X : list effect) Y tr0, ~ In EfReady X -> In EfReady tr0 -> (exists rest0, tr0 ++ rest0 = X ++ EfReady :: Y) ->
              exists post, tr0 = X ++ EfReady :: post).
    { induction X as [|x X IH]; intros Y tr0 N J (rest0 & Q); (destruct tr0 as [|y tr0]; [destruct J|]); cbn [app] in Q;
        injection Q as -> Q; [exists tr0; reflexivity|].
      destruct J as [->|J]; [destruct N; left; reflexivity|]. destruct (IH Y tr0) as (post & ->); [|exact J|eauto|exists post; reflexivity].
      intros Z. apply N. right. exact Z. }
    destruct (PRE (mkdirs (Under (op_rundir opts) "letmeind") (ld_dir os) ++ [EfListen t u])
      ([EfTruncate (Under (op_rundir opts) "letmeind/letmeind.pid");
        EfWrite (Under (op_rundir opts) "letmeind/letmeind.pid") (pidfile_content (ld_pid os)); EfConfine f; EfServe]) tr) as (post & ET).
    + intros J. apply in_app_or in J. destruct J as [J|J]; [contradiction|simpl in J; intuition discriminate].
    + exact I.
    + exists rest. rewrite E, <- app_assoc. reflexivity.
    + exists ls, conf, t, u, (mkdirs (Under (op_rundir opts) "letmeind") (ld_dir os)), post.
      split; [exact ST|]. split; [rewrite ET, <- app_assoc; reflexivity|].
      destruct (C44_only_configured _ _ _ _ _ _ S) as (CT & CU). split.
      * destruct (op_no_systemd opts) eqn:NS; [|reflexivity]. exfalso.
        destruct (C44_bound_exactly _ _ _ _ _ _ (or_introl eq_refl) S) as (-> & ->). unfold readies in RD.
        destruct (cp_tcp (c_port conf)), (cp_udp (c_port conf)); discriminate.
      * unfold readies in RD. destruct (from_systemd t) eqn:FT.
        -- destruct t as [[fd|p]|]; try discriminate. exists fd. left. split; [reflexivity|]. apply CT. discriminate.
        -- destruct (from_systemd u) eqn:FU; [|discriminate]. destruct u as [[fd|p]|]; try discriminate. exists fd. right.
           split; [reflexivity|]. apply CU. discriminate.
Qed.
Print Assumptions C61_letmeind_ready_partial.

(** And when letmeinfwd says that it is ready, it has a valid configuration, the
    firewall is initialised and it has a socket of systemd. *)
Theorem C61_letmeinfwd_ready_partial : forall fraction order opts os tr r,
  (forall m, Permutation m (order m)) ->
  letmeinfwd_main fraction order opts os = (tr, r) -> In EfReady tr ->
  exists ls conf c k pre post, started_from fraction VarServer (lf_file os) ls conf /\ configured_chain conf c
    /\ tr = pre ++ EfRuleset k :: EfReady :: post
    /\ Permutation (map content (rules_of c k)) (control_contents conf)
    /\ op_no_systemd opts = false.
Proof.
  intros fraction order opts os tr r OP H I. apply letmeinfwd_upto in H.
  set (dir := Under (op_rundir opts) "letmeinfwd") in *.
  destruct H as [-> |(ids & RP & [(rest & P)|(conf & k & d & f & rest & L & FS & P)])]; [destruct I| |];
  assert (MK : ~ In EfReady (mkdirs dir (lf_dir os) ++ chmods (op_test opts) dir (snd ids) 488))
    by (intros J; apply in_app_or in J; unfold mkdirs, chmods in J; destruct (di_meta (lf_dir os)), (op_test opts);
        simpl in J; intuition discriminate).
  - exfalso. apply MK. rewrite <- P. apply in_or_app. auto.
  - destruct (server_started _ _ _ _ _ OP L) as (ls & ST).
    destruct (start_cases _ _ _ _ _ _ FS) as [(d' & c & [= <-] & CC & _ & DK & PH & _ & PM & RE)|(_ & (e & [=]) & _)].
    destruct (op_no_systemd opts) eqn:NS.
    + exfalso. assert (J : In EfReady (tr ++ rest)) by (apply in_or_app; auto). rewrite P in J. unfold letmeinfwd_trace in J.
      fold dir in J. rewrite app_assoc in J. apply in_app_or in J. destruct J as [J|[J|J]]; [contradiction|discriminate|].
      unfold listens, chmods in J. rewrite NS in J. destruct (sock_there os), (op_test opts); simpl in J; intuition discriminate.
    + unfold letmeinfwd_trace, listens in P. rewrite NS in P. fold dir in P.
      assert (PRE : forall (X : list effect) Y tr0, ~ In EfReady X -> In EfReady tr0 -> (exists rest0, tr0 ++ rest0 = X ++ EfReady :: Y) ->
              exists post, tr0 = X ++ EfReady :: post).
      { induction X as [|x X IH]; intros Y tr0 N J (rest0 & Q); (destruct tr0 as [|y tr0]; [destruct J|]); cbn [app] in Q;
          injection Q as -> Q; [exists tr0; reflexivity|].
        destruct J as [->|J]; [destruct N; left; reflexivity|]. destruct (IH Y tr0) as (post & ->); [|exact J|eauto|exists post; reflexivity].
        intros Z. apply N. right. exact Z. }
      destruct (PRE ((mkdirs dir (lf_dir os) ++ chmods (op_test opts) dir (snd ids) 488) ++ [EfRuleset k])
        ([EfTruncate (Under (op_rundir opts) "letmeinfwd/letmeinfwd.pid");
          EfWrite (Under (op_rundir opts) "letmeinfwd/letmeinfwd.pid") (pidfile_content (lf_pid os)); EfConfine f; EfServe]) tr) as (post & ET).
      * intros J. apply in_app_or in J. destruct J as [J|J]; [contradiction|simpl in J; intuition discriminate].
      * exact I.
      * exists rest. rewrite P, <- !app_assoc. reflexivity.
      * exists ls, conf, c, k, (mkdirs dir (lf_dir os) ++ chmods (op_test opts) dir (snd ids) 488), post.
        split; [exact ST|]. split; [exact CC|]. split; [rewrite ET, <- !app_assoc; reflexivity|]. auto.
Qed.
Print Assumptions C61_letmeinfwd_ready_partial.

(** *** C62 *)

Lemma dir_possible_has : forall d, dir_possible d <-> has_directory d.
Proof.
  intros d. unfold dir_possible, has_directory. destruct (di_meta d) as [m|]; split.
  - intros E. left. eauto.
  - intros [(x & [= <-] & E)|([=] & _)]. exact E.
  - auto.
  - intros [(x & [=] & _)|(_ & E)]. exact E.
Qed.
Lemma install_ok : forall tg install l mode, In l [LETMEIND_ALLOW; LETMEINFWD_ALLOW; LETMEIN_ALLOW] ->
  ((exists f, install_seccomp_rules tg install l mode = Ok f) <-> can_confine mode tg install).
Proof.
  intros tg install l mode I. unfold can_confine. split.
  - intros (f & H). destruct mode; [auto| |]; right; (destruct tg as [tg|]; [right|auto]); unfold install_seccomp_rules in H;
      (destruct (compile tg l _); cbn [bind] in H; [|discriminate H|discriminate H]; destruct install; [reflexivity|discriminate H]).
  - intros [-> |[-> | ->]].
    + exists None. reflexivity.
    + exists None. destruct mode; reflexivity.
    + destruct tg as [tg|]; [|exists None; destruct mode; reflexivity].
      destruct (C45_filters_exist tg mode l I) as (f & E & _). eauto.
Qed.
Lemma mode_fun : forall fraction v file ls conf given mode, started_from fraction v file ls conf ->
  chosen_mode given ls mode -> mode = match given with Some m => m | None => c_seccomp conf end.
Proof.
  intros fraction v file ls conf given mode ST [-> |(-> & S)]; [reflexivity|].
  destruct (started_configures _ _ _ _ _ ST) as (CF & _). pose proof (cf_seccomp _ _ _ CF) as S2.
  destruct ST as (o & p & _ & _ & W & _).
  eapply setting_fun; [| |exact S|exact S2].
  - intros t a b A B. apply parse_seccomp_spec in A, B. congruence.
  - intros. eapply has_option_fun; eauto.
Qed.

(** letmeind, if systemd has no sockets for it: it starts exactly if it can use
    its directory, the file is a configuration, the port can be bound, the PID file
    can be written and the filter can be installed. *)
Theorem C62_letmeind_starts : forall fraction order opts os,
  (forall m, Permutation m (order m)) -> op_no_systemd opts = true \/ ld_sockets os = Ok [] ->
  ((exists tr x, letmeind_main fraction order opts os = (tr, Ok x)) <->
   has_directory (ld_dir os) /\ ld_signals os = true /\ can_write (ld_pidfile os)
   /\ exists ls conf mode, file_lines (ld_file os) ls /\ well_formed ls
        /\ configures (duration_text fraction) ls conf /\ c_variant conf = VarServer
        /\ (cp_tcp (c_port conf) = true -> os_bind_tcp (ld_net os) = true)
        /\ (cp_udp (c_port conf) = true -> os_bind_udp (ld_net os) = true)
        /\ chosen_mode (op_seccomp opts) ls mode /\ can_confine mode (ld_target os) (ld_install os)).
Proof.
  intros fraction order opts os OP NS.
  assert (SN : forall cp, (exists tu, server_new (ld_net os) cp (op_no_systemd opts) (ld_sockets os) = Ok tu) <->
     (cp_tcp cp = true -> os_bind_tcp (ld_net os) = true) /\ (cp_udp cp = true -> os_bind_udp (ld_net os) = true)).
  { intros cp. unfold server_new.
    destruct NS as [-> | ->]; [|destruct (op_no_systemd opts)]; cbn;
      destruct (cp_tcp cp), (cp_udp cp), (os_bind_tcp (ld_net os)), (os_bind_udp (ld_net os)); cbn;
      (split; [intros (tu & X); first [discriminate X|clear X; auto]
              |intros (A & B); first [eexists; reflexivity|discriminate (A eq_refl)|discriminate (B eq_refl)]]). }
  split.
  - intros (tr & (conf & d) & H). apply letmeind_ok in H.
    destruct H as (DP & L & SG & (t & u & f & S & F & _) & PO & PW & _).
    destruct (server_started _ _ _ _ _ OP L) as (ls & ST). pose proof (started_configures _ _ _ _ _ ST) as (CF & V).
    pose proof ST as (o' & p' & _ & FL & W & _).
    split; [apply dir_possible_has; exact DP|]. split; [exact SG|]. split; [split; assumption|].
    exists ls, conf, (match op_seccomp opts with Some m => m | None => c_seccomp conf end).
    split; [exact FL|]. split; [exact W|]. split; [exact CF|]. split; [exact V|].
    assert (B : (cp_tcp (c_port conf) = true -> os_bind_tcp (ld_net os) = true)
                /\ (cp_udp (c_port conf) = true -> os_bind_udp (ld_net os) = true)) by (apply SN; eauto).
    split; [apply B|]. split; [apply B|]. split.
    + destruct (op_seccomp opts) as [m|]; [left; reflexivity|right; split; [reflexivity|exact (cf_seccomp _ _ _ CF)]].
    + apply (install_ok _ _ LETMEIND_ALLOW); [simpl; auto|eauto].
  - intros (DP & SG & (PO & PW) & ls & conf & mode & FL & W & CF & V & BT & BU & CM & CC).
    destruct (load_possible fraction order OP (conf_new VarServer) (op_config opts) _ _ _ FL W CF V) as (conf' & L).
    assert (ST : started_from fraction VarServer (ld_file os) ls conf') by (exists order, (op_config opts); auto).
    pose proof (started_configures _ _ _ _ _ ST) as (CF' & V').
    assert (SC : same_config conf conf') by (eapply configures_fun; eauto; congruence).
    destruct SC as (_ & _ & EP & _). rewrite EP in BT, BU.
    destruct (proj2 (SN (c_port conf')) (conj BT BU)) as ((t & u) & S).
    destruct (proj2 (install_ok (ld_target os) (ld_install os) LETMEIND_ALLOW mode (or_introl eq_refl)) CC) as (f & F).
    rewrite (mode_fun _ _ _ _ _ _ _ ST CM) in F.
    exists (letmeind_trace opts os t u f), (conf', daemon_start (op_num_connections opts)). apply letmeind_ok.
    split; [apply dir_possible_has; exact DP|]. split; [exact L|]. split; [exact SG|]. split; [|auto]. exists t, u, f. auto.
Qed.
Print Assumptions C62_letmeind_starts.

(** letmeinfwd: it starts exactly if the accounts of letmeind exist, it can use and
    protect its directory, the file is a configuration with an existing chain, nft
    works, it gets its socket, the PID file can be written and the filter can be
    installed. *)
Theorem C62_letmeinfwd_starts : forall fraction order opts os,
  (forall m, Permutation m (order m)) -> op_test opts = false ->
  ((exists tr x, letmeinfwd_main fraction order opts os = (tr, Ok x)) <->
   (exists uid, account (lf_passwd os) (lit "letmeind") uid) /\ (exists gid, account (lf_group os) (lit "letmeind") gid)
   /\ has_directory (lf_dir os) /\ can_chown (lf_owner os) /\ lf_signals os = true /\ can_write (lf_pidfile os)
   /\ (if op_no_systemd opts
       then ((exists mode, lf_at_path os = Some mode /\ N.land mode 61440 = 49152) -> lf_remove os = true)
            /\ lf_bind os = true /\ can_chown (lf_sock_owner os)
       else (exists fd r, lf_sockets os = Ok (SdUnix fd :: r)) /\ lf_adopt os = true /\ lf_notify os = true)
   /\ lf_nft_exe os = true /\ lf_nft_ok os = true
   /\ exists ls conf mode c, file_lines (lf_file os) ls /\ well_formed ls
        /\ configures (duration_text fraction) ls conf /\ c_variant conf = VarServer
        /\ configured_chain conf c /\ has_chain (lf_kernel os) c = true
        /\ chosen_mode (op_seccomp opts) ls mode /\ can_confine mode (lf_target os) (lf_install os)).
Proof.
  intros fraction order opts os OP NT.
  assert (OWN : forall o, owner_possible false o <-> can_chown o)
    by (intros o; unfold owner_possible, can_chown; intuition discriminate).
  assert (LIS : listen_possible opts os <->
     (if op_no_systemd opts
       then ((exists mode, lf_at_path os = Some mode /\ N.land mode 61440 = 49152) -> lf_remove os = true)
            /\ lf_bind os = true /\ can_chown (lf_sock_owner os)
       else (exists fd r, lf_sockets os = Ok (SdUnix fd :: r)) /\ lf_adopt os = true /\ lf_notify os = true)).
  { unfold listen_possible. rewrite NT. destruct (op_no_systemd opts); [|reflexivity]. rewrite OWN.
    assert (SE : sock_there os = true <-> exists mode, lf_at_path os = Some mode /\ N.land mode 61440 = 49152).
    { unfold sock_there. destruct (lf_at_path os) as [m|].
      - rewrite N.eqb_eq. split; [eauto|intros (x & [= <-] & E); exact E].
      - split; [discriminate|intros (x & [=] & _)]. }
    rewrite SE. reflexivity. }
  split.
  - intros (tr & (((conf & ids) & d) & m) & H). apply letmeinfwd_ok in H.
    destruct H as (RP & DP & O & L & SG & LP & (k & f & FS & F & _) & PO & PW & _).
    rewrite NT in RP, O. apply read_etc_passwd_spec in RP. destruct RP as (UA & GA).
    destruct (server_started _ _ _ _ _ OP L) as (ls & ST). pose proof (started_configures _ _ _ _ _ ST) as (CF & V).
    pose proof ST as (o' & p' & _ & FL & W & _).
    assert (NE : lf_nft_exe os = true /\ lf_nft_ok os = true).
    { unfold fw_start, fw_new in FS. destruct (lf_nft_exe os); [|discriminate]. split; [reflexivity|].
      destruct (lf_nft_ok os); [reflexivity|exfalso].
      unfold full_rebuild in FS. destruct (bind _ _); cbn [apply_batch] in FS; discriminate. }
    destruct (start_cases _ _ _ _ _ _ FS) as [(d' & c & [= <-] & CC & HC & _)|(_ & (e & [=]) & _)].
    split; [eauto|]. split; [eauto|]. split; [apply dir_possible_has; exact DP|]. split; [apply OWN; exact O|].
    split; [exact SG|]. split; [split; assumption|]. split; [apply LIS; exact LP|]. split; [apply NE|]. split; [apply NE|].
    exists ls, conf, (match op_seccomp opts with Some m => m | None => c_seccomp conf end), c.
    do 6 (split; [assumption|]). split.
    + destruct (op_seccomp opts) as [md|]; [left; reflexivity|right; split; [reflexivity|exact (cf_seccomp _ _ _ CF)]].
    + apply (install_ok _ _ LETMEINFWD_ALLOW); [simpl; auto|eauto].
  - intros ((uid & UA) & (gid & GA) & DP & O & SG & (PO & PW) & LP & NE & NO & ls & conf & mode & c & FL & W & CF & V & CC & HC & CM & CO).
    destruct (load_possible fraction order OP (conf_new VarServer) (op_config opts) _ _ _ FL W CF V) as (conf' & L).
    assert (ST : started_from fraction VarServer (lf_file os) ls conf') by (exists order, (op_config opts); auto).
    pose proof (started_configures _ _ _ _ _ ST) as (CF' & V').
    assert (SC : same_config conf conf') by (eapply configures_fun; eauto; congruence).
    destruct SC as (_ & _ & _ & _ & _ & _ & _ & _ & _ & SN). destruct (SN V) as (_ & EF & ET & EC & _).
    destruct (fw_start conf' (lf_kernel os) (lf_nft_exe os) (lf_nft_ok os)) as [k r] eqn:FS.
    assert (D : exists d, r = Ok d).
    { destruct (start_cases _ _ _ _ _ _ FS) as [(d' & c' & -> & _)|(_ & _ & [X|[X|X]])]; [eauto|congruence|congruence|].
      rewrite (X c) in HC; [discriminate|]. unfold configured_chain in *. rewrite <- EF, <- ET, <- EC. exact CC. }
    destruct D as (d & ->).
    destruct (proj2 (install_ok (lf_target os) (lf_install os) LETMEINFWD_ALLOW mode (or_intror (or_introl eq_refl))) CO) as (f & F).
    rewrite (mode_fun _ _ _ _ _ _ _ ST CM) in F.
    exists (letmeinfwd_trace opts os gid k f), (conf', (uid, gid), d, daemon_start (op_num_connections opts)).
    apply letmeinfwd_ok. rewrite NT.
    split; [apply read_etc_passwd_spec; auto|]. split; [apply dir_possible_has; exact DP|]. split; [apply OWN; exact O|].
    split; [exact L|]. split; [exact SG|]. split; [apply LIS; exact LP|]. split; [|auto]. exists k, f. auto.
Qed.
Print Assumptions C62_letmeinfwd_starts.

(** A start never panics, unless the signal handlers cannot be registered. *)
Theorem C62_start_never_panics : forall fraction order opts, (forall m, Permutation m (order m)) ->
  (forall os, ld_signals os = true -> ld_sockets os <> Panic -> snd (letmeind_main fraction order opts os) <> Panic)
  /\ (forall os, lf_signals os = true -> lf_sockets os <> Panic -> snd (letmeinfwd_main fraction order opts os) <> Panic).
Proof.
  intros fraction order opts OP. split; intros os SG NP.
  - change (calm (letmeind_main fraction order opts os)). unfold letmeind_main. rewrite SG.
    apply calm_then; [apply calm_create|intros _ _]. apply calm_then; [apply calm_load; exact OP|intros conf _].
    apply calm_then; [apply calm_lift; discriminate|intros _ _].
    apply calm_then; [apply calm_lift, server_new_calm; exact NP|intros tu _].
    apply calm_then; [apply (calm_lift _ (Ok tt)); discriminate|intros _ _].
    apply calm_then; [apply calm_pidfile|intros _ _].
    apply calm_then; [apply calm_lift, install_no_panic; simpl; auto|intros f _].
    apply calm_then; [apply (calm_lift _ (Ok tt)); discriminate|intros _ _]. apply (calm_lift _ (Ok _)). discriminate.
  - change (calm (letmeinfwd_main fraction order opts os)). unfold letmeinfwd_main. rewrite SG.
    apply calm_then.
    { apply calm_lift. unfold read_etc_passwd. destruct (op_test opts); [discriminate|].
      pose proof (os_get_id_no_panic (lf_passwd os) (lit "letmeind")). pose proof (os_get_id_no_panic (lf_group os) (lit "letmeind")).
      destruct (os_get_id (lf_passwd os) (lit "letmeind")); cbn [bind]; try congruence.
      destruct (os_get_id (lf_group os) (lit "letmeind")); cbn [bind]; congruence. }
    intros ids _. apply calm_then; [apply calm_create|intros _ _].
    apply calm_then; [destruct (op_test opts); [apply (calm_lift _ (Ok tt)); discriminate|apply calm_owner]|intros _ _].
    apply calm_then; [apply calm_load; exact OP|intros conf _].
    apply calm_then.
    { unfold init_firewall. destruct (fw_start conf (lf_kernel os) (lf_nft_exe os) (lf_nft_ok os)) as [k r] eqn:FS.
      destruct (start_cases _ _ _ _ _ _ FS) as [(d' & c & -> & _)|(_ & (e & ->) & _)]; unfold calm; discriminate. }
    intros d _. apply calm_then; [apply calm_lift; discriminate|intros _ _].
    apply calm_then.
    { unfold fw_listen. destruct (op_no_systemd opts); cbn [negb].
      - apply calm_then; [match goal with |- calm (if ?b then _ else _) => destruct b end;
          [apply calm_call|apply (calm_lift _ (Ok tt)); discriminate]|intros _ _].
        apply calm_then; [apply calm_call|intros _ _].
        apply calm_then; [destruct (op_test opts); [apply (calm_lift _ (Ok tt)); discriminate|apply calm_owner]|intros _ _].
        apply (calm_lift _ (Ok _)). discriminate.
      - apply calm_then; [apply calm_lift; exact NP|intros s _].
        destruct s as [|[x|x|x] s]; try (apply calm_lift; discriminate).
        apply calm_then; [apply calm_call|intros _ _]. apply calm_then; [apply calm_call|intros _ _].
        apply (calm_lift _ (Ok _)). discriminate. }
    intros l _. apply calm_then; [apply calm_pidfile|intros _ _].
    apply calm_then; [apply calm_lift, install_no_panic; simpl; auto|intros f _].
    apply calm_then; [apply (calm_lift _ (Ok tt)); discriminate|intros _ _]. apply (calm_lift _ (Ok _)). discriminate.
Qed.
Print Assumptions C62_start_never_panics.

Example C62_witness : (exists tr x, letmeind_main no_fraction no_order (ex_dopts false) (ex_ld (Some ex_target) true true) = (tr, Ok x))
  /\ (exists tr x, letmeinfwd_main no_fraction no_order (ex_dopts false) (ex_lf true true) = (tr, Ok x))
  /\ (exists tr x, letmeinfwd_main no_fraction no_order (ex_dopts true) (ex_lf true true) = (tr, Ok x))
  /\ (exists tr e, letmeind_main no_fraction no_order (ex_dopts false) (ex_ld (Some ex_target) false true) = (tr, Err e)).
Proof. repeat split; eexists _, _; vm_compute; reflexivity. Qed.

(** *** C63 *)

(** What the client does, exactly: all texts of the command line are valid, the
    file is a configuration or no configuration file at all, the filter can be
    installed, and there is a command. *)
Theorem C63_command_line : forall fraction order mac parse_ip o file tg install f conf act,
  client_main fraction order mac parse_ip o file tg install = Ok (f, conf, act) <->
  exists srv crypt sec user,
    dns_text (dns_option o) srv /\ crypt_text (crypt_option o) crypt
    /\ given_as seccomp_text (ro_seccomp o) sec /\ given_as id_text (user_given (ro_command o)) user
    /\ conf_load fraction order (conf_new VarClient) (ro_config o) file = (conf, Ok tt)
    /\ install_seccomp_rules tg install LETMEIN_ALLOW (match sec with Some m => m | None => c_seccomp conf end) = Ok f
    /\ match ro_command o with
       | None => False
       | Some (RawKnock host port _ server_port tcp udp ipv4 ipv6) =>
           act = DoKnock (run_knock mac parse_ip conf host (KnockServer (addr_mode_of ipv4 ipv6) server_port tcp udp)
                            port user srv crypt)
       | Some (RawGenKey _) => act = DoGenKey (genkey_line (c_default_user conf) user)
       end.
Proof.
  intros fraction order mac parse_ip o file tg install f conf act.
  assert (OPT : forall (A : Type) (parse : text -> res A) (means : text -> A -> Prop) t x,
    (forall t a, parse t = Ok a <-> means t a) -> (opt_parse parse t = Ok x <-> given_as means t x)).
  { intros A parse means t x E. unfold opt_parse, given_as. destruct t as [t|].
    - destruct (parse t) as [a|e|] eqn:P.
      + split; [intros [= <-]; apply E; exact P|]. destruct x as [b|]; [|intros []]. intros M. apply E in M. congruence.
      + split; [discriminate|]. destruct x as [b|]; [|intros []]. intros M. apply E in M. congruence.
      + split; [discriminate|]. destruct x as [b|]; [|intros []]. intros M. apply E in M. congruence.
    - split; [intros [= <-]; exact Logic.I|]. destruct x; [intros []|reflexivity]. }
  unfold client_main. fold (dns_option o). fold (crypt_option o). split.
  - destruct (parse_dns (dns_option o)) as [srv| |] eqn:D; cbn [bind]; try discriminate.
    destruct (parse_dns_crypt (crypt_option o)) as [crypt| |] eqn:C; cbn [bind]; try discriminate.
    destruct (opt_parse parse_seccomp (ro_seccomp o)) as [sec| |] eqn:S; cbn [bind]; try discriminate.
    destruct (opt_parse parse_user (user_given (ro_command o))) as [user| |] eqn:U; cbn [bind]; try discriminate.
    destruct (conf_load fraction order (conf_new VarClient) (ro_config o) file) as [conf' [[]|e|]] eqn:L; try discriminate.
    destruct (install_seccomp_rules _ _ _ _) as [f'| |] eqn:F; cbn [bind]; try discriminate.
    intros H. exists srv, crypt, sec, user.
    split; [apply parse_dns_spec; exact D|]. split; [apply parse_crypt_spec; exact C|].
    split; [apply (OPT _ _ _ _ _ parse_seccomp_spec); exact S|]. split; [apply (OPT _ _ _ _ _ parse_id_spec); exact U|].
    destruct (ro_command o) as [[host port u sp tcp udp i4 i6|u]|]; try discriminate; injection H as <- <- <-; auto.
  - intros (srv & crypt & sec & user & D & C & S & U & L & F & A).
    apply parse_dns_spec in D. apply parse_crypt_spec in C. apply (OPT _ _ _ _ _ parse_seccomp_spec) in S.
    apply (OPT _ _ _ _ _ parse_id_spec) in U. change parse_user with parse_id. rewrite D, C, S, U, L. cbn [bind]. rewrite F. cbn [bind].
    destruct (ro_command o) as [[host port u sp tcp udp i4 i6|u]|]; [rewrite A; reflexivity|rewrite A; reflexivity|destruct A].
Qed.
Print Assumptions C63_command_line.

(** No DNS service is asked that the options --dns and --dns-crypt, or their
    defaults, do not name. *)
Theorem C63_only_named_services : forall fraction order mac parse_ip o file tg install f conf p,
  client_main fraction order mac parse_ip o file tg install = Ok (f, conf, DoKnock p) ->
  forall T tr p' s m r, crun T p tr p' -> In (CeLookup s m r) tr -> named o s.
Proof.
  intros fraction order mac parse_ip o file tg install f conf p H T tr p' s m r R I.
  apply C63_command_line in H. destruct H as (srv & crypt & sec & user & D & C & _ & _ & _ & _ & A).
  destruct (ro_command o) as [[host port u sp tcp udp i4 i6|u]|]; [|discriminate|destruct A]. injection A as ->.
  pose proof (asks_run _ _ _ _ _ R (asks_run_knock _ _ _ _ _ _ _ _ _) _ _ _ I) as E. cbn beta in E.
  destruct D as (_ & DS & DQ & DG & DC). destruct C as (_ & CT & CH & CU). unfold named.
  destruct s as [|[] []]; cbn [enabled] in E; cbn [provider_word crypt_word]; rewrite ?andb_true_iff in E; tauto.
Qed.
Print Assumptions C63_only_named_services.

(** The client runs under the filter of the mode that the command line or else
    the file says. *)
Theorem C63_client_confined : forall fraction order mac parse_ip o file tg install f conf act,
  (forall m, Permutation m (order m)) ->
  client_main fraction order mac parse_ip o file (Some tg) install = Ok (f, conf, act) ->
  exists mode, confinement mode letmein_may tg f
    /\ match ro_seccomp o with
       | Some t => seccomp_text t mode
       | None => client_setting file "GENERAL" "seccomp" seccomp_text ScOff mode
       end.
Proof.
  intros fraction order mac parse_ip o file tg install f conf act OP H. apply C63_command_line in H.
  destruct H as (srv & crypt & sec & user & _ & _ & S & _ & L & F & _). eexists.
  split; [eapply confine_ok; [intros; eapply C45_letmein_exact; eassumption|exact F]|].
  unfold given_as in S. destruct (ro_seccomp o), sec; try contradiction; [exact S|].
  apply (client_conf _ _ _ _ _ OP) in L. destruct L as [(ls & ST)|(NW & ->)].
  - left. exists ls. destruct (started_configures _ _ _ _ _ ST) as (CF & _). destruct ST as (o' & p' & _ & FL & W & _).
    split; [exact FL|]. split; [exact W|exact (cf_seccomp _ _ _ CF)].
  - right. split; [exact NW|reflexivity].
Qed.
Print Assumptions C63_client_confined.

(** The start of the client never panics. *)
Theorem C63_client_start_never_panics : forall fraction order mac parse_ip o file tg install,
  (forall m, Permutation m (order m)) ->
  client_main fraction order mac parse_ip o file tg install <> Panic.
Proof.
  intros fraction order mac parse_ip o file tg install OP. unfold client_main.
  pose proof (parse_dns_no_panic (match ro_dns o with Some t => t | None => lit "system,quad9,google,cloudflare" end)) as N1.
  destruct (parse_dns _); cbn [bind]; try congruence.
  pose proof (parse_crypt_no_panic (match ro_dns_crypt o with Some t => t | None => lit "tls,https,unencrypted" end)) as N2.
  destruct (parse_dns_crypt _); cbn [bind]; try congruence.
  assert (N3 : opt_parse parse_seccomp (ro_seccomp o) <> Panic).
  { unfold opt_parse. destruct (ro_seccomp o) as [t|]; [|discriminate]. pose proof (parse_seccomp_no_panic t).
    destruct (parse_seccomp t); congruence. }
  destruct (opt_parse parse_seccomp _); cbn [bind]; try congruence.
  assert (N4 : opt_parse parse_user (user_given (ro_command o)) <> Panic).
  { unfold opt_parse, parse_user. destruct (user_given (ro_command o)) as [t|]; [|discriminate]. pose proof (parse_id_no_panic t).
    destruct (parse_id t); congruence. }
  destruct (opt_parse parse_user _); cbn [bind]; try congruence.
  destruct (conf_load fraction order (conf_new VarClient) (ro_config o) file) as [conf' [[]|e|]] eqn:L; try discriminate.
  - pose proof (install_no_panic tg install LETMEIN_ALLOW (match a1 with Some m => m | None => c_seccomp conf' end)) as N5.
    destruct (install_seccomp_rules _ _ _ _); cbn [bind]; try congruence; [|exfalso; apply N5; simpl; auto].
    destruct (ro_command o) as [[]|]; discriminate.
  - apply (load_cases _ _ OP) in L.
    destruct L as [(? & ? & _ & _ & _ & _ & _ & [=])|[(? & ? & _ & _ & _ & _ & [=])|(_ & [(_ & _ & ? & [=])|(_ & _ & [=])])]].
Qed.
Print Assumptions C63_client_start_never_panics.

(** With "--dns Google, --dns-crypt https" only Google over HTTPS is asked. *)
Definition ex_cli : raw_opts :=
  RawOpts (lit "/etc/letmein.conf") (Some (RawKnock (lit "example.com") 22 (Some (lit "1")) None false false true false))
    (Some (lit " Google")) (Some (lit "https , HTTPS")) (Some (lit "kill")).
Definition ex_cli_file : list N := lit
  ("[KEYS]" ++ NL ++ "00000001 = 0123456789ABCDEF0123456789ABCDEF0123456789ABCDEF0123456789ABCDEF" ++ NL
   ++ "[RESOURCES]" ++ NL ++ "00000002 = port: 22" ++ NL)%string.
Example C63_witness : exists f conf k,
  client_main no_fraction no_order (fun _ _ => []) (fun _ => None) ex_cli (Some ex_cli_file) (Some ex_target) true
  = Ok (Some f, conf, DoKnock (CLookup (DnsPublic Google OverHttps) RmIpv4 k)).
Proof. do 3 eexists. vm_compute. reflexivity. Qed.
Example C63_witness2 : exists e,
  client_main no_fraction no_order (fun _ _ => []) (fun _ => None)
    (RawOpts (lit "x") (ro_command ex_cli) (Some (lit "google,")) None None) (Some ex_cli_file) (Some ex_target) true = Err e.
Proof. eexists. vm_compute. reflexivity. Qed.
