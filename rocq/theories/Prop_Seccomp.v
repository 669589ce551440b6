(** C45: the seccomp filters. *)

From Coq Require Import String ZArith NArith List Bool Lia ZifyBool ZifyNat ZifyN.
From Verif Require Import M_Base M_ConfTypes M_Seccomp S_Seccomp P_Base P_Seccomp.
Import ListNotations.
Local Open Scope N_scope.

(** The meaning of a compiled filter, for every feature list: a call passes if
    one of the additions allows it with these arguments, or if it is allowed
    without restriction and no other addition restricts it. *)
Theorem C45_filter_meaning : forall tg l deny f, compile tg l deny = Ok f -> forall s argv,
  allowed (fl_map f) s argv = true <->
  (In (Sys s) (adds tg l) /\ (forall x, ~ In (SysArgs s x) (adds tg l)))
  \/ exists x, In (SysArgs s (Ok x)) (adds tg l) /\ forallb (cond_holds argv) x = true.
Proof. exact filter_meaning. Qed.
Print Assumptions C45_filter_meaning.

(** Only calls of a listed feature (or the basic ones) pass. *)
Theorem C45_only_listed_features : forall tg l deny f, compile tg l deny = Ok f -> forall s argv,
  allowed (fl_map f) s argv = true ->
  (exists ad, In ad (basics tg) /\ is_for s ad = true)
  \/ exists a ad, In a l /\ In ad (additions tg a) /\ is_for s ad = true.
Proof.
  intros tg l deny f C s argv A. apply (filter_meaning _ _ _ _ C) in A.
  assert (E : exists ad, In ad (adds tg l) /\ is_for s ad = true).
  { destruct A as [(I & _)|(x & I & _)]; eexists; (split; [exact I|]); simpl; apply String.eqb_refl. }
  destruct E as (ad & I & F). unfold adds in I. apply in_app_or in I. destruct I as [I|I]; [left; eauto|].
  right. apply in_flat_map in I. destruct I as (a & J & K). eauto.
Qed.
Print Assumptions C45_only_listed_features.

(** *** What each program may do, exactly *)

Ltac targets tg := destruct tg as [[] []].
Ltac exact_filter C s argv :=
  rewrite (filter_exact _ _ _ _ _ _ C eq_refl eq_refl eq_refl s argv).

Lemma judge_kill : forall m s argv, judge (Some (Filter m ActKill)) s argv = VAllow <-> allowed m s argv = true.
Proof. intros m s argv. unfold judge. cbn [fl_map fl_deny]. destruct (allowed m s argv); split; congruence. Qed.

Lemma cond32 : forall argv i v, cond_holds argv (Condition i false v) = true <-> arg32 argv (N.to_nat i) = v.
Proof. intros. unfold cond_holds, arg32. cbn [cd_qword cd_idx cd_value]. apply N.eqb_eq. Qed.
Lemma cond64 : forall argv i v, cond_holds argv (Condition i true v) = true <-> nth (N.to_nat i) argv 0 = v.
Proof. intros. unfold cond_holds. cbn [cd_qword cd_idx cd_value]. apply N.eqb_eq. Qed.
Lemma one_cond : forall argv c, forallb (cond_holds argv) [c] = true <-> cond_holds argv c = true.
Proof. intros. simpl. rewrite andb_true_r. reflexivity. Qed.
Lemma two_conds : forall argv c d, forallb (cond_holds argv) [c; d] = true <-> cond_holds argv c = true /\ cond_holds argv d = true.
Proof. intros. simpl. rewrite andb_true_r, andb_true_iff. reflexivity. Qed.

Definition socket_rule (f : N) : string * list condition := ("socket"%string, [Condition 0 false f]).

Lemma letmeind_exact : forall tg deny f, compile tg LETMEIND_ALLOW deny = Ok f -> forall s argv,
  allowed (fl_map f) s argv = true <-> letmeind_may tg s argv.
Proof.
  intros tg deny f C s argv.
  rewrite (filter_exact tg LETMEIND_ALLOW deny f (letmeind_calls tg)
    [("fcntl"%string, [Condition 1 false 1]); socket_rule 2; socket_rule 10; socket_rule 1;
     ("setsockopt"%string, [Condition 1 false 6; Condition 2 false 1])] C); try (targets tg; vm_compute; reflexivity).
  unfold letmeind_may, socket_rule. split.
  - intros [I|(x & I & H)]; [auto|]. simpl in I.
    destruct I as [[= <- <-]|[[= <- <-]|[[= <- <-]|[[= <- <-]|[[= <- <-]|[]]]]]]; rewrite ?two_conds, ?one_cond, ?cond32 in H; simpl; auto 10.
  - intros [I|[(-> & I)|[(-> & H)|(-> & H)]]]; [auto| | |]; right.
    + simpl in I. exists [Condition 0 false (arg32 argv 0)]. split; [|apply one_cond, cond32; reflexivity].
      destruct I as [<-|[<-|[<-|[]]]]; simpl; auto 10.
    + exists [Condition 1 false 1]. split; [simpl; auto 10|]. apply one_cond, cond32. exact H.
    + exists [Condition 1 false 6; Condition 2 false 1]. split; [simpl; auto 10|]. rewrite two_conds, !cond32. exact H.
Qed.

Lemma letmein_exact : forall tg deny f, compile tg LETMEIN_ALLOW deny = Ok f -> forall s argv,
  allowed (fl_map f) s argv = true <-> letmein_may tg s argv.
Proof.
  intros tg deny f C s argv.
  rewrite (filter_exact tg LETMEIN_ALLOW deny f (letmein_calls tg)
    [("fcntl"%string, [Condition 1 false 1]); socket_rule 2; socket_rule 10;
     ("setsockopt"%string, [Condition 1 false 6; Condition 2 false 1])] C); try (targets tg; vm_compute; reflexivity).
  unfold letmein_may, socket_rule. split.
  - intros [I|(x & I & H)]; [auto|]. simpl in I.
    destruct I as [[= <- <-]|[[= <- <-]|[[= <- <-]|[[= <- <-]|[]]]]]; rewrite ?two_conds, ?one_cond, ?cond32 in H; simpl; auto 10.
  - intros [I|[(-> & I)|[(-> & H)|(-> & H)]]]; [auto| | |]; right.
    + simpl in I. exists [Condition 0 false (arg32 argv 0)]. split; [|apply one_cond, cond32; reflexivity].
      destruct I as [<-|[<-|[]]]; simpl; auto 10.
    + exists [Condition 1 false 1]. split; [simpl; auto 10|]. apply one_cond, cond32. exact H.
    + exists [Condition 1 false 6; Condition 2 false 1]. split; [simpl; auto 10|]. rewrite two_conds, !cond32. exact H.
Qed.

Lemma letmeinfwd_exact : forall tg deny f, compile tg LETMEINFWD_ALLOW deny = Ok f -> forall s argv,
  allowed (fl_map f) s argv = true <-> letmeinfwd_may tg s argv.
Proof.
  intros tg deny f C s argv.
  rewrite (filter_exact tg LETMEINFWD_ALLOW deny f (letmeinfwd_calls tg)
    [socket_rule 1; socket_rule 16; ("prlimit64"%string, [Condition 0 false 0; Condition 2 true 0])] C);
    try (targets tg; vm_compute; reflexivity).
  unfold letmeinfwd_may, socket_rule. split.
  - intros [I|(x & I & H)]; [auto|]. simpl in I.
    destruct I as [[= <- <-]|[[= <- <-]|[[= <- <-]|[]]]]; rewrite ?two_conds, ?one_cond, ?cond32, ?cond64 in H; simpl; auto 10.
  - intros [I|[(-> & I)|(-> & H)]]; [auto| |]; right.
    + simpl in I. exists [Condition 0 false (arg32 argv 0)]. split; [|apply one_cond, cond32; reflexivity].
      destruct I as [<-|[<-|[]]]; simpl; auto 10.
    + exists [Condition 0 false 0; Condition 2 true 0]. split; [simpl; auto 10|]. rewrite two_conds, cond32, cond64. exact H.
Qed.

(** With seccomp=kill each program makes exactly the calls listed in S_Seccomp.v;
    every other one kills it. *)
Theorem C45_letmeind_exact : forall tg f s argv,
  install_seccomp_rules (Some tg) true LETMEIND_ALLOW ScKill = Ok f ->
  (judge f s argv = VAllow <-> letmeind_may tg s argv) /\ (judge f s argv = VKill <-> ~ letmeind_may tg s argv).
Proof.
  intros tg f s argv H. unfold install_seccomp_rules in H. cbn [bind] in H.
  destruct (compile tg LETMEIND_ALLOW ActKill) as [[m d]| |] eqn:C; try discriminate. cbn [bind] in H. injection H as <-.
  pose proof (letmeind_exact _ _ _ C s argv) as E. apply compile_adds in C. destruct C as (_ & D & _).
  cbn [fl_deny fl_map] in *. subst d. unfold judge. cbn [fl_map fl_deny].
  destruct (allowed m s argv); split; split; intros X; try discriminate; try reflexivity; try (apply E; reflexivity).
  - exfalso. apply X. apply E. reflexivity.
  - apply E in X. discriminate.
  - intros Y. apply E in Y. discriminate.
Qed.
Print Assumptions C45_letmeind_exact.

Theorem C45_letmein_exact : forall tg f s argv,
  install_seccomp_rules (Some tg) true LETMEIN_ALLOW ScKill = Ok f ->
  (judge f s argv = VAllow <-> letmein_may tg s argv) /\ (judge f s argv = VKill <-> ~ letmein_may tg s argv).
Proof.
  intros tg f s argv H. unfold install_seccomp_rules in H. cbn [bind] in H.
  destruct (compile tg LETMEIN_ALLOW ActKill) as [[m d]| |] eqn:C; try discriminate. cbn [bind] in H. injection H as <-.
  pose proof (letmein_exact _ _ _ C s argv) as E. apply compile_adds in C. destruct C as (_ & D & _).
  cbn [fl_deny fl_map] in *. subst d. unfold judge. cbn [fl_map fl_deny].
  destruct (allowed m s argv); split; split; intros X; try discriminate; try reflexivity; try (apply E; reflexivity).
  - exfalso. apply X. apply E. reflexivity.
  - apply E in X. discriminate.
  - intros Y. apply E in Y. discriminate.
Qed.
Print Assumptions C45_letmein_exact.

Theorem C45_letmeinfwd_exact : forall tg f s argv,
  install_seccomp_rules (Some tg) true LETMEINFWD_ALLOW ScKill = Ok f ->
  (judge f s argv = VAllow <-> letmeinfwd_may tg s argv) /\ (judge f s argv = VKill <-> ~ letmeinfwd_may tg s argv).
Proof.
  intros tg f s argv H. unfold install_seccomp_rules in H. cbn [bind] in H.
  destruct (compile tg LETMEINFWD_ALLOW ActKill) as [[m d]| |] eqn:C; try discriminate. cbn [bind] in H. injection H as <-.
  pose proof (letmeinfwd_exact _ _ _ C s argv) as E. apply compile_adds in C. destruct C as (_ & D & _).
  cbn [fl_deny fl_map] in *. subst d. unfold judge. cbn [fl_map fl_deny].
  destruct (allowed m s argv); split; split; intros X; try discriminate; try reflexivity; try (apply E; reflexivity).
  - exfalso. apply X. apply E. reflexivity.
  - apply E in X. discriminate.
  - intros Y. apply E in Y. discriminate.
Qed.
Print Assumptions C45_letmeinfwd_exact.

(** letmeind can neither execute programs nor create processes, nor open, remove or
    rename files, nor trace other processes, and it creates only unix and
    internet sockets. *)
Theorem C45_letmeind_confined : forall tg f s argv,
  install_seccomp_rules (Some tg) true LETMEIND_ALLOW ScKill = Ok f ->
  In s ["execve"; "execveat"; "fork"; "vfork"; "clone"; "clone3"; "open"; "openat"; "openat2"; "creat"; "unlink"; "unlinkat";
        "rename"; "renameat"; "renameat2"; "mkdir"; "mkdirat"; "chmod"; "fchmodat"; "chown"; "link"; "linkat"; "symlink";
        "ptrace"; "process_vm_writev"; "kill"; "mount"; "setuid"; "prctl"; "bpf"; "socketpair"; "ioctl"]%string
  \/ (s = "socket"%string /\ ~ In (arg32 argv 0) [1; 2; 10]) ->
  judge f s argv = VKill.
Proof.
  intros tg f s argv H D. apply (C45_letmeind_exact tg f s argv H). unfold letmeind_may.
  destruct D as [D|(-> & N)].
  - assert (NP : ~ In s (letmeind_calls tg) /\ s <> "socket"%string /\ s <> "fcntl"%string /\ s <> "setsockopt"%string).
    { assert (B : forallb (fun s => negb (mem_str s (letmeind_calls tg)) && negb (mem_str s ["socket"; "fcntl"; "setsockopt"]%string))
         ["execve"; "execveat"; "fork"; "vfork"; "clone"; "clone3"; "open"; "openat"; "openat2"; "creat"; "unlink"; "unlinkat";
        "rename"; "renameat"; "renameat2"; "mkdir"; "mkdirat"; "chmod"; "fchmodat"; "chown"; "link"; "linkat"; "symlink";
        "ptrace"; "process_vm_writev"; "kill"; "mount"; "setuid"; "prctl"; "bpf"; "socketpair"; "ioctl"]%string = true)
        by (targets tg; vm_compute; reflexivity).
      rewrite forallb_forall in B. specialize (B s D). apply andb_true_iff in B. destruct B as (B1 & B2).
      apply negb_true_iff in B1, B2. split; [intros I; apply mem_str_in in I; congruence|].
      repeat split; intros ->; vm_compute in B2; discriminate. }
    tauto.
  - assert (NP : ~ In "socket"%string (letmeind_calls tg)).
    { intros I. apply mem_str_in in I. targets tg; vm_compute in I; discriminate. }
    intros [I|[(_ & I)|[(X & _)|(X & _)]]]; [tauto|tauto|discriminate|discriminate].
Qed.
Print Assumptions C45_letmeind_confined.

(** The filters of all three programs can be built for every target. *)
Theorem C45_filters_exist : forall tg mode l, In l [LETMEIND_ALLOW; LETMEINFWD_ALLOW; LETMEIN_ALLOW] ->
  exists f, install_seccomp_rules (Some tg) true l mode = Ok f
    /\ (f = None <-> mode = ScOff).
Proof.
  intros tg mode l I. destruct mode; [| |]; destruct I as [<-|[<-|[<-|[]]]]; targets tg;
    eexists; (split; [vm_compute; reflexivity|split; intros; congruence]).
Qed.
Print Assumptions C45_filters_exist.

(** A program goes on only if it has the filter it asks for: if the kernel refuses
    the filter the program ends with an error. *)
Theorem C45_refused_filter_is_error : forall supported ok l mode,
  In l [LETMEIND_ALLOW; LETMEINFWD_ALLOW; LETMEIN_ALLOW] ->
  ((exists f, install_seccomp_rules supported ok l mode = Ok f) <-> mode = ScOff \/ supported = None \/ ok = true)
  /\ install_seccomp_rules supported ok l mode <> Panic
  /\ (install_seccomp_rules supported ok l mode = Ok None -> mode = ScOff \/ supported = None).
Proof.
  intros supported ok l mode I. destruct supported as [tg|].
  - destruct (C45_filters_exist tg mode l I) as (f & E & N).
    unfold install_seccomp_rules in *. destruct mode.
    + split; [|split]; [split; [auto|eauto]|discriminate|auto].
    + destruct (compile tg l _) as [g| |]; cbn [bind] in *; try discriminate.
      destruct ok; (split; [split|split; discriminate]); try (intros (x & X); discriminate); try (intros [X|[X|X]]; discriminate);
        [auto|intros _; eauto].
    + destruct (compile tg l _) as [g| |]; cbn [bind] in *; try discriminate.
      destruct ok; (split; [split|split; discriminate]); try (intros (x & X); discriminate); try (intros [X|[X|X]]; discriminate);
        [auto|intros _; eauto].
  - unfold install_seccomp_rules. destruct mode; (split; [|split]; [split; [auto|eauto]|discriminate|auto]).
Qed.
Print Assumptions C45_refused_filter_is_error.

(** In the mode "log" nothing is killed; with "off", or where seccomp is not
    supported, everything is allowed. *)
Theorem C45_modes : forall supported ok l mode f s argv,
  install_seccomp_rules supported ok l mode = Ok f ->
  (mode = ScLog -> judge f s argv <> VKill)
  /\ (mode = ScOff \/ supported = None -> judge f s argv = VAllow).
Proof.
  intros supported ok l mode f s argv H. unfold install_seccomp_rules in H.
  destruct mode.
  all: try (injection H as <-; split; [discriminate|reflexivity]).
  all: destruct supported as [tg|]; [|injection H as <-; split; [discriminate|reflexivity]].
  all: destruct (compile tg l _) as [[m d]| |] eqn:C; try discriminate; cbn [bind] in H;
    destruct ok; [|discriminate]; injection H as <-; apply compile_adds in C; destruct C as (_ & D & _);
    cbn [fl_deny] in D; subst d; (split; [|intros [X|X]; discriminate]); intros X; try discriminate;
    unfold judge; cbn [fl_map fl_deny]; destruct (allowed m s argv); discriminate.
Qed.
Print Assumptions C45_modes.

(** In the mode "log" exactly those calls are logged that would be killed in the
    mode "kill". *)
Theorem C45_log_logs_what_kill_kills : forall tg ok l f,
  install_seccomp_rules (Some tg) ok l ScLog = Ok f ->
  exists g, install_seccomp_rules (Some tg) ok l ScKill = Ok g
    /\ forall s argv, (judge f s argv = VAllow <-> judge g s argv = VAllow)
         /\ (judge f s argv = VLog <-> judge g s argv = VKill).
Proof.
  intros tg ok l f H. unfold install_seccomp_rules, compile in *. destruct l as [|a l]; [discriminate|].
  destruct (add_all [] (basics tg)) as [m0| |]; try discriminate. cbn [bind] in *.
  destruct (allow_all tg m0 (a :: l)) as [m| |]; try discriminate. cbn [bind] in *.
  destruct ok; [|discriminate]. injection H as <-. eexists. split; [reflexivity|].
  intros s argv. unfold judge. cbn [fl_map fl_deny]. destruct (allowed m s argv); split; split; congruence.
Qed.
Print Assumptions C45_log_logs_what_kill_kills.

(** *** Adding a feature *)

(** Refuted: adding a feature can forbid what another one allowed: a restricted
    fcntl after an unrestricted one. *)
Theorem C45_adding_never_forbids_refuted :
  exists tg l a f f' s argv,
    compile tg l ActKill = Ok f /\ compile tg (l ++ [a]) ActKill = Ok f'
    /\ allowed (fl_map f) s argv = true /\ allowed (fl_map f') s argv = false.
Proof.
  exists (Target true true), [AFcntl None], (AFcntl (Some F_GETFD)). do 2 eexists.
  exists "fcntl"%string, [3; 2; 0]. split; [vm_compute; reflexivity|]. split; [vm_compute; reflexivity|].
  split; vm_compute; reflexivity.
Qed.
Print Assumptions C45_adding_never_forbids_refuted.

(** It holds for all other features, and for these two unless both the restricted
    and the unrestricted form are listed. *)
Theorem C45_adding_never_forbids_partial : forall tg l l' deny deny' f f',
  compile tg l deny = Ok f -> compile tg l' deny' = Ok f' -> incl l l' ->
  (forall op, ~ (In (AFcntl None) l' /\ In (AFcntl (Some op)) l')) ->
  (forall o, ~ (In (ASetSockOpt None) l' /\ In (ASetSockOpt (Some o)) l')) ->
  forall s argv, allowed (fl_map f) s argv = true -> allowed (fl_map f') s argv = true.
Proof.
  intros tg l l' deny deny' f f' C C' IN NF NS s argv A.
  apply (filter_meaning _ _ _ _ C) in A. apply (filter_meaning _ _ _ _ C').
  assert (INC : incl (adds tg l) (adds tg l')).
  { intros a I. unfold adds in *. apply in_app_or in I. apply in_or_app. destruct I as [I|I]; [auto|]. right.
    apply in_flat_map in I. destruct I as (x & J & K). apply in_flat_map. exists x. auto. }
  destruct A as [(I & _)|(x & I & H)]; [|right; exists x; split; [apply INC; exact I|exact H]].
  left. split; [apply INC; exact I|]. apply INC in I. clear - I NF NS. intros x J.
  (* only fcntl and setsockopt occur in both forms *)
  assert (NB : forall y, ~ In (SysArgs s y) (basics tg)).
  { intros y K. targets tg; cbv in K; repeat (destruct K as [K|K]; [discriminate|]); destruct K. }
  unfold adds in J. apply in_app_or in J. destruct J as [J|J]; [eapply NB; eauto|].
  apply in_flat_map in J. destruct J as (a & A & J).
  assert (S : s = "socket"%string \/ s = "prlimit64"%string \/ (s = "fcntl"%string /\ exists op, a = AFcntl (Some op))
     \/ (s = "setsockopt"%string /\ exists o, a = ASetSockOpt (Some o))).
  { destruct a as [| | |o| | | | | | | | |[[lv on]|]| | | | |o|[o|]| | | | | | | | | | | | | |];
      cbn [additions] in J; unfold when, read_write, when in J; destruct (tg_linux tg), (tg_x86 tg); cbn in J;
      repeat (destruct J as [J|J]; [try discriminate; injection J as <- _; eauto 10|]); try (destruct J). }
  assert (P : forall t, In (Sys t) (adds tg l') -> t = s -> exists b, (In b l' /\ In (Sys s) (additions tg b)) \/ In (Sys s) (basics tg)).
  { intros t K ->. unfold adds in K. apply in_app_or in K. destruct K as [K|K]; [exists AMmap; auto|].
    apply in_flat_map in K. destruct K as (b & B & K). exists b. auto. }
  destruct (P s I eq_refl) as (b & [(B & K)|K]).
  - destruct S as [->|[->|[(-> & op & ->)|(-> & o & ->)]]];
      (destruct b as [| | |q| | | | | | | | |[[lv on]|]| | | | |q|[q|]| | | | | | | | | | | | | |];
      cbn [additions] in K; unfold when, read_write, when in K; destruct (tg_linux tg), (tg_x86 tg); cbn in K;
      repeat (destruct K as [K|K]; [try discriminate|]); try (destruct K; fail); try (eapply NF; eauto; fail); try (eapply NS; eauto; fail)).
  - destruct S as [->|[->|[(-> & op & ->)|(-> & o & ->)]]]; targets tg; cbv in K;
      repeat (destruct K as [K|K]; [discriminate|]); destruct K.
Qed.
Print Assumptions C45_adding_never_forbids_partial.

Example C45_example : exists f,
  install_seccomp_rules (Some (Target true true)) true LETMEIND_ALLOW ScKill = Ok f
  /\ judge f "read" [0; 1; 2] = VAllow
  /\ judge f "execve" [0; 1; 2] = VKill
  /\ judge f "socket" [2; 1; 0] = VAllow
  /\ judge f "socket" [16; 3; 0] = VKill
  /\ judge f "socket" [8589934593; 3; 0] = VAllow
  /\ judge f "setsockopt" [3; 6; 1] = VAllow
  /\ judge f "setsockopt" [3; 6; 2] = VKill
  /\ judge f "fcntl" [3; 2; 1] = VKill.
Proof. eexists. split; [vm_compute; reflexivity|]. vm_compute. repeat split. Qed.

(** *** Any list of features *)

Lemma u32_small : forall v, v < 2 ^ 32 -> N.land v 18446744069414584320 = 0.
Proof.
  intros v H. apply N.bits_inj_0. intros n. rewrite N.land_spec.
  destruct (N.lt_ge_cases n 32) as [L|L].
  - replace (N.testbit 18446744069414584320 n) with false; [apply andb_false_r|].
    change 18446744069414584320 with (N.shiftl 4294967295 32). rewrite N.shiftl_spec_low by exact L. reflexivity.
  - replace (N.testbit v n) with false; [reflexivity|]. symmetry.
    destruct (N.eq_dec v 0) as [->|NZ]; [apply N.bits_0|].
    apply N.bits_above_log2. apply N.lt_le_trans with 32; [|exact L]. apply N.log2_lt_pow2; lia.
Qed.

Lemma u32_large : forall v, v < 2 ^ 64 -> 2 ^ 32 <= v -> N.land v 18446744069414584320 <> 0.
Proof.
  intros v H L E. assert (N.testbit (N.land v 18446744069414584320) (N.log2 v) = false) as X by (rewrite E; apply N.bits_0).
  rewrite N.land_spec, N.bit_log2 in X by (intros ->; cbn in L; lia). cbn [andb] in X.
  assert (32 <= N.log2 v) as B by (apply N.log2_le_pow2; lia).
  assert (N.log2 v < 64) as U by (apply N.log2_lt_pow2; lia).
  change 18446744069414584320 with (N.shiftl (N.ones 32) 32) in X. rewrite N.shiftl_spec_high' in X by exact B.
  rewrite N.ones_spec_low in X by lia. discriminate.
Qed.

Lemma seccomp_cond32 : forall idx v, idx <= 5 -> v < 2 ^ 64 ->
  seccomp_cond idx v 32 = if v <? 2 ^ 32 then Ok (Condition idx false v) else Panic.
Proof.
  intros idx v I V. unfold seccomp_cond. cbn [N.eqb PTR Pos.eqb]. destruct (v <? 2 ^ 32) eqn:L.
  - rewrite u32_small by (apply N.ltb_lt; exact L). cbn [N.eqb]. replace (idx <=? 5) with true by (symmetry; apply N.leb_le; exact I). reflexivity.
  - apply N.ltb_ge in L. pose proof (u32_large v V L) as X. apply N.eqb_neq in X. rewrite X. reflexivity.
Qed.

Lemma i32_as_u64_pos : forall z, (0 <= z < 2 ^ 31)%Z -> i32_as_u64 z = Z.to_N z.
Proof. intros z H. unfold i32_as_u64. rewrite Z.mod_small; [reflexivity|lia]. Qed.
Lemma i32_as_u64_neg : forall z, (- 2 ^ 31 <= z < 0)%Z -> 2 ^ 32 <= i32_as_u64 z < 2 ^ 64.
Proof.
  intros z H. unfold i32_as_u64. rewrite <- (Z_mod_plus_full z 1), Z.mod_small by lia. lia.
Qed.

(** A filter for a non-empty list of features exists exactly if no socket option in
    it is negative; otherwise building it panics. *)
Theorem C45_filter_exists : forall tg l deny, (forall a, In a l -> allow_typed a) ->
  ((exists f, compile tg l deny = Ok f) <->
   l <> [] /\ forall level optname, In (ASetSockOpt (Some (level, optname))) l -> (0 <= level /\ 0 <= optname)%Z)
  /\ forall e, compile tg l deny <> Err e.
Proof.
  intros tg l deny TY.
  assert (AD : forall a, allow_typed a ->
    (forall e s, ~ In (SysArgs s (Err e)) (additions tg a))
    /\ ((forall s, ~ In (SysArgs s Panic) (additions tg a)) <->
        forall level optname, a = ASetSockOpt (Some (level, optname)) -> (0 <= level /\ 0 <= optname)%Z)).
  { intros a T. destruct a as [| | |o| | | | | | | | |o| | | | |o|o| | | | | | | | | | | | | |];
      try (split; [intros e s X|split; [intros _ lv on E; discriminate E|intros _ s X]]; unfold additions, when, read_write in X;
        targets tg; cbn in X; repeat (destruct X as [X|X]; [discriminate X|]); exact X).
    - destruct o as [[lv on]|]; [|split; [intros e s X|split; [intros _ lv on E; discriminate E|intros _ s X]]; cbn in X; destruct X as [X|[]]; discriminate X].
      destruct T as (T1 & T2). cbn [additions args].
      assert (V : forall z, (- 2 ^ 31 <= z < 2 ^ 31)%Z -> i32_as_u64 z < 2 ^ 64).
      { intros z Z. destruct (Z_lt_ge_dec z 0); [apply i32_as_u64_neg; lia|]. rewrite i32_as_u64_pos by lia. lia. }
      rewrite !seccomp_cond32 by (try apply V; lia).
      assert (P : forall z, (- 2 ^ 31 <= z < 2 ^ 31)%Z -> (i32_as_u64 z <? 2 ^ 32) = (0 <=? z)%Z).
      { intros z Z. destruct (Z_lt_ge_dec z 0).
        - pose proof (i32_as_u64_neg z ltac:(lia)). lia.
        - rewrite i32_as_u64_pos by lia. lia. }
      rewrite !P by assumption.
      split; [|split].
      + intros e s [X|[]]. destruct (0 <=? lv)%Z; [destruct (0 <=? on)%Z|]; cbn in X; discriminate X.
      + intros X lv' on' [= <- <-]. destruct (0 <=? lv)%Z eqn:E1; [destruct (0 <=? on)%Z eqn:E2; [lia|]|];
          exfalso; eapply X; left; cbn; reflexivity.
      + intros X s Y. destruct (X lv on eq_refl) as (X1 & X2).
        replace (0 <=? lv)%Z with true in Y by lia. replace (0 <=? on)%Z with true in Y by lia. cbn in Y. destruct Y as [Y|[]]; discriminate Y.
    - destruct o as [op|]; [|split; [intros e s X|split; [intros _ lv on E; discriminate E|intros _ s X]]; cbn in X; destruct X as [X|[]]; discriminate X].
      cbn in T. cbn [additions args]. rewrite seccomp_cond32 by lia. replace (op <? 2 ^ 32) with true by lia. cbn.
      split; [intros e s [X|[]]; discriminate X|]. split; [intros _ lv on E; discriminate E|]. intros _ s [X|[]]; discriminate X. }
  assert (BA : forall s x, ~ In (SysArgs s x) (basics tg)).
  { intros s x X. unfold basics, when in X. targets tg; cbn in X; repeat (destruct X as [X|X]; [discriminate X|]); exact X. }
  assert (ALL : forall ads m, (forall e s, ~ In (SysArgs s (Err e)) ads) ->
    (forall e, add_all m ads <> Err e) /\ ((exists m', add_all m ads = Ok m') <-> forall s, ~ In (SysArgs s Panic) ads)).
  { induction ads as [|[s|s x] ads IH]; intros m NE; cbn [add_all].
    - split; [discriminate|]. split; [intros _ s []|eauto].
    - destruct (IH (add_sys m s)) as (I1 & I2); [intros e t X; apply (NE e t); right; exact X|].
      split; [exact I1|]. rewrite I2. split; intros H t; [intros [X|X]; [discriminate X|exact (H t X)]|intros X; apply (H t); right; exact X].
    - destruct x as [x|e|]; cbn [bind].
      + destruct (IH (add_sys_args_match m s x)) as (I1 & I2); [intros e t X; apply (NE e t); right; exact X|].
        split; [exact I1|]. rewrite I2. split; intros H t; [intros [X|X]; [discriminate X|exact (H t X)]|intros X; apply (H t); right; exact X].
      + exfalso. apply (NE e s). left. reflexivity.
      + split; [discriminate|]. split; [intros (m' & X); discriminate X|]. intros H. exfalso. apply (H s). left. reflexivity. }
  assert (NE : forall e s, ~ In (SysArgs s (Err e)) (adds tg l)).
  { intros e s X. unfold adds in X. apply in_app_or in X. destruct X as [X|X]; [exact (BA _ _ X)|].
    apply in_flat_map in X. destruct X as (a & I & X). exact (proj1 (AD a (TY a I)) e s X). }
  destruct (ALL (adds tg l) [] NE) as (A1 & A2).
  assert (EC : compile tg l deny = match l with [] => Panic | _ => bind (add_all [] (adds tg l)) (fun m => Ok (Filter m deny)) end).
  { unfold compile, adds. destruct l as [|a l]; [reflexivity|]. rewrite add_all_app. destruct (add_all [] (basics tg)); cbn [bind]; [|reflexivity..].
    rewrite allow_all_adds. reflexivity. }
  assert (NP : (forall s, ~ In (SysArgs s Panic) (adds tg l)) <->
     forall level optname, In (ASetSockOpt (Some (level, optname))) l -> (0 <= level /\ 0 <= optname)%Z).
  { split.
    - intros H lv on I. apply (proj1 (proj2 (AD _ (TY _ I)))); [|reflexivity]. intros s X. apply (H s). unfold adds. apply in_or_app. right.
      apply in_flat_map. eauto.
    - intros H s X. unfold adds in X. apply in_app_or in X. destruct X as [X|X]; [exact (BA _ _ X)|].
      apply in_flat_map in X. destruct X as (a & I & X). revert X. apply (proj2 (proj2 (AD a (TY a I)))). intros lv on ->. exact (H _ _ I). }
  rewrite EC. destruct l as [|a l]; [split; [split; [intros (f & X); discriminate X|intros (X & _); contradiction]|discriminate]|].
  rewrite <- NP, <- A2. split.
  - split.
    + intros (f & X). split; [discriminate|]. destruct (add_all [] _) as [m| |]; [eauto|discriminate X..].
    + intros (_ & m & X). rewrite X. cbn. eauto.
  - intros e. destruct (add_all [] _) as [m|e'|] eqn:X; cbn; try discriminate. exfalso. exact (A1 e' eq_refl).
Qed.
Print Assumptions C45_filter_exists.

(** A filter for any list of features lets exactly those calls pass that are always
    allowed or allowed by one of the features - if no restricted feature is listed
    together with its unrestricted form. *)
Theorem C45_features_exact : forall tg l deny f, compile tg l deny = Ok f -> (forall a, In a l -> allow_typed a) -> unmixed l ->
  forall s argv, allowed (fl_map f) s argv = true <->
    In s (always_calls tg) \/ exists a, In a l /\ feature_may tg a s argv.
Proof.
  intros tg l deny f C TY (U1 & U2) s argv.
  assert (LE : forall lv on, In (ASetSockOpt (Some (lv, on))) l -> (0 <= lv /\ 0 <= on)%Z).
  { apply (proj1 (C45_filter_exists tg l deny TY)). eauto. }
  rewrite (filter_meaning _ _ _ _ C).
  assert (BS : forall t, In (Sys t) (basics tg) <-> In t (always_calls tg)).
  { intros t. rewrite <- plain_of_in. apply same_strs_spec. targets tg; vm_compute; reflexivity. }
  assert (BA : forall t x, ~ In (SysArgs t x) (basics tg)).
  { intros t x X. unfold basics, when in X. targets tg; cbn in X; repeat (destruct X as [X|X]; [discriminate X|]); exact X. }
  assert (FS : forall a t, In (Sys t) (additions tg a) <-> In t (feature_calls tg a)).
  { intros a t. rewrite <- plain_of_in. apply same_strs_spec.
    destruct a as [| | |o| | | | | | | | |[[lv on]|]| | | | |o|[op|]| | | | | | | | | | | | | |]; targets tg; try (vm_compute; reflexivity); reflexivity. }
  (* the restricted calls of a feature *)
  assert (FA : forall a, In a l -> forall t, (exists x, In (SysArgs t (Ok x)) (additions tg a) /\ forallb (cond_holds argv) x = true) <->
     (t = "socket"%string /\ In (arg32 argv 0) (feature_sockets a))
     \/ (t = "fcntl"%string /\ a = AFcntl (Some (arg32 argv 1)))
     \/ (t = "setsockopt"%string /\ a = ASetSockOpt (Some (Z.of_N (arg32 argv 1), Z.of_N (arg32 argv 2))))
     \/ (t = "prlimit64"%string /\ a = AGetRlimit /\ arg32 argv 0 = 0 /\ nth 2 argv 0 = 0)).
  { intros a I t.
    assert (NOTHING : (forall x, ~ In (SysArgs t x) (additions tg a)) -> feature_sockets a = [] ->
       (forall op, a <> AFcntl (Some op)) -> (forall o, a <> ASetSockOpt (Some o)) -> a <> AGetRlimit ->
       (exists x, In (SysArgs t (Ok x)) (additions tg a) /\ forallb (cond_holds argv) x = true) <->
       (t = "socket"%string /\ In (arg32 argv 0) (feature_sockets a))
       \/ (t = "fcntl"%string /\ a = AFcntl (Some (arg32 argv 1)))
       \/ (t = "setsockopt"%string /\ a = ASetSockOpt (Some (Z.of_N (arg32 argv 1), Z.of_N (arg32 argv 2))))
       \/ (t = "prlimit64"%string /\ a = AGetRlimit /\ arg32 argv 0 = 0 /\ nth 2 argv 0 = 0)).
    { intros N0 N1 N2 N3 N4. rewrite N1. split.
      - intros (x & X & _). exfalso. exact (N0 _ X).
      - intros [(_ & [])|[(_ & X)|[(_ & X)|(_ & X & _)]]]; exfalso; [exact (N2 _ X)|exact (N3 _ X)|exact (N4 X)]. }
    assert (SOCK : forall fs, feature_sockets a = fs -> (forall x, In (SysArgs t (Ok x)) (additions tg a) <-> t = "socket"%string /\ exists n, In n fs /\ x = [Condition 0 false n]) ->
       (forall op, a <> AFcntl (Some op)) -> (forall o, a <> ASetSockOpt (Some o)) -> a <> AGetRlimit ->
       (exists x, In (SysArgs t (Ok x)) (additions tg a) /\ forallb (cond_holds argv) x = true) <->
       (t = "socket"%string /\ In (arg32 argv 0) (feature_sockets a))
       \/ (t = "fcntl"%string /\ a = AFcntl (Some (arg32 argv 1)))
       \/ (t = "setsockopt"%string /\ a = ASetSockOpt (Some (Z.of_N (arg32 argv 1), Z.of_N (arg32 argv 2))))
       \/ (t = "prlimit64"%string /\ a = AGetRlimit /\ arg32 argv 0 = 0 /\ nth 2 argv 0 = 0)).
    { intros fs N1 N0 N2 N3 N4. rewrite N1. split.
      - intros (x & X & H). apply N0 in X. destruct X as (-> & n & X & ->). rewrite one_cond, cond32 in H. cbn in H. subst n. auto.
      - intros [(-> & X)|[(_ & X)|[(_ & X)|(_ & X & _)]]]; try (exfalso; [exact (N2 _ X)|exact (N3 _ X)|exact (N4 X)]).
        + exists [Condition 0 false (arg32 argv 0)]. split; [|rewrite one_cond, cond32; reflexivity]. apply N0. eauto.
        + exfalso. exact (N2 _ X).
        + exfalso. exact (N3 _ X).
        + exfalso. exact (N4 X). }
    destruct a as [| | |o| | | | | | | | |[[lv on]|]| | | | |o|[op|]| | | | | | | | | | | | | |];
      try (apply NOTHING; [intros x X; unfold additions, when, read_write in X; targets tg; cbn in X; repeat (destruct X as [X|X]; [discriminate X|]); exact X|reflexivity|discriminate..]).
    1-5: (eapply SOCK; [reflexivity| |discriminate..]; intros x; split;
       [intros X; cbn in X; repeat (destruct X as [X|X]; [first [discriminate X | injection X as <- <-; split; [reflexivity|]; eexists; split; [|reflexivity]; cbn; auto]|]); destruct X
       |intros (-> & n & X & ->); cbn in X; repeat (destruct X as [X|X]; [subst; cbn; auto 8|]); destruct X]).
    - pose proof (TY _ I) as T. cbn in T. destruct (LE _ _ I) as (L1 & L2).
      cbn [additions args feature_sockets]. rewrite !i32_as_u64_pos, !seccomp_cond32 by lia.
      replace (Z.to_N lv <? 2 ^ 32) with true by lia. replace (Z.to_N on <? 2 ^ 32) with true by lia. cbn [bind]. split.
      + intros (x & [X|[]] & H). injection X as <- <-. rewrite two_conds, !cond32 in H. destruct H as (H1 & H2). change (arg32 argv 1 = Z.to_N lv) in H1. change (arg32 argv 2 = Z.to_N on) in H2.
        right. right. left. split; [reflexivity|]. rewrite H1, H2, !Z2N.id by lia. reflexivity.
      + intros [(_ & [])|[(_ & X)|[(-> & X)|(_ & X & _)]]]; try discriminate X. injection X as -> ->.
        eexists. split; [left; reflexivity|]. rewrite two_conds, !cond32, !N2Z.id. auto.
    - pose proof (TY _ I) as T. cbn in T. cbn [additions args feature_sockets]. rewrite seccomp_cond32 by lia.
      replace (op <? 2 ^ 32) with true by lia. cbn [bind]. split.
      + intros (x & [X|[]] & H). injection X as <- <-. rewrite one_cond, cond32 in H. change (arg32 argv 1 = op) in H. right. left. rewrite H. auto.
      + intros [(_ & [])|[(-> & X)|[(_ & X)|(_ & X & _)]]]; try discriminate X. injection X as ->.
        eexists. split; [left; reflexivity|]. rewrite one_cond, cond32. reflexivity.
    - cbn. split.
      + intros (x & [X|[]] & H). injection X as <- <-. change (cond_holds argv (Condition 0 false 0) && (cond_holds argv (Condition 2 true 0) && true) = true) in H.
        rewrite andb_true_r, andb_true_iff, cond32, cond64 in H. destruct H. auto 8.
      + intros [(_ & [])|[(_ & X)|[(_ & X)|(-> & _ & H1 & H2)]]]; try discriminate X.
        exists [Condition 0 false 0; Condition 2 true 0]. split; [left; reflexivity|]. rewrite two_conds, cond32, cond64. auto. }
  (* a call is not both restricted and unrestricted *)
  assert (NM : forall t x, In (Sys t) (adds tg l) -> ~ In (SysArgs t x) (adds tg l)).
  { intros t x X Y. unfold adds in X, Y. apply in_app_or in Y. destruct Y as [Y|Y]; [exact (BA _ _ Y)|].
    apply in_flat_map in Y. destruct Y as (a & I & Y).
    assert (NAME : t = "socket"%string \/ (t = "fcntl"%string /\ exists op, a = AFcntl (Some op))
       \/ (t = "setsockopt"%string /\ exists o, a = ASetSockOpt (Some o)) \/ t = "prlimit64"%string).
    { destruct a as [| | |o| | | | | | | | |[[lv on]|]| | | | |o|[op|]| | | | | | | | | | | | | |]; unfold additions, when, read_write, socket_of in Y;
        targets tg; cbn -[args] in Y; repeat (destruct Y as [Y|Y]; [first [discriminate Y | injection Y as <- _; eauto 8]|]); destruct Y. }
    assert (PLAIN : In t (always_calls tg) \/ exists b, In b l /\ In t (feature_calls tg b)).
    { apply in_app_or in X. destruct X as [X|X]; [left; apply BS; exact X|]. right. apply in_flat_map in X.
      destruct X as (b & J & X). exists b. split; [exact J|]. apply FS. exact X. }
    assert (NA : forall b, In t (feature_calls tg b) -> (t = "fcntl"%string -> b = AFcntl None) /\ (t = "setsockopt"%string -> b = ASetSockOpt None)
                 /\ t <> "socket"%string /\ t <> "prlimit64"%string).
    { intros b B. destruct b as [| | |o| | | | | | | | |[[lv on]|]| | | | |o|[op|]| | | | | | | | | | | | | |]; unfold feature_calls, poll_calls, futex_calls, S_Seccomp.on in B;
        targets tg; cbn in B; repeat (destruct B as [B|B]; [subst t; repeat split; first [reflexivity|discriminate|intros; discriminate]|]); destruct B. }
    assert (AL : In t (always_calls tg) -> t <> "socket"%string /\ t <> "prlimit64"%string /\ t <> "fcntl"%string /\ t <> "setsockopt"%string).
    { intros B. unfold always_calls, on in B. targets tg; cbn in B; repeat (destruct B as [B|B]; [subst t; repeat split; discriminate|]); destruct B. }
    destruct PLAIN as [P|(b & J & P)].
    - destruct (AL P) as (A1 & A2 & A3 & A4). destruct NAME as [E|[(E & _)|[(E & _)|E]]]; auto.
    - destruct (NA b P) as (B1 & B2 & B3 & B4). destruct NAME as [E|[(E & op & ->)|[(E & o & ->)|E]]]; auto.
      + rewrite (B1 E) in J. exact (U1 op (conj J I)).
      + rewrite (B2 E) in J. exact (U2 o (conj J I)). }
  split.
  - intros [(I & _)|(x & I & H)]; unfold adds in I; apply in_app_or in I; destruct I as [I|I].
    + left. apply BS. exact I.
    + right. apply in_flat_map in I. destruct I as (a & I & K). exists a. split; [exact I|]. left. apply FS. exact K.
    + exfalso. exact (BA _ _ I).
    + right. apply in_flat_map in I. destruct I as (a & I & K). exists a. split; [exact I|]. right. apply (FA a I s). eauto.
  - intros [I|(a & I & [F|F])].
    + left. assert (X : In (Sys s) (adds tg l)) by (unfold adds; apply in_or_app; left; apply BS; exact I).
      split; [exact X|]. intros x. apply NM. exact X.
    + left. assert (X : In (Sys s) (adds tg l)) by (unfold adds; apply in_or_app; right; apply in_flat_map; exists a; split; [exact I|apply FS; exact F]).
      split; [exact X|]. intros x. apply NM. exact X.
    + right. apply (FA a I s) in F. destruct F as (x & K & H). exists x. split; [|exact H].
      unfold adds. apply in_or_app. right. apply in_flat_map. eauto.
Qed.
Print Assumptions C45_features_exact.

(** The lists of the three programs are such lists; a negative socket option is not. *)
Example C45_lists_unmixed : forall l, In l [LETMEIND_ALLOW; LETMEINFWD_ALLOW; LETMEIN_ALLOW] ->
  (forall a, In a l -> allow_typed a) /\ unmixed l.
Proof.
  intros l I. split.
  - intros a J. repeat (destruct I as [<-|I]; [cbn in J; repeat (destruct J as [<-|J]; [first [exact Logic.I | reflexivity | repeat split; first [discriminate|reflexivity]]|]); destruct J|]). destruct I.
  - repeat (destruct I as [<-|I]; [split; intros o (X & Y); cbn in X, Y;
      repeat (destruct X as [X|X]; [try discriminate X|]); repeat (destruct Y as [Y|Y]; [try discriminate Y|]); assumption|]). destruct I.
Qed.
Example C45_negative_option : compile (Target true true) [ASetSockOpt (Some (-1, 1)%Z)] ActKill = Panic.
Proof. vm_compute. reflexivity. Qed.
