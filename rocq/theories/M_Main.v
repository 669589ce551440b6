(** Model of the main programs up to the point where they do their work:
    /repo/letmeind/src/main.rs 42-150 (and 219-234), /repo/letmeinfwd/src/main.rs
    51-213 and /repo/letmein/src/main.rs 32-315.

    A program is the list of its effects on the system, in order, and a result.
    The runtime has a single thread (letmeind 227, letmeinfwd 314), so tasks that
    were spawned run only when the main task awaits; there is no await between
    the creation of the listener and the spawn of the handler tasks. *)

From Coq Require Import String NArith List Bool.
From Verif Require Import M_Base M_IpAddr M_ConfTypes M_Server M_Client M_Text M_Str M_Conf M_Firewall M_Start
  M_Daemon M_Seccomp.
Import ListNotations.
Local Open Scope N_scope.
Local Open Scope res_scope.

(** A path: [rundir.join(rel)].  Two joins are the same path if both parts are
    the same (simplification: other spellings of a path are other paths). *)
Inductive path := Under (rundir : text) (rel : string).

Inductive effect :=
| EfMkdir (p : path)
| EfChown (p : path) (uid gid : N)
| EfChmod (p : path) (mode : N)
| EfUnlink (p : path)
| EfBind (p : path)                              (* a unix socket *)
| EfRuleset (k : kernel)                         (* the firewall rules are now [k] *)
| EfListen (tcp udp : option listener)           (* the listeners of letmeind exist *)
| EfReady                                        (* READY=1 is sent to systemd *)
| EfTruncate (p : path)
| EfWrite (p : path) (content : list byte)
| EfConfine (f : option filter)                  (* the process has this filter *)
| EfServe.                                       (* the handler tasks are spawned *)

(** Effects and result. *)
Definition eff (A : Type) : Type := (list effect * res A)%type.
Definition ret {A : Type} (a : A) : eff A := ([], Ok a).
Definition lift {A : Type} (r : res A) : eff A := ([], r).
Definition emit (l : list effect) : eff unit := (l, Ok tt).
Definition then_ {A B : Type} (x : eff A) (k : A -> eff B) : eff B :=
  match x with
  | (l, Ok a) => let (l', r) := k a in (l ++ l', r)
  | (l, Err e) => (l, Err e)
  | (l, Panic) => (l, Panic)
  end.
Notation "'run' x <- a ; b" := (then_ a (fun x => b)) (at level 200, x name, a at level 100, b at level 200).
(** [call ok ef e]: an operation with the effects [ef], which fails if not [ok]. *)
Definition call (ok : bool) (ef : list effect) (e : string) : eff unit :=
  if ok then (ef, Ok tt) else ([], Err e).

(** *** Files *)

(** [metadata] of a directory (its mode; [None] if that fails) and the result of
    [create_dir_all]. *)
Record dir_os := DirOs { di_meta : option N; di_mkdir : bool }.
Definition S_IFDIR : N := 16384.
(** letmeind 43-57, letmeinfwd 52-66: [create_dir_if_not_exists]. *)
Definition create_dir_if_not_exists (p : path) (d : dir_os) : eff unit :=
  match di_meta d with
  | None => call (di_mkdir d) [EfMkdir p] "create_dir_all"
  | Some mode =>
      if negb (N.land mode S_IFMT =? S_IFDIR) then lift (Err "Path exists, but is not a directory.") else ret tt
  end.

(** Results of the calls of [set_owner_mode]. *)
Record owner_os := OwnerOs { ow_stat : bool; ow_chown : bool; ow_chmod : bool }.
(** letmeinfwd 69-76: [set_owner_mode]. *)
Definition set_owner_mode (p : path) (uid gid mode : N) (o : owner_os) : eff unit :=
  run _ <- call (ow_stat o) [] "Stat path";
  run _ <- call (ow_chown o) [EfChown p uid gid] "Set path owner";
  call (ow_chmod o) [EfChmod p mode] "Set path mode".

(** Results of opening and writing a file. *)
Record file_os := FileOs { fo_open : bool; fo_write : bool }.
(** letmeind 67-76, letmeinfwd 105-114: [make_pidfile].  A failed write may have
    written something; this is not represented. *)
Definition make_pidfile (p : path) (pid : N) (o : file_os) : eff unit :=
  run _ <- call (fo_open o) [EfTruncate p] "Open PID-file";
  call (fo_write o) [EfWrite p (pidfile_content pid)] "Write to PID-file".

(** *** The daemons *)

(** letmeind 79-109, letmeinfwd 117-152: [Opts]; [op_test] is the test mode of
    debug builds of letmeinfwd (164-175). *)
Record daemon_opts := DaemonOpts {
  op_config : text;
  op_rundir : text;
  op_num_connections : N;
  op_no_systemd : bool;
  op_seccomp : option seccomp_mode;
  op_test : bool
}.

(** What the system answers to letmeind. *)
Record letmeind_os := LetmeindOs {
  ld_dir : dir_os;
  ld_file : option (list byte);             (* the configuration file *)
  ld_signals : bool;                        (* signal handlers can be registered *)
  ld_net : os_start;
  ld_sockets : res (list systemd_socket);   (* [SystemdSocket::get_all] *)
  ld_pid : N;
  ld_pidfile : file_os;
  ld_target : option target;                (* [seccomp_supported] *)
  ld_install : bool                         (* the kernel takes the filter *)
}.

(** What the system answers to letmeinfwd. *)
Record letmeinfwd_os := LetmeinfwdOs {
  lf_passwd : option (list byte);
  lf_group : option (list byte);
  lf_dir : dir_os;
  lf_owner : owner_os;
  lf_file : option (list byte);
  lf_kernel : kernel;                       (* the firewall rules before *)
  lf_nft_exe : bool;
  lf_nft_ok : bool;
  lf_signals : bool;
  lf_sockets : res (list systemd_socket);
  lf_adopt : bool;
  lf_notify : bool;
  lf_at_path : option N;                    (* mode of what is at the socket path *)
  lf_remove : bool;
  lf_bind : bool;
  lf_sock_owner : owner_os;
  lf_pid : N;
  lf_pidfile : file_os;
  lf_target : option target;
  lf_install : bool
}.

Section Main.

Variable float_duration : text -> option N.
Variable order : omap -> omap.

(** [Config::new] and [Config::load] (letmeind 127-130, letmeinfwd 186-189). *)
Definition load_conf (v : conf_variant) (p : text) (file : option (list byte)) : eff config :=
  match conf_load float_duration order (conf_new v) p file with
  | (c, Ok _) => ret c
  | (_, Err e) => lift (Err e)
  | (_, Panic) => lift Panic
  end.

Definition from_systemd (l : option listener) : bool :=
  match l with Some (LSystemd _) => true | _ => false end.

(** letmeind 122-191: [async_main] up to the spawn of the socket handler task.
    The state of the accept loop is that of M_Daemon.v.  [systemd_notify_ready]
    is called in [Server::new] (server.rs 171-173) after the last step that can
    fail there. *)
Definition letmeind_main (opts : daemon_opts) (os : letmeind_os) : eff (config * M_Daemon.daemon) :=
  run _ <- create_dir_if_not_exists (Under (op_rundir opts) "letmeind") (ld_dir os);
  run conf <- load_conf VarServer (op_config opts) (ld_file os);
  run _ <- lift (if ld_signals os then Ok tt else Panic);
  run tu <- lift (server_new (ld_net os) (c_port conf) (op_no_systemd opts) (ld_sockets os));
  run _ <- emit (EfListen (fst tu) (snd tu)
                 :: if from_systemd (fst tu) || from_systemd (snd tu) then [EfReady] else []);
  run _ <- make_pidfile (Under (op_rundir opts) "letmeind/letmeind.pid") (ld_pid os) (ld_pidfile os);
  let mode := match op_seccomp opts with Some m => m | None => c_seccomp conf end in
  run f <- lift (install_seccomp_rules (ld_target os) (ld_install os) LETMEIND_ALLOW mode);
  run _ <- emit [EfConfine f; EfServe];
  ret (conf, daemon_start (op_num_connections opts)).

(** letmeinfwd/src/server.rs 153-206: [FirewallServer::new], with effects; the
    results are those of [fw_server_new] of M_Start.v. *)
Definition fw_listen (opts : daemon_opts) (gid : N) (os : letmeinfwd_os) : eff fw_listener :=
  let sock := Under (op_rundir opts) "letmeinfwd/letmeinfwd.sock" in
  if negb (op_no_systemd opts) then
    run l <- lift (lf_sockets os);
    match l with
    | SdUnix fd :: _ =>
        run _ <- call (lf_adopt os) [] "Set socket non-blocking";
        run _ <- call (lf_notify os) [EfReady] "notify";
        ret (FwSystemd fd)
    | _ => lift (Err "Received an unusable socket from systemd.")
    end
  else
    let is_sock := match lf_at_path os with Some mode => N.land mode S_IFMT =? S_IFSOCK | None => false end in
    run _ <- (if is_sock then call (lf_remove os) [EfUnlink sock] "Remove existing socket" else ret tt);
    run _ <- call (lf_bind os) [EfBind sock] "Bind socket";
    run _ <- (if op_test opts then ret tt else set_owner_mode sock 0 gid 432 (lf_sock_owner os));
    ret (FwBound is_sock).

(** What [NftFirewall::new] does to the firewall; it is an effect only if it
    changed something. *)
Definition init_firewall (conf : config) (os : letmeinfwd_os) : eff M_Firewall.daemon :=
  match fw_start conf (lf_kernel os) (lf_nft_exe os) (lf_nft_ok os) with
  | (k, Ok d) => ([EfRuleset k], Ok d)
  | (_, Err e) => ([], Err e)
  | (_, Panic) => ([], Panic)
  end.

(** letmeinfwd 178-262: [async_main] up to the spawn of the tasks.  0o750 is
    488, 0o660 is 432. *)
Definition letmeinfwd_main (opts : daemon_opts) (os : letmeinfwd_os)
  : eff (config * (N * N) * M_Firewall.daemon * M_Daemon.daemon) :=
  run ids <- lift (read_etc_passwd (op_test opts) (lf_passwd os) (lf_group os));
  let dir := Under (op_rundir opts) "letmeinfwd" in
  run _ <- create_dir_if_not_exists dir (lf_dir os);
  run _ <- (if op_test opts then ret tt else set_owner_mode dir 0 (snd ids) 488 (lf_owner os));
  run conf <- load_conf VarServer (op_config opts) (lf_file os);
  run d <- init_firewall conf os;
  run _ <- lift (if lf_signals os then Ok tt else Panic);
  run _ <- fw_listen opts (snd ids) os;
  run _ <- make_pidfile (Under (op_rundir opts) "letmeinfwd/letmeinfwd.pid") (lf_pid os) (lf_pidfile os);
  let mode := match op_seccomp opts with Some m => m | None => c_seccomp conf end in
  run f <- lift (install_seccomp_rules (lf_target os) (lf_install os) LETMEINFWD_ALLOW mode);
  run _ <- emit [EfConfine f; EfServe];
  ret (conf, ids, d, daemon_start (op_num_connections opts)).

(** *** The client *)

(** letmein 37-54: [parse_dns]. *)
Fixpoint dns_words (l : list text) (s : res_srv) : res res_srv :=
  match l with
  | [] => Ok s
  | w :: r =>
      let x := to_lowercase (trim w) in
      if is_lit x "system" then dns_words r (ResSrv true (sv_quad9 s) (sv_google s) (sv_cloudflare s))
      else if is_lit x "quad9" then dns_words r (ResSrv (sv_system s) true (sv_google s) (sv_cloudflare s))
      else if is_lit x "google" then dns_words r (ResSrv (sv_system s) (sv_quad9 s) true (sv_cloudflare s))
      else if is_lit x "cloudflare" then dns_words r (ResSrv (sv_system s) (sv_quad9 s) (sv_google s) true)
      else Err "Unknown DNS resolver"
  end.
Definition parse_dns (t : text) : res res_srv := dns_words (split_on 44 t) (ResSrv false false false false).

(** letmein 57-72: [parse_dns_crypt]. *)
Fixpoint crypt_words (l : list text) (c : res_crypt) : res res_crypt :=
  match l with
  | [] => Ok c
  | w :: r =>
      let x := to_lowercase (trim w) in
      if is_lit x "tls" then crypt_words r (ResCrypt true (cr_https c) (cr_unencrypted c))
      else if is_lit x "https" then crypt_words r (ResCrypt (cr_tls c) true (cr_unencrypted c))
      else if is_lit x "unencrypted" then crypt_words r (ResCrypt (cr_tls c) (cr_https c) true)
      else Err "Unknown DNS transport encryption"
  end.
Definition parse_dns_crypt (t : text) : res res_crypt := crypt_words (split_on 44 t) (ResCrypt false false false).

(** letmein 32-34: [parse_user]. *)
Definition parse_user (t : text) : res N := parse_id t.

(** letmein 141-238: [Command], with the texts of the values that are parsed by
    letmein itself; numbers and flags are parsed by clap. *)
Inductive raw_command :=
| RawKnock (host : text) (port : N) (user : option text) (server_port : option N) (tcp udp ipv4 ipv6 : bool)
| RawGenKey (user : option text).
(** letmein 74-139: [Opts]. *)
Record raw_opts := RawOpts {
  ro_config : text;
  ro_command : option raw_command;
  ro_dns : option text;
  ro_dns_crypt : option text;
  ro_seccomp : option text
}.

Definition opt_parse {A : Type} (parse : text -> res A) (x : option text) : res (option A) :=
  match x with
  | None => Ok None
  | Some t => match parse t with Ok a => Ok (Some a) | Err e => Err e | Panic => Panic end
  end.

(** What the command does: a knock is an interaction tree of M_Client.v; genkey
    prints a line that depends on the random key. *)
Inductive activity :=
| DoKnock (p : cprog)
| DoGenKey (line : list byte -> text).

Variable mac : list byte -> list byte -> list byte.
Variable parse_ip : text -> option ip.

Definition user_given (c : option raw_command) : option text :=
  match c with
  | Some (RawKnock _ _ u _ _ _ _ _) => u
  | Some (RawGenKey u) => u
  | None => None
  end.

(** letmein 300-315: [main], with 241-298: [async_main].  The values of options
    are parsed first (clap calls the value parsers).  Result: the filter the
    process has, the control timeout, and what it then does.  [target],
    [install]: as for the daemons. *)
Definition client_main (o : raw_opts) (file : option (list byte)) (tg : option target) (install : bool)
  : res (option filter * config * activity) :=
  do dns <- parse_dns (match ro_dns o with Some t => t | None => lit "system,quad9,google,cloudflare" end);
  do crypt <- parse_dns_crypt (match ro_dns_crypt o with Some t => t | None => lit "tls,https,unencrypted" end);
  do sec <- opt_parse parse_seccomp (ro_seccomp o);
  do user <- opt_parse parse_user (user_given (ro_command o));
  match conf_load float_duration order (conf_new VarClient) (ro_config o) file with
  | (_, Err e) => Err e
  | (_, Panic) => Panic
  | (conf, Ok _) =>
      do f <- install_seccomp_rules tg install LETMEIN_ALLOW
                (match sec with Some m => m | None => c_seccomp conf end);
      match ro_command o with
      | None => Err "'letmein' requires a subcommand but one was not provided."
      | Some (RawKnock host port _ server_port tcp udp ipv4 ipv6) =>
          Ok (f, conf, DoKnock (run_knock mac parse_ip conf host
                            (KnockServer (addr_mode_of ipv4 ipv6) server_port tcp udp) port user dns crypt))
      | Some (RawGenKey _) => Ok (f, conf, DoGenKey (genkey_line (c_default_user conf) user))
      end
  end.

End Main.
