(** Model of the seccomp filters: /repo/letmein-seccomp/src/lib.rs,
    /repo/letmeind/src/seccomp.rs, /repo/letmeinfwd/src/seccomp.rs and
    /repo/letmein/src/seccomp.rs.

    A system call is named by its name; that different names have different
    numbers is a fact about libc.  The meaning of a compiled filter ([allowed]
    below) is that of the crate seccompiler, which is not part of /repo: a call
    that is not in the map is denied, one with an empty rule list is allowed,
    one with rules is allowed if all conditions of some rule hold. *)

From Coq Require Import String NArith ZArith List Bool.
From Verif Require Import M_Base M_ConfTypes.
Import ListNotations.
Local Open Scope N_scope.
Local Open Scope res_scope.

(** The compilation target.  With seccomp support it is Linux or Android
    ([tg_linux] false) on x86_64 or aarch64 ([tg_x86] false)
    (letmein-seccomp/build.rs 18-30). *)
Record target := Target { tg_linux : bool; tg_x86 : bool }.

(** A condition of seccompiler: argument [idx], compared for equality in its low
    32 bits or in all 64. *)
Record condition := Condition { cd_idx : N; cd_qword : bool; cd_value : N }.
Notation rule := (list condition) (only parsing).

(** lib.rs 17-20. *)
Definition NULL : N := 0.
Definition PTR : N := 255.

(** lib.rs 32-57: [seccomp_cond]; both targets have 64 bit pointers.
    [SeccompCondition::new] rejects argument numbers above 5. *)
Definition seccomp_cond (idx value bit_width : N) : res condition :=
  let bit_width := if bit_width =? PTR then 64 else bit_width in
  if bit_width =? 32 then
    if N.land value 18446744069414584320 =? 0
    then (if idx <=? 5 then Ok (Condition idx false value) else Err "InvalidArgumentNumber")
    else Panic
  else if bit_width =? 64 then
    (if idx <=? 5 then Ok (Condition idx true value) else Err "InvalidArgumentNumber")
  else Panic.

(** lib.rs 59-70: [args!]. *)
Fixpoint args (l : list (N * N * N)) : res rule :=
  match l with
  | [] => Ok []
  | (idx, width, value) :: r =>
      do c <- seccomp_cond idx value width;
      do cs <- args r;
      Ok (c :: cs)
  end.

(** [as u64] of an [i32]. *)
Definition i32_as_u64 (z : Z) : N := Z.to_N (z mod 18446744073709551616)%Z.

(** lib.rs 78-115: [Allow]. *)
Inductive allow :=
| AMmap | AMprotect | AGetUidGid | AArchPrctl (op : option N) | ADup | APipe | AListen | AUnixAccept
| AUnixConnect | ATcpAccept | ATcpConnect | ANetlink | ASetSockOpt (level_optname : option (Z * Z))
| AAccess | AOpen | ARead | AWrite | AIoctl (op : option N) | AFcntl (op : option N) | AStat | ARecv
| ASend | ASignal | ASigAction | AFutex | ASetTidAddress | ARseq | AClone | AExec | AWait | AGetRlimit
| AUname | APidfd.

(** lib.rs 117-124: [Action]. *)
Inductive action := ActKill | ActLog.

(** lib.rs 143-153: [RulesMap], [add_sys], [add_sys_args_match]. *)
Definition rules_map := list (string * list rule).
Fixpoint add_sys (m : rules_map) (s : string) : rules_map :=
  match m with
  | [] => [(s, [])]
  | (t, rs) :: r => if String.eqb t s then (t, rs) :: r else (t, rs) :: add_sys r s
  end.
Fixpoint add_sys_args_match (m : rules_map) (s : string) (x : rule) : rules_map :=
  match m with
  | [] => [(s, [x])]
  | (t, rs) :: r => if String.eqb t s then (t, (rs ++ [x])%list) :: r else (t, rs) :: add_sys_args_match r s x
  end.

(** What one line of the code adds. *)
Inductive addition := Sys (s : string) | SysArgs (s : string) (x : res rule).
Fixpoint add_all (m : rules_map) (l : list addition) : res rules_map :=
  match l with
  | [] => Ok m
  | Sys s :: r => add_all (add_sys m s) r
  | SysArgs s x :: r => do a <- x; add_all (add_sys_args_match m s a) r
  end.

Definition when (b : bool) (l : list addition) : list addition := if b then l else [].

(** lib.rs 157-174: always allowed. *)
Definition basics (tg : target) : list addition :=
  ([Sys "brk"; Sys "close"] ++ when (tg_linux tg) [Sys "close_range"]
  ++ [Sys "exit"; Sys "exit_group"; Sys "getpid"; Sys "getrandom"; Sys "gettid"; Sys "madvise"; Sys "munmap";
      Sys "sched_getaffinity"; Sys "sigaltstack"; Sys "nanosleep"; Sys "clock_gettime"; Sys "clock_getres";
      Sys "clock_nanosleep"; Sys "gettimeofday"])%list.

(** lib.rs 176-189: [add_read_write_rules]. *)
Definition read_write (tg : target) : list addition :=
  ([Sys "epoll_create1"; Sys "epoll_ctl"; Sys "epoll_pwait"]
  ++ when (tg_x86 tg && tg_linux tg) [Sys "epoll_pwait2"] ++ when (tg_x86 tg) [Sys "epoll_wait"]
  ++ [Sys "lseek"] ++ when (tg_x86 tg) [Sys "poll"] ++ [Sys "ppoll"; Sys "pselect6"])%list.

(** libc constants on both targets. *)
Definition SC_AF_UNIX : N := 1.
Definition SC_AF_INET : N := 2.
Definition SC_AF_INET6 : N := 10.
Definition SC_AF_NETLINK : N := 16.
Definition F_GETFD : N := 1.
Definition IPPROTO_TCP : Z := 6.
Definition TCP_NODELAY : Z := 1.

Definition socket_of (family : N) : addition := SysArgs "socket" (args [(0, 32, family)]).

(** lib.rs 191-375: the arms of the match. *)
Definition additions (tg : target) (a : allow) : list addition :=
  match a with
  | AMmap => [Sys "mmap"; Sys "mremap"; Sys "munmap"]
  | AMprotect => [Sys "mprotect"]
  | AGetUidGid => [Sys "getuid"; Sys "geteuid"; Sys "getgid"; Sys "getegid"]
  | AArchPrctl _ => when (tg_x86 tg) [Sys "arch_prctl"]
  | ADup => ([Sys "dup"] ++ when (tg_x86 tg) [Sys "dup2"] ++ [Sys "dup3"])%list
  | APipe => (when (tg_x86 tg) [Sys "pipe"] ++ [Sys "pipe2"])%list
  | AListen => [Sys "bind"; Sys "listen"]
  | AUnixAccept => [Sys "accept4"; socket_of SC_AF_UNIX; Sys "getsockopt"; Sys "getpeername"]
  | AUnixConnect => [Sys "connect"; socket_of SC_AF_UNIX; Sys "getsockopt"; Sys "getpeername"]
  | ATcpAccept => [Sys "accept4"; socket_of SC_AF_INET; socket_of SC_AF_INET6; Sys "getsockopt"; Sys "getpeername"]
  | ATcpConnect => [Sys "connect"; socket_of SC_AF_INET; socket_of SC_AF_INET6; Sys "getsockopt"; Sys "getpeername"]
  | ANetlink => [Sys "connect"; socket_of SC_AF_NETLINK; Sys "getsockopt"]
  | ASetSockOpt (Some (level, optname)) =>
      [SysArgs "setsockopt" (args [(1, 32, i32_as_u64 level); (2, 32, i32_as_u64 optname)])]
  | ASetSockOpt None => [Sys "setsockopt"]
  | AAccess => (when (tg_x86 tg) [Sys "access"] ++ [Sys "faccessat"] ++ when (tg_linux tg) [Sys "faccessat2"])%list
  | AOpen => (when (tg_x86 tg) [Sys "open"] ++ [Sys "openat"])%list
  | ARead => ([Sys "pread64"; Sys "preadv2"; Sys "read"; Sys "readv"] ++ read_write tg)%list
  | AWrite =>
      ([Sys "fdatasync"; Sys "fsync"; Sys "pwrite64"; Sys "pwritev2"; Sys "write"; Sys "writev"] ++ read_write tg)%list
  | AIoctl _ => [Sys "ioctl"]
  | AFcntl (Some op) => [SysArgs "fcntl" (args [(1, 32, op)])]
  | AFcntl None => [Sys "fcntl"]
  | AStat => [Sys "fstat"; Sys "statx"; Sys "newfstatat"]
  | ARecv => [Sys "recvfrom"; Sys "recvmsg"; Sys "recvmmsg"]
  | ASend => [Sys "sendto"; Sys "sendmsg"; Sys "sendmmsg"]
  | ASignal => [Sys "rt_sigreturn"; Sys "rt_sigprocmask"]
  | ASigAction => [Sys "rt_sigaction"]
  | AFutex =>
      ([Sys "futex"; Sys "get_robust_list"; Sys "set_robust_list"] ++ when (tg_x86 tg && tg_linux tg) [Sys "futex_waitv"])%list
  | ASetTidAddress => [Sys "set_tid_address"]
  | ARseq => when (tg_linux tg) [Sys "rseq"]
  | AClone => (when (tg_linux tg) [Sys "clone3"] ++ when (negb (tg_x86 tg)) [Sys "clone"])%list
  | AExec => [Sys "execve"]
  | AWait => [Sys "wait4"]
  | AGetRlimit => [SysArgs "prlimit64" (args [(0, 32, 0); (2, PTR, NULL)])]
  | AUname => [Sys "uname"]
  | APidfd => [Sys "pidfd_open"]
  end.

Fixpoint allow_all (tg : target) (m : rules_map) (l : list allow) : res rules_map :=
  match l with
  | [] => Ok m
  | a :: r => do m1 <- add_all m (additions tg a); allow_all tg m1 r
  end.

(** lib.rs 134-392: [compile_for_arch] up to the translation to BPF. *)
Record filter := Filter { fl_map : rules_map; fl_deny : action }.
Definition compile (tg : target) (l : list allow) (deny : action) : res filter :=
  match l with
  | [] => Panic
  | _ =>
      do m0 <- add_all [] (basics tg);
      do m <- allow_all tg m0 l;
      Ok (Filter m deny)
  end.

(** The meaning of the map (seccompiler). *)
Definition cond_holds (argv : list N) (c : condition) : bool :=
  let v := nth (N.to_nat (cd_idx c)) argv 0 in
  if cd_qword c then v =? cd_value c else v mod 4294967296 =? cd_value c.
Fixpoint rules_of (m : rules_map) (s : string) : option (list rule) :=
  match m with
  | [] => None
  | (t, rs) :: r => if String.eqb t s then Some rs else rules_of r s
  end.
Definition allowed (m : rules_map) (s : string) (argv : list N) : bool :=
  match rules_of m s with
  | None => false
  | Some [] => true
  | Some rs => existsb (fun x => forallb (cond_holds argv) x) rs
  end.

Inductive verdict := VAllow | VLog | VKill.
(** What happens when a process with this filter (or none) makes a call. *)
Definition judge (f : option filter) (s : string) (argv : list N) : verdict :=
  match f with
  | None => VAllow
  | Some f => if allowed (fl_map f) s argv then VAllow
              else match fl_deny f with ActKill => VKill | ActLog => VLog end
  end.

(** letmeind/src/seccomp.rs 13-31: [ALLOW_LIST]. *)
Definition LETMEIND_ALLOW : list allow :=
  [AMmap; AMprotect; ARead; AWrite; AFcntl (Some F_GETFD); ARecv; ASend; AListen; ATcpAccept; AUnixConnect;
   ASetSockOpt (Some (IPPROTO_TCP, TCP_NODELAY)); ASignal; AFutex].
(** letmeinfwd/src/seccomp.rs 13-45. *)
Definition LETMEINFWD_ALLOW : list allow :=
  [AMmap; AMprotect; AGetUidGid; AArchPrctl None; ADup; APipe; AAccess; AOpen; ARead; AWrite; AIoctl None;
   AFcntl None; AStat; ARecv; ASend; AListen; AUnixAccept; ANetlink; ASetSockOpt None; ASignal; ASigAction; AFutex;
   ASetTidAddress; ARseq; AClone; AExec; AWait; AGetRlimit; APidfd].
(** letmein/src/seccomp.rs 15-34. *)
Definition LETMEIN_ALLOW : list allow :=
  [AMmap; AMprotect; AOpen; ARead; AWrite; AFcntl (Some F_GETFD); AStat; ARecv; ASend; AListen; ATcpConnect;
   ASetSockOpt (Some (IPPROTO_TCP, TCP_NODELAY)); AFutex; AUname].

(** letmeind/src/seccomp.rs 34-60, letmeinfwd/src/seccomp.rs 48-74,
    letmein/src/seccomp.rs 36-66: [install_seccomp_rules].  [supported]: the
    target if seccomp is supported on it; [install_ok]: the kernel accepts the
    filter.  The result is the installed filter. *)
Definition install_seccomp_rules (supported : option target) (install_ok : bool) (l : list allow)
           (mode : seccomp_mode) : res (option filter) :=
  match mode with
  | ScOff => Ok None
  | _ =>
      let act := match mode with ScLog => ActLog | _ => ActKill end in
      match supported with
      | None => Ok None
      | Some tg =>
          do f <- compile tg l act;
          if install_ok then Ok (Some f) else Err "Install seccomp filter"
      end
  end.
