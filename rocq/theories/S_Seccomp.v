(** Specification of the seccomp filters: the system calls each program may make. *)

From Coq Require Import String ZArith NArith List Bool.
From Verif Require Import M_Base M_Seccomp.
Import ListNotations.
Local Open Scope N_scope.

(** The additions that a feature list stands for. *)
Definition adds (tg : target) (l : list allow) : list addition := basics tg ++ flat_map (additions tg) l.

(** Argument number [i] of a call, as 32 bit value. *)
Definition arg32 (argv : list N) (i : nat) : N := nth i argv 0 mod 4294967296.

(** Calls that only exist on one architecture or system. *)
Definition on (b : bool) (l : list string) : list string := if b then l else [].

Definition always_calls (tg : target) : list string :=
  ["brk"; "close"; "exit"; "exit_group"; "getpid"; "getrandom"; "gettid"; "madvise"; "munmap";
   "sched_getaffinity"; "sigaltstack"; "nanosleep"; "clock_gettime"; "clock_getres"; "clock_nanosleep"; "gettimeofday"]%string
  ++ on (tg_linux tg) ["close_range"%string].
Definition poll_calls (tg : target) : list string :=
  ["epoll_create1"; "epoll_ctl"; "epoll_pwait"; "lseek"; "ppoll"; "pselect6"]%string
  ++ on (tg_x86 tg) ["epoll_wait"; "poll"]%string
  ++ on (tg_x86 tg && tg_linux tg) ["epoll_pwait2"%string].
Definition io_calls : list string :=
  ["pread64"; "preadv2"; "read"; "readv"; "fdatasync"; "fsync"; "pwrite64"; "pwritev2"; "write"; "writev";
   "recvfrom"; "recvmsg"; "recvmmsg"; "sendto"; "sendmsg"; "sendmmsg"]%string.
Definition memory_calls : list string := ["mmap"; "mremap"; "mprotect"]%string.
Definition futex_calls (tg : target) : list string :=
  ["futex"; "get_robust_list"; "set_robust_list"]%string ++ on (tg_x86 tg && tg_linux tg) ["futex_waitv"%string].

(** letmeind: the calls without restriction of the arguments ... *)
Definition letmeind_calls (tg : target) : list string :=
  always_calls tg ++ poll_calls tg ++ io_calls ++ memory_calls ++ futex_calls tg
  ++ ["bind"; "listen"; "accept4"; "connect"; "getsockopt"; "getpeername"; "rt_sigreturn"; "rt_sigprocmask"]%string.
(** ... and all of them: creation of unix and internet sockets, reading the flags
    of a descriptor, and setting TCP_NODELAY. *)
Definition letmeind_may (tg : target) (s : string) (argv : list N) : Prop :=
  In s (letmeind_calls tg)
  \/ (s = "socket"%string /\ In (arg32 argv 0) [1; 2; 10])
  \/ (s = "fcntl"%string /\ arg32 argv 1 = 1)
  \/ (s = "setsockopt"%string /\ arg32 argv 1 = 6 /\ arg32 argv 2 = 1).

(** letmein: as letmeind, but it opens files instead of accepting connections, and
    creates no unix sockets. *)
Definition letmein_calls (tg : target) : list string :=
  always_calls tg ++ poll_calls tg ++ io_calls ++ memory_calls ++ futex_calls tg
  ++ ["bind"; "listen"; "connect"; "getsockopt"; "getpeername"; "openat"; "fstat"; "statx"; "newfstatat"; "uname"]%string
  ++ on (tg_x86 tg) ["open"%string].
Definition letmein_may (tg : target) (s : string) (argv : list N) : Prop :=
  In s (letmein_calls tg)
  \/ (s = "socket"%string /\ In (arg32 argv 0) [2; 10])
  \/ (s = "fcntl"%string /\ arg32 argv 1 = 1)
  \/ (s = "setsockopt"%string /\ arg32 argv 1 = 6 /\ arg32 argv 2 = 1).

(** letmeinfwd runs the program nft; it may create unix and netlink sockets, and
    read resource limits of itself. *)
Definition letmeinfwd_calls (tg : target) : list string :=
  always_calls tg ++ poll_calls tg ++ io_calls ++ memory_calls ++ futex_calls tg
  ++ ["getuid"; "geteuid"; "getgid"; "getegid"; "dup"; "dup3"; "pipe2"; "faccessat"; "openat"; "ioctl"; "fcntl";
      "fstat"; "statx"; "newfstatat"; "bind"; "listen"; "accept4"; "connect"; "getsockopt"; "getpeername"; "setsockopt";
      "rt_sigreturn"; "rt_sigprocmask"; "rt_sigaction"; "set_tid_address"; "execve"; "wait4"; "pidfd_open"]%string
  ++ on (tg_x86 tg) ["arch_prctl"; "dup2"; "pipe"; "access"; "open"]%string
  ++ on (tg_linux tg) ["faccessat2"; "rseq"; "clone3"]%string
  ++ on (negb (tg_x86 tg)) ["clone"%string].
Definition letmeinfwd_may (tg : target) (s : string) (argv : list N) : Prop :=
  In s (letmeinfwd_calls tg)
  \/ (s = "socket"%string /\ In (arg32 argv 0) [1; 16])
  \/ (s = "prlimit64"%string /\ arg32 argv 0 = 0 /\ nth 2 argv 0 = 0).

(** *** Features *)

(** The calls that each feature allows with any arguments ... *)
Definition feature_calls (tg : target) (a : allow) : list string :=
  match a with
  | AMmap => ["mmap"; "mremap"; "munmap"]%string
  | AMprotect => ["mprotect"]%string
  | AGetUidGid => ["getuid"; "geteuid"; "getgid"; "getegid"]%string
  | AArchPrctl _ => on (tg_x86 tg) ["arch_prctl"%string]
  | ADup => ["dup"; "dup3"]%string ++ on (tg_x86 tg) ["dup2"%string]
  | APipe => ["pipe2"%string] ++ on (tg_x86 tg) ["pipe"%string]
  | AListen => ["bind"; "listen"]%string
  | AUnixAccept | ATcpAccept => ["accept4"; "getsockopt"; "getpeername"]%string
  | AUnixConnect | ATcpConnect => ["connect"; "getsockopt"; "getpeername"]%string
  | ANetlink => ["connect"; "getsockopt"]%string
  | ASetSockOpt None => ["setsockopt"%string]
  | ASetSockOpt (Some _) => []
  | AAccess => ["faccessat"%string] ++ on (tg_x86 tg) ["access"%string] ++ on (tg_linux tg) ["faccessat2"%string]
  | AOpen => ["openat"%string] ++ on (tg_x86 tg) ["open"%string]
  | ARead => ["read"; "readv"; "pread64"; "preadv2"]%string ++ poll_calls tg
  | AWrite => ["write"; "writev"; "pwrite64"; "pwritev2"; "fsync"; "fdatasync"]%string ++ poll_calls tg
  | AIoctl _ => ["ioctl"%string]
  | AFcntl None => ["fcntl"%string]
  | AFcntl (Some _) => []
  | AStat => ["fstat"; "statx"; "newfstatat"]%string
  | ARecv => ["recvfrom"; "recvmsg"; "recvmmsg"]%string
  | ASend => ["sendto"; "sendmsg"; "sendmmsg"]%string
  | ASignal => ["rt_sigreturn"; "rt_sigprocmask"]%string
  | ASigAction => ["rt_sigaction"%string]
  | AFutex => futex_calls tg
  | ASetTidAddress => ["set_tid_address"%string]
  | ARseq => on (tg_linux tg) ["rseq"%string]
  | AClone => on (tg_linux tg) ["clone3"%string] ++ on (negb (tg_x86 tg)) ["clone"%string]
  | AExec => ["execve"%string]
  | AWait => ["wait4"%string]
  | AGetRlimit => []
  | AUname => ["uname"%string]
  | APidfd => ["pidfd_open"%string]
  end.

(** ... the kinds of sockets that may be created ... *)
Definition feature_sockets (a : allow) : list N :=
  match a with
  | AUnixAccept | AUnixConnect => [1]
  | ATcpAccept | ATcpConnect => [2; 10]
  | ANetlink => [16]
  | _ => []
  end.

(** ... and all of them. *)
Definition feature_may (tg : target) (a : allow) (s : string) (argv : list N) : Prop :=
  In s (feature_calls tg a)
  \/ (s = "socket"%string /\ In (arg32 argv 0) (feature_sockets a))
  \/ (s = "fcntl"%string /\ a = AFcntl (Some (arg32 argv 1)))
  \/ (s = "setsockopt"%string /\ a = ASetSockOpt (Some (Z.of_N (arg32 argv 1), Z.of_N (arg32 argv 2))))
  \/ (s = "prlimit64"%string /\ a = AGetRlimit /\ arg32 argv 0 = 0 /\ nth 2 argv 0 = 0).

(** A restricted feature is not listed together with its unrestricted form. *)
Definition unmixed (l : list allow) : Prop :=
  (forall op, ~ (In (AFcntl None) l /\ In (AFcntl (Some op)) l))
  /\ (forall o, ~ (In (ASetSockOpt None) l /\ In (ASetSockOpt (Some o)) l)).

(** The arguments of the features have the types of the code: [u32] and [i32]. *)
Definition allow_typed (a : allow) : Prop :=
  match a with
  | AFcntl (Some op) => op < 2 ^ 32
  | ASetSockOpt (Some (level, optname)) => (- 2 ^ 31 <= level < 2 ^ 31 /\ - 2 ^ 31 <= optname < 2 ^ 31)%Z
  | _ => True
  end.
