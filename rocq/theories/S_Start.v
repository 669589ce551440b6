(** Specification vocabulary for the start of the daemons. *)

From Coq Require Import String NArith ZArith List Bool.
From Verif Require Import M_ConfTypes M_Text M_Start S_Text.
Import ListNotations.
Local Open Scope N_scope.

(** The content of a file as text. *)
Definition file_text (file : option (list N)) (t : text) : Prop :=
  exists bytes, file = Some bytes /\ utf8 bytes t.

(** A decimal number with optional sign that fits into 32 bits. *)
Definition i32_text (t : text) (z : Z) : Prop :=
  exists ds v, ds <> [] /\ numeral 10 ds v
    /\ (((t = ds \/ t = 43 :: ds) /\ z = Z.of_N v /\ v < 2147483648)
        \/ (t = 45 :: ds /\ z = (- Z.of_N v)%Z /\ v <= 2147483648)).

(** The PID file contains [pid], possibly with white space around. *)
Definition pid_file_says (file : option (list N)) (pid : Z) : Prop :=
  exists t body, file_text file t /\ padded t body /\ i32_text body pid.

(** A line of an account database: fields separated by colons. *)
Definition account_line (l name : text) (fields : list text) : Prop := separated 58 l (name :: fields).
(** [account file name id]: the first line for [name] has [id] as third field. *)
Definition account (file : option (list N)) (name : text) (id : N) : Prop :=
  exists t ls pre l post fields idt,
    file_text file t /\ lines_of t ls /\ ls = pre ++ l :: post
    /\ (forall m fs, In m pre -> ~ account_line m name fs)
    /\ account_line l name fields /\ nth_error fields 1 = Some idt
    /\ number 10 idt id /\ id < 4294967296.

(** What kind of socket a descriptor is: the kernel says that it is a socket, its
    type, and its family. *)
Definition kernel_says (i : fd_info) (type : N) (families : list N) : Prop :=
  (exists mode, fd_stat i = Some mode /\ N.land mode 61440 = 49152)
  /\ (exists n, fd_type i = Some (n, type) /\ 4 <= n)
  /\ (exists n f, fd_name i = Some (n, f) /\ 16 <= n /\ In f families).
Definition udp_fd (i : fd_info) : Prop := kernel_says i 2 [2; 10].
Definition tcp_fd (i : fd_info) : Prop := kernel_says i 1 [2; 10].
Definition unix_fd (i : fd_info) : Prop := kernel_says i 1 [1].
(** What the daemon makes of a descriptor: it has this number and this kind, and the
    daemon is built for the kind. *)
Definition sorted_as (ft : features) (i : fd_info) (s : systemd_socket) : Prop :=
  match s with
  | SdUdp fd => fd = fd_num i /\ udp_fd i /\ ft_udp ft = true
  | SdTcp fd => fd = fd_num i /\ tcp_fd i /\ ft_tcp ft = true
  | SdUnix fd => fd = fd_num i /\ unix_fd i /\ ft_unix ft = true
  end.
