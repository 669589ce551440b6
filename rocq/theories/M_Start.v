(** Model of what happens before a daemon serves a connection:
    sockets handed over by systemd (/repo/letmein-systemd/src/lib.rs), the
    listeners of letmeind (/repo/letmeind/src/server.rs 117-207) and letmeinfwd
    (/repo/letmeinfwd/src/server.rs 152-206), the PID file
    (/repo/letmeind/src/main.rs 66-75, /repo/letmeinfwd/src/server.rs 30-42), the
    user database (/repo/letmeinfwd/src/uid_gid.rs) and the check of the peer of
    a unix connection (/repo/letmeinfwd/src/server.rs 208-255). *)

From Coq Require Import String NArith ZArith List Bool.
From Verif Require Import M_Base M_ConfTypes M_Text M_Str M_Utf8.
Import ListNotations.
Local Open Scope N_scope.
Local Open Scope res_scope.

(** *** letmein-systemd *)

(** What the kernel answers about a file descriptor: [fstat64] (mode),
    [getsockopt SO_TYPE] (returned length, value) and [getsockname] (returned
    length, family); [None] if the call fails. *)
Record fd_info := FdInfo {
  fd_num : N;
  fd_stat : option N;
  fd_type : option (N * N);
  fd_name : option (N * N)
}.

(** Constants of libc on Linux. *)
Definition S_IFMT : N := 61440.
Definition S_IFSOCK : N := 49152.
Definition SOCK_STREAM : N := 1.
Definition SOCK_DGRAM : N := 2.
Definition AF_UNIX : N := 1.
Definition AF_INET : N := 2.
Definition AF_INET6 : N := 10.

(** lib.rs 34-48: [is_socket]. *)
Definition is_socket (i : fd_info) : bool :=
  match fd_stat i with Some mode => N.land mode S_IFMT =? S_IFSOCK | None => false end.
(** lib.rs 50-72: [get_socket_type]; an [int] has 4 bytes. *)
Definition get_socket_type (i : fd_info) : option N :=
  match fd_type i with Some (n, t) => if 4 <=? n then Some t else None | None => None end.
(** lib.rs 74-89: [get_socket_family]; a [sockaddr] has 16 bytes. *)
Definition get_socket_family (i : fd_info) : option N :=
  match fd_name i with Some (n, f) => if 16 <=? n then Some f else None | None => None end.

Definition is_some_of (x : option N) (l : list N) : bool :=
  match x with Some v => mem_N v l | None => false end.
(** lib.rs 91-99, 101-109, 111-119. *)
Definition is_udp_socket (i : fd_info) : bool :=
  is_socket i && is_some_of (get_socket_type i) [SOCK_DGRAM] && is_some_of (get_socket_family i) [AF_INET; AF_INET6].
Definition is_tcp_socket (i : fd_info) : bool :=
  is_socket i && is_some_of (get_socket_type i) [SOCK_STREAM] && is_some_of (get_socket_family i) [AF_INET; AF_INET6].
Definition is_unix_socket (i : fd_info) : bool :=
  is_socket i && is_some_of (get_socket_type i) [SOCK_STREAM] && is_some_of (get_socket_family i) [AF_UNIX].

(** lib.rs 121-137: [SystemdSocket]. *)
Inductive systemd_socket := SdUdp (fd : N) | SdTcp (fd : N) | SdUnix (fd : N).

(** The cargo features the crate is built with; letmeind asks for udp and tcp,
    letmeinfwd for unix (their Cargo.toml), and cargo may unite them. *)
Record features := Features { ft_udp : bool; ft_tcp : bool; ft_unix : bool }.

(** lib.rs 142-180: [get_all].  [booted]: the system runs systemd; [fds]: the
    descriptors handed over, [None] if the environment variables are malformed. *)
Fixpoint sort_fds (ft : features) (fds : list fd_info) : res (list systemd_socket) :=
  match fds with
  | [] => Ok []
  | i :: r =>
      let add s := match sort_fds ft r with Ok l => Ok (s :: l) | e => e end in
      if ft_udp ft && is_udp_socket i then add (SdUdp (fd_num i))
      else if ft_tcp ft && is_tcp_socket i then add (SdTcp (fd_num i))
      else if ft_unix ft && is_unix_socket i then add (SdUnix (fd_num i))
      else Err "Received unknown socket from systemd"
  end.
Definition get_all (ft : features) (booted : bool) (fds : option (list fd_info)) : res (list systemd_socket) :=
  if booted then
    match fds with
    | Some l => sort_fds ft l
    | None => Err "Systemd listen_fds"
    end
  else Ok [].

(** *** Listeners of letmeind *)

(** A listening socket: handed over by systemd, or bound to a port on the
    unspecified IPv6 address. *)
Inductive listener := LSystemd (fd : N) | LBound (port : N).

(** What the operating system answers: adopting a socket (set_nonblocking,
    from_std), notifying systemd, binding TCP and UDP. *)
Record os_start := OsStart {
  os_adopt : N -> bool;
  os_notify : bool;
  os_bind_tcp : bool;
  os_bind_udp : bool
}.

(** server.rs 124-169: the loop over the sockets of systemd. *)
Fixpoint take_sockets (os : os_start) (cp : control_port) (l : list systemd_socket)
         (tcp udp : option listener) : res (option listener * option listener) :=
  match l with
  | [] => Ok (tcp, udp)
  | SdTcp fd :: r =>
      match tcp with
      | Some _ => Err "Received multiple TCP sockets from systemd."
      | None =>
          if negb (cp_tcp cp) then take_sockets os cp r tcp udp
          else if os_adopt os fd then take_sockets os cp r (Some (LSystemd fd)) udp
          else Err "Set socket non-blocking"
      end
  | SdUdp fd :: r =>
      match udp with
      | Some _ => Err "Received multiple UDP sockets from systemd."
      | None =>
          if negb (cp_udp cp) then take_sockets os cp r tcp udp
          else if os_adopt os fd then take_sockets os cp r tcp (Some (LSystemd fd))
          else Err "Set socket non-blocking"
      end
  | SdUnix _ :: _ => Err "Received an unusable socket from systemd."
  end.

Definition is_some {A : Type} (x : option A) : bool := match x with Some _ => true | None => false end.

(** server.rs 118-206: [Server::new]; the accept tasks started at its end are
    part of M_Daemon.v. *)
Definition server_new (os : os_start) (cp : control_port) (no_systemd : bool)
           (sockets : res (list systemd_socket)) : res (option listener * option listener) :=
  do tu <- (if no_systemd then Ok (None, None)
            else
              do l <- sockets;
              do tu <- take_sockets os cp l None None;
              if (is_some (fst tu) || is_some (snd tu)) && negb (os_notify os) then Err "notify"
              else Ok tu);
  if is_some (fst tu) || is_some (snd tu) then Ok tu
  else
    do tcp <- (if cp_tcp cp then (if os_bind_tcp os then Ok (Some (LBound (cp_port cp))) else Err "Bind")
               else Ok None);
    do udp <- (if cp_udp cp then (if os_bind_udp os then Ok (Some (LBound (cp_port cp))) else Err "Bind")
               else Ok None);
    Ok (tcp, udp).

(** *** The listener of letmeinfwd *)

(** What is at the path of the unix socket: [None] if nothing, or its mode. *)
Inductive fw_listener := FwSystemd (fd : N) | FwBound (removed : bool).

(** letmeinfwd/src/server.rs 153-206: [FirewallServer::new].  [at_path]: mode of
    what exists at the socket path; [remove_ok], [bind_ok], [chown_ok]: results of
    removing it, binding and setting owner and mode (not in test mode). *)
Definition fw_server_new (no_systemd test_mode : bool) (sockets : res (list systemd_socket))
           (adopt_ok notify_ok : bool) (at_path : option N) (remove_ok bind_ok chown_ok : bool) : res fw_listener :=
  if negb no_systemd then
    do l <- sockets;
    match l with
    | SdUnix fd :: _ =>
        if negb adopt_ok then Err "Set socket non-blocking"
        else if negb notify_ok then Err "notify"
        else Ok (FwSystemd fd)
    | _ => Err "Received an unusable socket from systemd."
    end
  else
    let is_sock := match at_path with Some mode => N.land mode S_IFMT =? S_IFSOCK | None => false end in
    if is_sock && negb remove_ok then Err "Remove existing socket"
    else if negb bind_ok then Err "Bind socket"
    else if negb test_mode && negb chown_ok then Err "Set unix socket owner and mode"
    else Ok (FwBound is_sock).

(** *** PID file *)

(** [read_to_string]: the content as text, if it can be read and is UTF-8. *)
Definition read_text (file : option (list byte)) : res text :=
  match file with
  | None => Err "Open or read"
  | Some b => match from_utf8 b with Some t => Ok t | None => Err "stream did not contain valid UTF-8" end
  end.

(** [str::parse::<i32>]: optional sign, then at least one decimal digit. *)
Definition parse_i32 (t : text) : res Z :=
  match t with
  | 45 :: r =>
      match r with
      | [] => Err "invalid digit"
      | _ => do v <- radix_digits 2147483649 10 0 r; Ok (- Z.of_N v)%Z
      end
  | _ => do v <- from_str_radix 2147483648 10 t; Ok (Z.of_N v)
  end.

(** letmeind/src/main.rs 67-75: [make_pidfile], the bytes written. *)
Definition pidfile_content (pid : N) : list byte := fmt_dec pid ++ [10].

(** letmeinfwd/src/server.rs 31-42: [get_letmeind_pid]. *)
Definition get_letmeind_pid (file : option (list byte)) : res Z :=
  do t <- read_text file;
  parse_i32 (trim t).

(** *** User database *)

(** uid_gid.rs 16-26 and 35-45, the loop over the lines: the first field is the
    name; the third is the number.  [splitn] with 7 (passwd) or 4 (group) parts
    does not affect the first three fields. *)
Fixpoint find_account (name : text) (ls : list text) : res N :=
  match ls with
  | [] => Err "not found"
  | l :: r =>
      match split_on 58 l with
      | n :: fields =>
          if list_eqb n name then
            match fields with
            | [] => Err "Get password"
            | [_] => Err "Get id"
            | _ :: id :: _ => from_str_radix U32_BOUND 10 id
            end
          else find_account name r
      | [] => Err "Get name"
      end
  end.
(** uid_gid.rs 13-29: [os_get_uid]; 32-48: [os_get_gid].  [file]: content of
    /etc/passwd or /etc/group. *)
Definition os_get_id (file : option (list byte)) (name : text) : res N :=
  do t <- read_text file;
  find_account name (lines t).

(** letmeinfwd/src/main.rs 48-49 and 96-102: [read_etc_passwd]; the UID and GID
    that connections must have. *)
Definition read_etc_passwd (test_mode : bool) (passwd group : option (list byte)) : res (N * N) :=
  if test_mode then Ok (4294967295, 4294967295)
  else
    do u <- os_get_id passwd (lit "letmeind");
    do g <- os_get_id group (lit "letmeind");
    Ok (u, g).

(** *** Peer check of letmeinfwd *)

(** Credentials of the peer of a unix stream ([SO_PEERCRED]). *)
Record cred := Cred { cr_pid : option Z; cr_uid : N; cr_gid : N }.

(** letmeinfwd/src/server.rs 209-255: [accept].  [stream]: the credentials of the
    accepted connection, or the error of accept or of reading them; [pidfile]: the
    PID file of letmeind at that time; [ids]: UID and GID of letmeind. *)
Definition fw_accept (test_mode : bool) (ids : N * N) (pidfile : option (list byte)) (stream : res cred)
  : res cred :=
  do c <- stream;
  match cr_pid c with
  | None => Err "The connected pid is not known. Rejecting."
  | Some pid =>
      do expected <- get_letmeind_pid pidfile;
      if negb (pid =? expected)%Z then Err "The connected pid is not letmeind. Rejecting."
      else if test_mode then Ok c
      else if negb (cr_uid c =? fst ids) then Err "The connected uid is not letmeind. Rejecting."
      else if negb (cr_gid c =? snd ids) then Err "The connected gid is not letmeind. Rejecting."
      else Ok c
  end.
