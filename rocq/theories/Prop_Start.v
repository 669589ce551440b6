(** Theorems about the start of the daemons and the peer check:
    C42, C44 and C46. *)

From Coq Require Import String ZArith NArith List Bool Lia ZifyBool ZifyNat ZifyN.
From Verif Require Import M_Base M_ConfTypes M_Text M_Str M_Utf8 M_Start S_Text S_Start
  P_Base P_Str P_Utf8 P_Start.
Import ListNotations.
Local Open Scope N_scope.

(** ** C42: firewall socket peer check *)

(** Exactly the peers with a known PID that is the one in the PID file, and with
    the expected UID and GID, are accepted. *)
Theorem C42_peer_check : forall ids pidfile stream c,
  fw_accept false ids pidfile stream = Ok c <->
  stream = Ok c
  /\ exists pid, cr_pid c = Some pid /\ pid_file_says pidfile pid
     /\ cr_uid c = fst ids /\ cr_gid c = snd ids.
Proof. apply fw_accept_spec. Qed.
Print Assumptions C42_peer_check.

(** The expected UID and GID are those of the user and group letmeind. *)
Theorem C42_only_letmeind : forall passwd group ids pidfile stream c,
  read_etc_passwd false passwd group = Ok ids ->
  fw_accept false ids pidfile stream = Ok c ->
  account passwd (lit "letmeind") (cr_uid c) /\ account group (lit "letmeind") (cr_gid c)
  /\ exists pid, cr_pid c = Some pid /\ pid_file_says pidfile pid.
Proof.
  intros passwd group ids pidfile stream c R A. apply read_etc_passwd_spec in R. destruct R as (U & G).
  apply fw_accept_spec in A. destruct A as (_ & pid & P & F & EU & EG). rewrite EU, EG. eauto.
Qed.
Print Assumptions C42_only_letmeind.

(** A PID file says at most one PID, and the file written by letmeind with
    process number [p] says [p]; so letmeind itself is accepted, and no other
    process is. *)
Theorem C42_letmeind_accepted : forall passwd group ids p uid gid pid,
  p < 2147483648 ->
  read_etc_passwd false passwd group = Ok ids ->
  account passwd (lit "letmeind") uid -> account group (lit "letmeind") gid ->
  (exists c, fw_accept false ids (Some (pidfile_content p)) (Ok (Cred pid uid gid)) = Ok c)
  <-> pid = Some (Z.of_N p).
Proof.
  intros passwd group ids p uid gid pid L R U G.
  apply read_etc_passwd_spec in R. destruct R as (U' & G').
  apply os_get_id_spec in U, G, U', G'. rewrite U in U'. rewrite G in G'. injection U' as EU. injection G' as EG.
  split.
  - intros (c & A). apply fw_accept_spec in A. destruct A as ([= <-] & q & P & F & _). simpl in P. subst pid.
    f_equal. eapply pid_file_fun; [exact F|apply own_pid_file; exact L].
  - intros ->. exists (Cred (Some (Z.of_N p)) uid gid). apply fw_accept_spec. split; [reflexivity|].
    exists (Z.of_N p). split; [reflexivity|]. split; [apply own_pid_file; exact L|]. simpl. auto.
Qed.
Print Assumptions C42_letmeind_accepted.

(** No content of the PID file crashes the daemon. *)
Theorem C42_no_panic : forall test_mode ids pidfile stream,
  stream <> Panic -> fw_accept test_mode ids pidfile stream <> Panic.
Proof. apply fw_accept_no_panic. Qed.
Print Assumptions C42_no_panic.

Definition example_passwd : list N :=
  (lit "root:x:0:0:root:/root:/bin/sh" ++ [10] ++ lit "letmeind2:x:998:998::/:/x" ++ [10]
   ++ lit "letmeind:x:999:998::/nonexistent:/usr/sbin/nologin" ++ [10] ++ lit "letmeind:x:0:0:::" ++ [10]).
Definition example_group : list N := lit "root:x:0:" ++ [10] ++ lit "letmeind:x:997:".
Example C42_example :
  read_etc_passwd false (Some example_passwd) (Some example_group) = Ok (999, 997)
  /\ fw_accept false (999, 997) (Some (pidfile_content 4711)) (Ok (Cred (Some 4711%Z) 999 997))
     = Ok (Cred (Some 4711%Z) 999 997)
  /\ fw_accept false (999, 997) (Some (pidfile_content 4711)) (Ok (Cred (Some 4712%Z) 999 997))
     = Err "The connected pid is not letmeind. Rejecting."
  /\ fw_accept false (999, 997) (Some (lit " -1 ")) (Ok (Cred (Some (-1)%Z) 999 997))
     = Ok (Cred (Some (-1)%Z) 999 997)
  /\ fw_accept false (999, 997) (Some (pidfile_content 4711)) (Ok (Cred (Some 4711%Z) 0 997))
     = Err "The connected uid is not letmeind. Rejecting.".
Proof. vm_compute. repeat split. Qed.

(** ** C46: user and group lookup *)

Theorem C46_lookup_exact : forall file name id,
  os_get_id file name = Ok id <-> account file name id.
Proof. apply os_get_id_spec. Qed.
Print Assumptions C46_lookup_exact.

Theorem C46_never_panics : forall file name, os_get_id file name <> Panic.
Proof. apply os_get_id_no_panic. Qed.
Print Assumptions C46_never_panics.

(** If the first line for the name has no valid number, the result is an error,
    whatever the lines after it say. *)
Theorem C46_malformed_is_error : forall file name t ls pre l post fields,
  file_text file t -> lines_of t ls -> ls = pre ++ l :: post ->
  (forall m fs, In m pre -> ~ account_line m name fs) ->
  account_line l name fields ->
  (forall idt id, nth_error fields 1 = Some idt -> number 10 idt id -> 4294967296 <= id) ->
  exists e, os_get_id file name = Err e.
Proof.
  intros file name t ls pre l post fields FT LO E NP AL BAD.
  destruct (os_get_id file name) as [id|e|] eqn:R; [|eauto|exfalso; eapply os_get_id_no_panic; eauto].
  exfalso. apply os_get_id_spec in R.
  destruct R as (t' & ls' & pre' & l' & post' & fields' & idt & FT' & LO' & E' & NP' & AL' & NE' & NU' & L').
  rewrite (file_text_fun _ _ _ FT' FT) in LO'. rewrite (lines_of_fun _ _ LO' _ LO) in E'. rewrite E in E'.
  assert (Q : pre = pre' /\ l = l').
  { clear - E' NP NP' AL AL'. revert pre' E' NP'. induction pre as [|m pre IH]; intros [|m' pre'] E' NP'.
    - injection E' as <- _. auto.
    - injection E' as <- _. exfalso. eapply NP'; [left; reflexivity|exact AL].
    - injection E' as -> _. exfalso. eapply NP; [left; reflexivity|exact AL'].
    - injection E' as <- E'. destruct (IH (fun x fs I => NP x fs (or_intror I)) pre' E' (fun x fs I => NP' x fs (or_intror I))) as (<- & <-). auto. }
  destruct Q as (-> & ->). apply account_line_split in AL, AL'. rewrite AL in AL'. injection AL' as <-.
  specialize (BAD idt id NE' NU'). lia.
Qed.
Print Assumptions C46_malformed_is_error.

Example C46_example :
  os_get_id (Some example_passwd) (lit "letmeind") = Ok 999
  /\ os_get_id (Some example_passwd) (lit "letmein") = Err "not found"
  /\ os_get_id (Some (lit "letmeind:x:4294967296:1" ++ [10] ++ lit "letmeind:x:7:1")) (lit "letmeind")
     = Err "number too large"
  /\ os_get_id (Some (lit "letmeind:x")) (lit "letmeind") = Err "Get id"
  /\ os_get_id (Some [255]) (lit "letmeind") = Err "stream did not contain valid UTF-8".
Proof. vm_compute. repeat split. Qed.

(** ** C44: listening sockets *)

(** Never a transport that is not configured. *)
Theorem C44_only_configured : forall os cp no_systemd sockets tcp udp,
  server_new os cp no_systemd sockets = Ok (tcp, udp) ->
  (tcp <> None -> cp_tcp cp = true) /\ (udp <> None -> cp_udp cp = true).
Proof.
  intros os cp ns sockets tcp udp H. apply server_new_cases in H.
  destruct H as [(l & _ & _ & T & _)|(_ & -> & ->)].
  - apply take_sockets_spec in T. destruct T as (A & B & _). unfold taken in A, B.
    destruct (cp_tcp cp), (cp_udp cp); subst; split; congruence.
  - destruct (cp_tcp cp), (cp_udp cp); split; congruence.
Qed.
Print Assumptions C44_only_configured.

(** Without sockets from systemd: every configured transport and no other, on
    the configured port. *)
Theorem C44_bound_exactly : forall os cp no_systemd sockets tcp udp,
  no_systemd = true \/ sockets = Ok [] ->
  server_new os cp no_systemd sockets = Ok (tcp, udp) ->
  tcp = (if cp_tcp cp then Some (LBound (cp_port cp)) else None)
  /\ udp = (if cp_udp cp then Some (LBound (cp_port cp)) else None).
Proof.
  intros os cp ns sockets tcp udp N H. apply server_new_cases in H.
  destruct H as [(l & -> & E & T & D)|(_ & -> & ->)]; [|auto].
  destruct N as [N|N]; [discriminate|]. rewrite N in E. injection E as <-. simpl in T. injection T as <- <-.
  destruct D; congruence.
Qed.
Print Assumptions C44_bound_exactly.

(** The start fails only if the operating system or systemd fails, or systemd
    hands over sockets that cannot be used. *)
Theorem C44_binds_if_possible : forall os cp no_systemd sockets,
  no_systemd = true \/ sockets = Ok [] -> os_bind_tcp os = true -> os_bind_udp os = true ->
  exists tcp udp, server_new os cp no_systemd sockets = Ok (tcp, udp).
Proof.
  intros os cp ns sockets N BT BU. unfold server_new. rewrite BT, BU.
  destruct N as [-> | ->]; [|destruct ns]; cbn; destruct (cp_tcp cp), (cp_udp cp); cbn; eauto.
Qed.
Print Assumptions C44_binds_if_possible.

(** A listener taken over from systemd is a socket that systemd handed over, and
    the kernel says that it has the right type. *)
Theorem C44_right_kind : forall ft os cp fds sockets no_systemd tcp udp,
  sockets = get_all ft true (Some fds) ->
  server_new os cp no_systemd sockets = Ok (tcp, udp) ->
  (forall fd, tcp = Some (LSystemd fd) -> exists i, In i fds /\ fd_num i = fd /\ tcp_fd i)
  /\ (forall fd, udp = Some (LSystemd fd) -> exists i, In i fds /\ fd_num i = fd /\ udp_fd i).
Proof.
  intros ft os cp fds sockets ns tcp udp E H. apply server_new_cases in H.
  destruct H as [(l & _ & S & T & _)|(_ & -> & ->)].
  - rewrite E in S. simpl in S. apply sort_fds_spec in S. apply take_sockets_spec in T. destruct T as (A & B & _).
    assert (IN : forall s, In s l -> exists i, In i fds /\ sorted_as ft i s).
    { clear - S. induction S as [|i s fds l K S IH]; intros x []; [subst; exists i; simpl; auto|].
      destruct (IH x H) as (j & I & J). exists j. simpl. auto. }
    unfold taken in A, B. split; intros fd ->.
    + destruct (cp_tcp cp); [|discriminate]. destruct (tcp_of l) as [|x [|y r]] eqn:TO; [discriminate| |destruct A].
      injection A as ->. destruct (IN (SdTcp x)) as (i & I & Q & K & _); [apply in_tcp_of; rewrite TO; left; reflexivity|].
      exists i. auto.
    + destruct (cp_udp cp); [|discriminate]. destruct (udp_of l) as [|x [|y r]] eqn:TO; [discriminate| |destruct B].
      injection B as ->. destruct (IN (SdUdp x)) as (i & I & Q & K & _); [apply in_udp_of; rewrite TO; left; reflexivity|].
      exists i. auto.
  - split; intros fd X; [destruct (cp_tcp cp)|destruct (cp_udp cp)]; discriminate.
Qed.
Print Assumptions C44_right_kind.

(** Two sockets of a configured transport, or a unix socket, are rejected. *)
Theorem C44_duplicates_rejected : forall os cp l tcp udp,
  server_new os cp false (Ok l) = Ok (tcp, udp) ->
  (cp_tcp cp = true -> forall a b c x y, l <> a ++ SdTcp x :: b ++ SdTcp y :: c)
  /\ (cp_udp cp = true -> forall a b c x y, l <> a ++ SdUdp x :: b ++ SdUdp y :: c)
  /\ (forall fd, ~ In (SdUnix fd) l).
Proof.
  intros os cp l tcp udp H.
  assert (T : exists t u, take_sockets os cp l None None = Ok (t, u)).
  { apply server_new_cases in H. destruct H as [(l' & _ & [= <-] & T & _)|([X|(l' & _ & [= <-] & T)] & _)]; eauto. discriminate. }
  destruct T as (t & u & T). apply take_sockets_spec in T. destruct T as (A & B & U). unfold taken in A, B.
  assert (TA : forall a b, tcp_of (a ++ b) = tcp_of a ++ tcp_of b)
    by (induction a as [|[z|z|z] a IH]; intros b; simpl; rewrite ?IH; reflexivity).
  assert (UA : forall a b, udp_of (a ++ b) = udp_of a ++ udp_of b)
    by (induction a as [|[z|z|z] a IH]; intros b; simpl; rewrite ?IH; reflexivity).
  split; [|split; [|exact U]]; intros C a b c x y ->; rewrite C in *.
  - rewrite TA in A. simpl in A. rewrite TA in A. simpl in A.
    destruct (tcp_of a) as [|p [|q r]]; simpl in A; [destruct (tcp_of b); simpl in A; exact A|exact A|exact A].
  - rewrite UA in B. simpl in B. rewrite UA in B. simpl in B.
    destruct (udp_of a) as [|p [|q r]]; simpl in B; [destruct (udp_of b); simpl in B; exact B|exact B|exact B].
Qed.
Print Assumptions C44_duplicates_rejected.

(** The sockets of systemd, exactly: none if systemd does not run; otherwise every
    descriptor, in order, with its kind; and an error, not a panic, if the
    environment is malformed or any descriptor is of another kind. *)
Theorem C44_sockets_exact : forall ft booted fds,
  get_all ft booted fds <> Panic
  /\ forall l, get_all ft booted fds = Ok l
       <-> (booted = false /\ l = []) \/ (booted = true /\ exists d, fds = Some d /\ Forall2 (sorted_as ft) d l).
Proof.
  intros ft booted fds. unfold get_all. split.
  - destruct booted; [|discriminate]. destruct fds as [d|]; [|discriminate].
    induction d as [|i d IH]; [discriminate|]. cbn [sort_fds].
    destruct (ft_udp ft && is_udp_socket i); [destruct (sort_fds ft d); congruence|].
    destruct (ft_tcp ft && is_tcp_socket i); [destruct (sort_fds ft d); congruence|].
    destruct (ft_unix ft && is_unix_socket i); [destruct (sort_fds ft d); congruence|discriminate].
  - intros l. destruct booted.
    + destruct fds as [d|].
      * rewrite sort_fds_spec. split; [intros H; right; eauto|].
        intros [[X _]|(_ & d' & [= <-] & H)]; [discriminate X|exact H].
      * split; [discriminate|]. intros [[X _]|(_ & d' & X & _)]; discriminate X.
    + split; [intros [= <-]; auto|]. intros [[_ ->]|[X _]]; [reflexivity|discriminate X].
Qed.
Print Assumptions C44_sockets_exact.

(** No answer of systemd or the operating system makes the start panic. *)
Theorem C44_no_panic : forall ft booted fds os cp no_systemd,
  server_new os cp no_systemd (get_all ft booted fds) <> Panic.
Proof.
  intros ft booted fds os cp ns. pose proof (proj1 (C44_sockets_exact ft booted fds)) as NP.
  assert (TS : forall l t u, take_sockets os cp l t u <> Panic).
  { induction l as [|[fd|fd|fd] l IH]; intros t u; cbn [take_sockets];
      repeat match goal with |- context [if ?b then _ else _] => destruct b end;
      try destruct t; try destruct u; try discriminate; try apply IH. }
  unfold server_new. destruct ns; [|destruct (get_all ft booted fds) as [l|e|]; [|discriminate|contradiction NP; reflexivity]]; cbn [bind].
  - cbn. destruct (cp_tcp cp), (cp_udp cp), (os_bind_tcp os), (os_bind_udp os); discriminate.
  - specialize (TS l None None). destruct (take_sockets os cp l None None) as [[[t|] [u|]]|e|]; cbn; try discriminate;
      [..|contradiction TS; reflexivity]; destruct (os_notify os); cbn; try discriminate;
      destruct (cp_tcp cp), (cp_udp cp), (os_bind_tcp os), (os_bind_udp os); discriminate.
Qed.
Print Assumptions C44_no_panic.

(** If any transport is configured, letmeind listens on at least one. *)
Theorem C44_listens : forall os cp no_systemd sockets tcp udp,
  cp_tcp cp = true \/ cp_udp cp = true ->
  server_new os cp no_systemd sockets = Ok (tcp, udp) -> tcp <> None \/ udp <> None.
Proof.
  intros os cp ns sockets tcp udp C H. apply server_new_cases in H.
  destruct H as [(l & _ & _ & _ & D)|(_ & -> & ->)]; [exact D|].
  destruct C as [-> | ->]; [left|right]; discriminate.
Qed.
Print Assumptions C44_listens.

(** "Exactly the configured transports" is false with systemd: a configured
    transport for which systemd has no socket is silently not served. *)
Theorem C44_every_transport_refuted :
  exists os cp sockets tcp, cp_tcp cp = true /\ cp_udp cp = true
    /\ server_new os cp false (Ok sockets) = Ok (tcp, None).
Proof.
  exists (OsStart (fun _ => true) true true true), (ControlPort 5800 true true), [SdTcp 3], (Some (LSystemd 3)).
  vm_compute. auto.
Qed.
Print Assumptions C44_every_transport_refuted.

(** With systemd, if there is a socket of each configured transport, exactly the
    configured transports are served, each on the socket of systemd. *)
Theorem C44_systemd_exactly_partial : forall os cp l tcp udp,
  (cp_tcp cp = true -> exists fd, In (SdTcp fd) l) -> (cp_udp cp = true -> exists fd, In (SdUdp fd) l) ->
  server_new os cp false (Ok l) = Ok (tcp, udp) ->
  (if cp_tcp cp then exists fd, tcp = Some (LSystemd fd) /\ In (SdTcp fd) l else tcp = None)
  /\ (if cp_udp cp then exists fd, udp = Some (LSystemd fd) /\ In (SdUdp fd) l else udp = None).
Proof.
  intros os cp l tcp udp T U H. apply server_new_cases in H.
  assert (G : forall on fds got, taken on None fds got -> (on = true -> exists fd, In fd fds) ->
     if on then exists fd, got = Some (LSystemd fd) /\ In fd fds else got = None).
  { intros [] fds got K EX; simpl in K; [|exact K]. destruct (EX eq_refl) as (fd & I).
    destruct fds as [|x [|y r]]; [destruct I| |destruct K]. exists x. simpl. auto. }
  assert (CONV : forall t u, take_sockets os cp l None None = Ok (t, u) ->
     (if cp_tcp cp then exists fd, t = Some (LSystemd fd) /\ In (SdTcp fd) l else t = None)
     /\ (if cp_udp cp then exists fd, u = Some (LSystemd fd) /\ In (SdUdp fd) l else u = None)).
  { intros t u E. apply take_sockets_spec in E. destruct E as (A & B & _).
    apply G in A; [|intros C; destruct (T C) as (fd & I); exists fd; apply in_tcp_of; exact I].
    apply G in B; [|intros C; destruct (U C) as (fd & I); exists fd; apply in_udp_of; exact I].
    split.
    - destruct (cp_tcp cp); [|exact A]. destruct A as (fd & E & I). apply in_tcp_of in I. eauto.
    - destruct (cp_udp cp); [|exact B]. destruct B as (fd & E & I). apply in_udp_of in I. eauto. }
  destruct H as [(l' & _ & [= <-] & E & _)|([X|(l' & _ & [= <-] & E)] & -> & ->)]; [exact (CONV _ _ E)|discriminate|].
  apply CONV in E. destruct (cp_tcp cp), (cp_udp cp); destruct E as (A & B);
    try (destruct A as (fd & X & _); discriminate); try (destruct B as (fd & X & _); discriminate); auto.
Qed.
Print Assumptions C44_systemd_exactly_partial.

(** letmeinfwd removes what is at its socket path only if that is a socket. *)
Theorem C44_fwd_removes_only_sockets : forall no_systemd test_mode sockets adopt notify at_path remove bind chown l,
  fw_server_new no_systemd test_mode sockets adopt notify at_path remove bind chown = Ok l ->
  match l with
  | FwSystemd fd => no_systemd = false /\ exists r, sockets = Ok (SdUnix fd :: r)
  | FwBound removed => no_systemd = true
      /\ (removed = true <-> exists mode, at_path = Some mode /\ N.land mode 61440 = 49152)
  end.
Proof.
  intros ns tm sockets adopt notify at_path remove bindok chown l H. unfold fw_server_new in H.
  destruct ns; cbn [negb] in H.
  - destruct (_ && negb remove); [discriminate|]. destruct (negb bindok); [discriminate|].
    destruct (negb tm && negb chown); [discriminate|]. injection H as <-. split; [reflexivity|].
    unfold S_IFMT, S_IFSOCK. destruct at_path as [mode|].
    + rewrite N.eqb_eq. split; [eauto|intros (m & [= <-] & E); exact E].
    + split; [discriminate|intros (m & X & _); discriminate].
  - destruct sockets as [[|[fd|fd|fd] r]| |]; cbn in H; try discriminate.
    destruct adopt, notify; try discriminate. injection H as <-. eauto.
Qed.
Print Assumptions C44_fwd_removes_only_sockets.

(** The listener of letmeinfwd, exactly: with systemd the unix socket that systemd
    hands over first; without systemd a bound socket with owner and mode set (not
    in test mode), after an old socket at the path has been removed. *)
Theorem C44_fwd_listener_exactly : forall no_systemd test_mode sockets adopt notify at_path remove bind chown l,
  fw_server_new no_systemd test_mode sockets adopt notify at_path remove bind chown = Ok l <->
  (no_systemd = false /\ adopt = true /\ notify = true
     /\ exists fd r, sockets = Ok (SdUnix fd :: r) /\ l = FwSystemd fd)
  \/ (no_systemd = true /\ bind = true /\ (test_mode = true \/ chown = true)
     /\ exists removed, l = FwBound removed /\ (removed = true -> remove = true)
        /\ (removed = true <-> exists mode, at_path = Some mode /\ N.land mode 61440 = 49152)).
Proof.
  intros ns tm sockets adopt notify at_path remove bindok chown l. unfold fw_server_new.
  destruct ns; cbn [negb].
  - set (b := match at_path with Some mode => N.land mode S_IFMT =? S_IFSOCK | None => false end).
    assert (B : b = true <-> exists mode, at_path = Some mode /\ N.land mode 61440 = 49152).
    { subst b. unfold S_IFMT, S_IFSOCK. destruct at_path as [mode|].
      - rewrite N.eqb_eq. split; [eauto|intros (m & [= <-] & E); exact E].
      - split; [discriminate|intros (m & X & _); discriminate]. }
    clearbody b. split.
    + intros H. right. destruct b, remove, bindok, tm, chown; try discriminate; injection H as <-;
        (split; [reflexivity|]); (split; [reflexivity|]); (split; [auto|]); eexists; (split; [reflexivity|]); split; auto; discriminate.
    + intros [(X & _)|(_ & -> & TC & rm & -> & R & RM)]; [discriminate|].
      assert (rm = b) as -> by (destruct rm, b; try reflexivity; [symmetry|]; tauto).
      destruct b; [rewrite R by reflexivity|]; destruct tm, chown; try reflexivity; destruct TC; discriminate.
  - split.
    + intros H. left. destruct sockets as [[|[fd|fd|fd] r]| |]; cbn in H; try discriminate.
      destruct adopt, notify; try discriminate. injection H as <-. repeat split. eauto.
    + intros [(_ & -> & -> & fd & r & -> & ->)|(X & _)]; [reflexivity|discriminate].
Qed.
Print Assumptions C44_fwd_listener_exactly.

(** Creating it never panics. *)
Theorem C44_fwd_no_panic : forall no_systemd test_mode sockets adopt notify at_path remove bind chown,
  sockets <> Panic -> fw_server_new no_systemd test_mode sockets adopt notify at_path remove bind chown <> Panic.
Proof.
  intros ns tm sockets adopt notify at_path remove bindok chown NP. unfold fw_server_new.
  destruct ns; cbn [negb].
  - destruct (_ && negb remove); [discriminate|]. destruct bindok, tm, chown; discriminate.
  - destruct sockets as [[|[fd|fd|fd] r]| |]; cbn; try discriminate; [|congruence]. destruct adopt, notify; discriminate.
Qed.
Print Assumptions C44_fwd_no_panic.

(** A descriptor that letmeinfwd takes over from systemd is a unix stream socket. *)
Theorem C44_fwd_right_kind : forall ft fds sockets no_systemd test_mode adopt notify at_path remove bind chown fd,
  sockets = get_all ft true (Some fds) ->
  fw_server_new no_systemd test_mode sockets adopt notify at_path remove bind chown = Ok (FwSystemd fd) ->
  exists i r, fds = i :: r /\ fd_num i = fd /\ unix_fd i.
Proof.
  intros ft fds sockets ns tm adopt notify at_path remove bindok chown fd ES H.
  apply C44_fwd_listener_exactly in H. destruct H as [(_ & _ & _ & fd' & r & E & [= <-])|(_ & _ & _ & rm & X & _)]; [|discriminate].
  rewrite E in ES. unfold get_all in ES. destruct fds as [|i fds]; [discriminate|]. simpl in ES.
  exists i, fds. split; [reflexivity|].
  destruct (ft_udp ft && is_udp_socket i); [destruct (sort_fds ft fds); discriminate|].
  destruct (ft_tcp ft && is_tcp_socket i); [destruct (sort_fds ft fds); discriminate|].
  destruct (ft_unix ft && is_unix_socket i) eqn:U; [|discriminate].
  destruct (sort_fds ft fds); [|discriminate|discriminate]. injection ES as E' _. split; [auto|].
  apply andb_prop in U. destruct U as (_ & U). apply kernel_says_spec in U. exact U.
Qed.
Print Assumptions C44_fwd_right_kind.


Definition example_fds : list fd_info :=
  [FdInfo 3 (Some 49645) (Some (4, 2)) (Some (28, 10)); FdInfo 4 (Some 49645) (Some (4, 1)) (Some (28, 10))].
Example C44_example :
  get_all (Features true true false) true (Some example_fds) = Ok [SdUdp 3; SdTcp 4]
  /\ server_new (OsStart (fun _ => true) true true true) (ControlPort 5800 true true) false (Ok [SdUdp 3; SdTcp 4])
     = Ok (Some (LSystemd 4), Some (LSystemd 3))
  /\ server_new (OsStart (fun _ => true) true true true) (ControlPort 5800 true false) false (Ok [])
     = Ok (Some (LBound 5800), None)
  /\ server_new (OsStart (fun _ => true) true true true) (ControlPort 5800 true true) false (Ok [SdTcp 3; SdTcp 4])
     = Err "Received multiple TCP sockets from systemd."
  /\ get_all (Features true true false) true (Some [FdInfo 3 (Some 33188) None None])
     = Err "Received unknown socket from systemd".
Proof. vm_compute. repeat split. Qed.
