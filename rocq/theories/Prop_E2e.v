(** C54, C55: the whole way from the configuration files to the firewall. *)

From Coq Require Import String NArith List Lia Permutation.
From Verif Require Import M_Base M_Proto M_IpAddr M_FwProto M_ConfTypes M_Text M_Conf M_Server M_Client M_Firewall
  M_Sha3 S_Wire S_Session S_Client S_Pair S_Text S_Conf S_System S_Whole S_E2e
  P_Base P_Sha3 P_Load P_Session P_FwdProps P_E2e P_Files P_Whole Prop_Conf Prop_Pair Prop_Whole S_Files S_Firewall.
Import ListNotations.
Local Open Scope N_scope.

(** *** C54: a knock that should succeed does succeed *)

(** Client command, server session and firewall daemon run concurrently, the
    firewall daemon after any history [h0] and with any activity of others in
    between.  Every execution ends after at most 19 steps of this knock, and in
    every state either a next step is possible, or the client has reported
    success, the session has ended well, and the firewall lets the peer through
    to the resource until the lease expires. *)
Theorem C54_knock_opens_the_port :
  forall mac parse_ip cc sc fc c host (ipv4 : bool) srv crypt user key res_id port rs peer kport tcp udp d0 h0 n s,
  (forall x y, length (mac x y) = 32%nat /\ all_bytes (mac x y)) ->
  agree cc sc host parse_ip (if ipv4 then RmIpv4 else RmIpv6) srv crypt user key res_id port rs ->
  plausible_address peer -> ip_address peer -> permitted_port fc port -> port < 2 ^ 16 -> family_fits c peer ->
  history fc c d0 h0 -> d_phase d0 = PhRun -> has_chain (d_kernel d0) c = true ->
  full_steps fc c n
    (Full (Pair (run_knock mac parse_ip cc host
                   (KnockServer (addr_mode_of ipv4 (negb ipv4)) kport tcp udp) port (Some user) srv crypt)
                (server_run mac sc peer) [] [] []) d0 h0 [] []) s ->
  clock_monotone (fu_hist s) ->
  (n <= 19)%nat
  /\ (finished fc c h0 peer rs s \/ exists s', full_step fc c 1 s s' /\ clock_monotone (fu_hist s')).
Proof. intros. eapply e2e; eassumption. Qed.
Print Assumptions C54_knock_opens_the_port.

(** The same in terms of the configuration files: both daemons read the same
    file, at different times and with different hash orders; the client reads
    its own. *)
Theorem C54_knock_opens_the_port_from_files :
  forall mac parse_ip fraction cfile cls cc sfile sls sc fc c host (ipv4 : bool) srv crypt given user port rs peer
         kport tcp udp d0 h0 n s,
  (forall x y, length (mac x y) = 32%nat /\ all_bytes (mac x y)) ->
  started_from fraction VarClient cfile cls cc ->
  started_from fraction VarServer sfile sls sc -> started_from fraction VarServer sfile sls fc ->
  files_agree cls sls user port rs -> user_of_command cls given user ->
  resolvable parse_ip host (if ipv4 then RmIpv4 else RmIpv6) srv crypt ->
  plausible_address peer -> ip_address peer -> family_fits c peer ->
  history fc c d0 h0 -> d_phase d0 = PhRun -> has_chain (d_kernel d0) c = true ->
  full_steps fc c n
    (Full (Pair (run_knock mac parse_ip cc host
                   (KnockServer (addr_mode_of ipv4 (negb ipv4)) kport tcp udp) port given srv crypt)
                (server_run mac sc peer) [] [] []) d0 h0 [] []) s ->
  clock_monotone (fu_hist s) ->
  (n <= 19)%nat
  /\ (finished fc c h0 peer rs s \/ exists s', full_step fc c 1 s s' /\ clock_monotone (fu_hist s'))
  /\ exists m s', full_steps fc c m s s' /\ clock_monotone (fu_hist s') /\ finished fc c h0 peer rs s'.
Proof.
  intros mac parse_ip fraction cfile cls cc sfile sls sc fc c host ipv4 srv crypt given user port rs peer
    kport tcp udp d0 h0 n s MS CL SL FL FA UC HOST PL IA FF H PH HC R MONO.
  destruct (files_to_agree _ _ _ _ _ _ _ _ _ _ _ _ _ _ _ CL SL FA HOST) as (key & id & AG).
  pose proof (files_permit _ _ _ _ _ _ _ _ FL FA) as PP.
  assert (port < 2 ^ 16) as PB.
  { destruct FA as [_ (i & crs & _ & _ & _ & (o & t & _ & _ & RT) & <- & _) _]. eapply resource_text_sane. exact RT. }
  assert (run_knock mac parse_ip cc host (KnockServer (addr_mode_of ipv4 (negb ipv4)) kport tcp udp) port given srv crypt
          = run_knock mac parse_ip cc host (KnockServer (addr_mode_of ipv4 (negb ipv4)) kport tcp udp) port (Some user) srv crypt)
    as EU.
  { destruct UC as [-> | [-> D]]; [reflexivity|]. unfold run_knock. rewrite (default_user_of _ _ _ _ _ CL D). reflexivity. }
  rewrite EU in R.
  destruct (e2e _ _ _ _ _ _ _ _ _ _ _ _ _ _ _ _ _ _ _ MS AG PL IA PP PB FF d0 h0 H PH HC n s R MONO) as (B & Q).
  split; [exact B|]. split; [exact Q|].
  eapply (e2e_end _ _ _ _ _ _ _ _ _ _ _ _ _ _ _ _ _ _ _ MS AG PL IA PP PB FF d0 h0 H PH HC (20 - n) n s R MONO). lia.
Qed.
Print Assumptions C54_knock_opens_the_port_from_files.

(** *** C55: nothing but what the file says is open *)

(** Both daemons run from the same file.  If the firewall accepts a packet, then
    either it goes to the control port of the file, by a transport of the file;
    or the file has a key for a user and a resource with the packet's port and
    transport that is open to this user, the packet's source proved to know the
    key in a session for this resource, the firewall daemon acknowledged the
    request of this session at a time [t], and no maintenance run since then was
    at or after [t] plus the lease time of the file. *)
Theorem C55_only_the_file_opens_ports :
  forall mac parse_ip fraction sfile sls sc fc T w c,
  started_from fraction VarServer sfile sls sc -> started_from fraction VarServer sfile sls fc ->
  (forall sid, ip_address (w_peer w sid)) ->
  forall tr d, whole mac parse_ip sc fc T w c tr d ->
  clock_monotone (fw_events tr) -> d_phase d = PhRun ->
  forall pk, ip_address (pk_src pk) -> chain_accepts (d_kernel d) c pk ->
  (exists cp, control_port_is sls cp /\ pk_dport pk = cp_port cp
     /\ match pk_transport pk with Tcp => cp_tcp cp | Udp => cp_udp cp end = true)
  \/ exists sid user key id rs pre0 pre fm sent_ok mid ev after t pt timeout,
       entry sls "KEYS"%string key_text user key
       /\ entry sls "RESOURCES"%string resource_text id rs /\ open_to rs user
       /\ pk_dport pk = rs_port rs
       /\ match pk_transport pk with Tcp => rs_tcp rs | Udp => rs_udp rs end = true
       /\ same_host (w_peer w sid) (pk_src pk)
       /\ tr = pre ++ WNet (GServer sid (EvFwSend fm sent_ok)) :: mid
               ++ WFw (Some sid) ev (Some fw_new_ack) :: after
       /\ server_events sid (net_events pre) = pre0 ++ [EvFwConnect true]
       /\ proved_key mac key user id pre0
       /\ acked (ev, Some fw_new_ack) t (w_peer w sid) pt (rs_port rs)
       /\ setting sls "NFTABLES"%string "timeout"%string (duration_text fraction) 600000000000 timeout
       /\ forall now o1 o2 b1 b2 b3 reply,
            In (FwMaintain now o1 o2 b1 b2 b3, reply) (fw_events after) -> now < t + timeout.
Proof.
  intros mac parse_ip fraction sfile sls sc fc T w c SL FL PA tr d WH MONO PH pk IA ACC.
  assert (to_control_port fc pk \/ ~ to_control_port fc pk) as [CP|NCP].
  { unfold to_control_port. destruct (N.eq_dec (pk_dport pk) (cp_port (c_port fc))) as [E|E]; [|right; intros [X _]; auto].
    destruct (match pk_transport pk with Tcp => cp_tcp (c_port fc) | Udp => cp_udp (c_port fc) end);
      [left; auto|right; intros [_ X]; discriminate]. }
  - left. exists (c_port fc). split; [apply (started_control _ _ _ _ _ FL)|exact CP].
  - right.
    destruct (C47_accepted_packet_has_authenticated_session mac parse_ip sc fc T w c
                (started_keys_sized _ _ _ _ _ SL) PA tr d WH MONO PH pk IA ACC NCP)
      as (sid & user & id & r & pre0 & pre & fm & sok & mid & ev & after & t & pt & ET & SH & SE & AU & [G1 _ G3 _] & [RC1 RC2] & AK & NE).
    destruct AU as [key d1 kb salt nonce d2 chal d3 rb K VK LN _ IM MA VR].
    exists sid, user, key, id, r. do 2 eexists. exists fm, sok, mid, ev, after, t, pt, (c_nft_timeout fc).
    split; [apply (started_keys _ _ _ _ _ SL); exact K|].
    split; [apply (started_resources _ _ _ _ _ SL); exact G1|].
    split; [exact G3|]. split; [exact RC1|]. split; [exact RC2|]. split; [exact SH|].
    split; [exact ET|]. split; [exact SE|]. split.
    { exists d1, kb, salt, nonce, d2, chal, d3, rb. auto 10. }
    split; [exact AK|]. split; [|exact NE].
    destruct (started_configures _ _ _ _ _ FL) as [CF V]. apply (cf_server _ _ _ CF V).
Qed.
Print Assumptions C55_only_the_file_opens_ports.

(** *** The hypotheses can be met *)

Local Open Scope string_scope.
Definition client_sample : text := lit
  ("[KEYS]" ++ NL ++ "B = " ++ hex64 "89abCDEF" ++ NL
   ++ "[RESOURCES]" ++ NL ++ "0002 = port: 53 / udp" ++ NL
   ++ "[CLIENT]" ++ NL ++ "default-user = 0000000B" ++ NL).
Local Open Scope N_scope.
Definition client_conf : config := Eval vm_compute in
  fst (conf_load no_fraction id_order (conf_new VarClient) (lit "c") (Some client_sample)).

Example C54_client_started :
  started_from no_fraction VarClient (Some client_sample) (M_Str.lines client_sample) client_conf.
Proof.
  exists id_order, (lit "c"). split; [apply id_order_ok|].
  assert (E : conf_load no_fraction id_order (conf_new VarClient) (lit "c") (Some client_sample) = (client_conf, Ok tt))
    by (vm_compute; reflexivity).
  destruct (C40_ini_file (Some client_sample)) as (A & _ & _).
  assert (exists i, M_Conf.ini_from_file (Some client_sample) = Ok i) as (i & EI).
  { eexists. vm_compute. reflexivity. }
  destruct (A i EI) as (ls & FL & W & _).
  assert (ls = M_Str.lines client_sample) as ->.
  { destruct FL as (bytes & t & [= <-] & U & L).
    assert (t = client_sample) as ->.
    { apply C40_utf8 in U. vm_compute in U. injection U as <-. reflexivity. }
    eapply P_Str.lines_of_fun; [exact L|apply P_Str.lines_spec]. }
  auto.
Qed.
Example C54_server_started :
  started_from no_fraction VarServer (Some sample_file) (M_Str.lines sample_file) sample_conf.
Proof.
  exists id_order, (lit "f"). split; [apply id_order_ok|]. split; [apply sample_lines|]. split; [apply sample_lines|].
  exact sample_loads.
Qed.
Example C54_files_agree : files_agree (M_Str.lines client_sample) (M_Str.lines sample_file) 11 53
                            (ResPort 53 false true [10; 11]).
Proof.
  split.
  - exists (concat (repeat [137; 171; 205; 239] 8)). split.
    + apply (started_keys _ _ _ _ _ C54_client_started). vm_compute. auto.
    + apply (started_keys _ _ _ _ _ C54_server_started). vm_compute. auto.
  - exists 2, (ResPort 53 false true []). split.
    { apply (started_resources _ _ _ _ _ C54_client_started). vm_compute. auto. }
    split; [reflexivity|]. split; [left; reflexivity|]. split.
    { apply (started_resources _ _ _ _ _ C54_server_started). vm_compute. auto. }
    split; [reflexivity|]. right. simpl. auto.
  - intros cp CP E.
    destruct (started_configures _ _ _ _ _ C54_server_started) as [CF _].
    pose proof (cf_port _ _ _ CF) as CP'. destruct sample_lines as [_ W].
    destruct CP as [(t & H & M)|(NO & ->)], CP' as [(t' & H' & M')|(NO' & _)].
    + pose proof (C40_one_value _ _ _ _ _ W H H') as <-.
      apply parse_port_spec in M. apply parse_port_spec in M'. rewrite M in M'. injection M' as ->.
      vm_compute in E. discriminate.
    + exfalso. eapply NO'; eauto.
    + exfalso. eapply NO; eauto.
    + vm_compute in E. discriminate.
Qed.

Definition sample_kernel : kernel := Kernel [ChainName INet (lit "filter") (lit "LETMEIN")] [] 1.
Definition sample_daemon : daemon := Eval vm_compute in
  match fw_start sample_conf sample_kernel true true with
  | (_, Ok d) => d
  | (k, _) => Daemon k (Firewall [] false) PhDead
  end.
Definition sample_peer : ip := V4 [192; 0; 2; 7].

(** A complete run of a knock of the sample client against the sample server. *)
Example C54_complete_run : forall parse_ip host srv,
  resolvable parse_ip host RmIpv4 srv (ResCrypt true true true) ->
  exists m s', full_steps sample_conf (ChainName INet (lit "filter") (lit "LETMEIN")) m
    (Full (Pair (run_knock hmac_sha3_256 parse_ip client_conf host
                   (KnockServer (addr_mode_of true false) None false false) 53 None srv (ResCrypt true true true))
                (server_run hmac_sha3_256 sample_conf sample_peer) [] [] []) sample_daemon [] [] []) s'
    /\ clock_monotone (fu_hist s')
    /\ finished sample_conf (ChainName INet (lit "filter") (lit "LETMEIN")) [] sample_peer
                (ResPort 53 false true [10; 11]) s'.
Proof.
  intros parse_ip host srv HOST.
  eapply (C54_knock_opens_the_port_from_files hmac_sha3_256 parse_ip no_fraction _ _ client_conf _ _ sample_conf
            sample_conf (ChainName INet (lit "filter") (lit "LETMEIN")) host true srv (ResCrypt true true true)
            None 11 53 _ sample_peer None false false sample_daemon []).
  - exact hmac_ok.
  - exact C54_client_started.
  - exact C54_server_started.
  - exact C54_server_started.
  - exact C54_files_agree.
  - right. split; [reflexivity|].
    destruct (started_configures _ _ _ _ _ C54_client_started) as [CF V]. exact (cf_client _ _ _ CF V).
  - exact HOST.
  - split; exists 192; split; try discriminate; simpl; auto.
  - split; [reflexivity|]. apply bytes_ok_spec. vm_compute. reflexivity.
  - exists sample_peer. split; [|exact Logic.I]. right. split; [reflexivity|]. intros; discriminate.
  - eapply hist_start with (k := sample_kernel) (exe_ok := true) (ok := true); [|vm_compute; reflexivity].
    unfold configured_chain. repeat split; try reflexivity; discriminate.
  - reflexivity.
  - vm_compute. reflexivity.
  - constructor.
  - intros p x q y r t u E. destruct p; discriminate.
Qed.
