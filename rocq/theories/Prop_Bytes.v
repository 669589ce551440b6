(** Property C68: a legitimate knock over byte streams succeeds however the bytes
    are cut into pieces. *)

From Coq Require Import String ZArith NArith List Bool Lia.
From Verif Require Import M_Base M_Proto M_IpAddr M_FwProto M_ConfTypes M_Server M_Client M_Firewall M_Stream M_Text M_Conf M_Sha3
  S_Wire S_Session S_Client S_Pair S_Text S_Conf S_System S_Whole S_E2e S_Bytes
  P_Base P_Sha3 P_Load P_Session P_Pair P_FwdProps P_E2e P_Files P_Whole P_Bytes
  Prop_Conf Prop_Pair Prop_Whole Prop_E2e S_Files S_Firewall.
Import ListNotations.
Local Open Scope N_scope.

(** *** The pieces are those of the loops in the code *)

(** A read step of S_Bytes is one turn of the receive loop, and the receive
    returns exactly when the buffer is full. *)
Lemma read_is_loop : forall size i x r closed sched, x <> [] -> (length (i ++ x) <= size)%nat ->
  recv_loop size i (RxSock (x ++ r) closed) (ReadUpTo (length x - 1) :: sched)
  = if Nat.eqb (length (i ++ x)) size then (Done (Ok (Some (i ++ x))), RxSock r closed, sched)
    else recv_loop size (i ++ x) (RxSock r closed) sched.
Proof.
  intros size i x r closed sched NE L. cbn [recv_loop rx_pending rx_closed].
  apply nonempty in NE. rewrite app_length in L.
  replace (Nat.min (S (length x - 1)) (Nat.min (size - length i) (length (x ++ r)))) with (length x)
    by (rewrite app_length; lia).
  destruct (Nat.eqb_spec (length x) 0); [lia|].
  rewrite firstn_app, Nat.sub_diag, firstn_all, firstn_O, app_nil_r.
  rewrite skipn_app, Nat.sub_diag, skipn_all, skipn_O. cbn [app].
  destruct (Nat.ltb_spec size (length (i ++ x))); [rewrite app_length in *; lia|]. reflexivity.
Qed.

(** A write step is one turn of the send loop, and the send returns exactly when
    everything is written. *)
Lemma write_is_loop : forall done x y sched,
  send_loop (done ++ x ++ y) (length done) (WriteUpTo (length x) :: sched)
  = match y with
    | [] => (TxDone (Ok tt), x)
    | _ => let '(o, w) := send_loop (done ++ x ++ y) (length (done ++ x)) sched in (o, x ++ w)
    end.
Proof.
  intros done x y sched. cbn [send_loop].
  assert (skipn (length done) (done ++ x ++ y) = x ++ y) as -> by (rewrite skipn_app, Nat.sub_diag, skipn_all; reflexivity).
  replace (Nat.min (length x) (length (x ++ y))) with (length x) by (rewrite app_length; lia).
  rewrite firstn_app, Nat.sub_diag, firstn_all, firstn_O, app_nil_r.
  rewrite !app_length.
  destruct (Nat.ltb_spec (length done + (length x + length y)) (length done + length x)); [lia|].
  destruct (Nat.eqb_spec (length done + length x) (length done + (length x + length y))) as [E|E]; destruct y; cbn in E; try lia; reflexivity.
Qed.

(** *** C68 *)

(** Client, letmeind and letmeinfwd agree about the knock (the hypotheses of C54)
    and talk over byte streams.  Then in every state that the three can reach, with
    any sizes of the pieces, any order of the steps, and anything undisturbing
    that others do in between: the knock has taken at most 2166 steps; it is
    successfully over or one of the three can go on; and it can be brought to its
    successful end. *)
Theorem C68_any_segmentation :
  forall mac parse_ip cc sc fc c host (ipv4 : bool) srv crypt user key res_id port rs peer kport tcp udp d0 h0 n s,
  (forall x y, length (mac x y) = 32%nat /\ all_bytes (mac x y)) ->
  agree cc sc host parse_ip (if ipv4 then RmIpv4 else RmIpv6) srv crypt user key res_id port rs ->
  plausible_address peer -> ip_address peer -> permitted_port fc port -> port < 2 ^ 16 -> family_fits c peer ->
  history fc c d0 h0 -> d_phase d0 = PhRun -> has_chain (d_kernel d0) c = true ->
  byte_steps fc c n
    (streams_start
       (run_knock mac parse_ip cc host (KnockServer (addr_mode_of ipv4 (negb ipv4)) kport tcp udp) port (Some user) srv crypt)
       (server_run mac sc peer) d0 h0) s ->
  clock_monotone (sb_hist s) ->
  (n <= 2166)%nat
  /\ (streams_finished fc c h0 peer rs s
      \/ exists s', byte_step fc c 1 s s' /\ clock_monotone (sb_hist s'))
  /\ exists m s', byte_steps fc c m s s' /\ clock_monotone (sb_hist s') /\ streams_finished fc c h0 peer rs s'.
Proof.
  intros mac parse_ip cc sc fc c host ipv4 srv crypt user key res_id port rs peer kport tcp udp d0 h0 n s
    MS AG PL IA PP PB FF H PH HC R MONO.
  set (cl := run_knock mac parse_ip cc host (KnockServer (addr_mode_of ipv4 (negb ipv4)) kport tcp udp) port (Some user) srv crypt) in *.
  set (sv := server_run mac sc peer) in *.
  assert (S0 : simr (streams_start cl sv d0 h0) (Full (Pair cl sv [] [] []) d0 h0 [] [])).
  { apply (Sim cl None [] sv None [] d0 h0 None [] [] [] [] [] cl [] sv [] [] [] []); try constructor; cbv; lia. }
  assert (G : forall n s, byte_steps fc c n (streams_start cl sv d0 h0) s -> clock_monotone (sb_hist s) ->
    (n <= 2166)%nat /\ (streams_finished fc c h0 peer rs s \/ exists s', byte_step fc c 1 s s' /\ clock_monotone (sb_hist s'))).
  { clear n s R MONO. intros n s R MONO.
    destruct (sim_steps fc c _ _ S0 n s R) as (m & f & RF & S & L).
    assert (EH : fu_hist f = sb_hist s) by (inversion S; reflexivity).
    destruct (e2e _ _ _ _ _ _ _ _ _ _ _ _ _ _ _ _ _ _ _ MS AG PL IA PP PB FF d0 h0 H PH HC m f RF) as (B & Q);
      [rewrite EH; exact MONO|].
    split; [unfold load, streams_start in L; cbn in L; lia|].
    destruct (sb_cout s) eqn:OC; [right; destruct (sim_send fc c s f S) as (s' & ST & E); [left; congruence|exists s'; rewrite E; auto]|].
    destruct (sb_sout s) eqn:OS; [right; destruct (sim_send fc c s f S) as (s' & ST & E); [right; left; congruence|exists s'; rewrite E; auto]|].
    destruct (sb_dout s) eqn:OD; [right; destruct (sim_send fc c s f S) as (s' & ST & E); [right; right; congruence|exists s'; rewrite E; auto]|].
    destruct Q as [(QC & QS & QP)|(f' & ST & MONO')].
    - left. inversion S as [? ? ? ? ? ? ? ? ? ? ? ? ? ? ? ? ? ? ? ? ? ? ? ? ? ? CR ? SR]; subst. cbn in OC, OS, QC, QS. subst.
      inversion CR; inversion SR; subst. split; [cbn; congruence|]. split; [cbn; congruence|exact QP].
    - right. destruct (sim_go fc c s f f' S OC OS OD ST) as (s' & ST' & [E|E]); exists s'; rewrite E; auto. }
  destruct (G n s R MONO) as (B & Q). split; [exact B|]. split; [exact Q|]. clear Q.
  assert (E : exists k, (n + k = 2167)%nat) by (exists (2167 - n)%nat; lia). destruct E as (k & E). clear B.
  revert n s R MONO E. induction k as [|k IH]; intros n s R MONO E; destruct (G n s R MONO) as (B & Q).
  - lia.
  - destruct Q as [Q|(s1 & ST & MONO')].
    + exists 0%nat, s. split; [constructor|]. split; [exact MONO|exact Q].
    + destruct (IH (n + 1)%nat s1 (bss_S _ _ _ _ _ _ _ R ST) MONO') as (m & s' & R' & F); [lia|].
      exists (1 + m)%nat, s'. split; [|exact F]. clear - ST R'.
      induction R' as [s1|m i s1 s2 s3 R' IH ST2].
      * change (1 + 0)%nat with (0 + 1)%nat. econstructor; [constructor|exact ST].
      * replace (1 + (m + i))%nat with (1 + m + i)%nat by lia. econstructor; [apply IH; exact ST|exact ST2].
Qed.
Print Assumptions C68_any_segmentation.

(** The same in terms of the configuration files. *)
Theorem C68_any_segmentation_from_files :
  forall mac parse_ip fraction cfile cls cc sfile sls sc fc c host (ipv4 : bool) srv crypt given user port rs peer
         kport tcp udp d0 h0 n s,
  (forall x y, length (mac x y) = 32%nat /\ all_bytes (mac x y)) ->
  started_from fraction VarClient cfile cls cc ->
  started_from fraction VarServer sfile sls sc -> started_from fraction VarServer sfile sls fc ->
  files_agree cls sls user port rs -> user_of_command cls given user ->
  resolvable parse_ip host (if ipv4 then RmIpv4 else RmIpv6) srv crypt ->
  plausible_address peer -> ip_address peer -> family_fits c peer ->
  history fc c d0 h0 -> d_phase d0 = PhRun -> has_chain (d_kernel d0) c = true ->
  byte_steps fc c n
    (streams_start
       (run_knock mac parse_ip cc host (KnockServer (addr_mode_of ipv4 (negb ipv4)) kport tcp udp) port given srv crypt)
       (server_run mac sc peer) d0 h0) s ->
  clock_monotone (sb_hist s) ->
  (n <= 2166)%nat
  /\ (streams_finished fc c h0 peer rs s
      \/ exists s', byte_step fc c 1 s s' /\ clock_monotone (sb_hist s'))
  /\ exists m s', byte_steps fc c m s s' /\ clock_monotone (sb_hist s') /\ streams_finished fc c h0 peer rs s'.
Proof.
  intros mac parse_ip fraction cfile cls cc sfile sls sc fc c host ipv4 srv crypt given user port rs peer
    kport tcp udp d0 h0 n s MS CL SL FL FA UC HOST PL IA FF H PH HC R MONO.
  destruct (files_to_agree _ _ _ _ _ _ _ _ _ _ _ _ _ _ _ CL SL FA HOST) as (key & id & AG).
  pose proof (files_permit _ _ _ _ _ _ _ _ FL FA) as PP.
  assert (port < 2 ^ 16) as PB.
  { destruct FA as [_ (i & crs & _ & _ & _ & (o & t & _ & _ & RT) & <- & _) _]. eapply resource_text_sane. exact RT. }
  assert (run_knock mac parse_ip cc host (KnockServer (addr_mode_of ipv4 (negb ipv4)) kport tcp udp) port given srv crypt
          = run_knock mac parse_ip cc host (KnockServer (addr_mode_of ipv4 (negb ipv4)) kport tcp udp) port (Some user) srv crypt)
    as EU.
  { destruct UC as [-> | [-> D]]; [reflexivity|]. unfold run_knock. rewrite (default_user_of _ _ _ _ _ CL D). reflexivity. }
  rewrite EU in R. eapply C68_any_segmentation; eassumption.
Qed.
Print Assumptions C68_any_segmentation_from_files.

(** The sample client knocks at the sample server over byte streams. *)
Example C68_complete_run : forall parse_ip host srv,
  resolvable parse_ip host RmIpv4 srv (ResCrypt true true true) ->
  exists m s', byte_steps sample_conf (ChainName INet (lit "filter") (lit "LETMEIN")) m
    (streams_start (run_knock hmac_sha3_256 parse_ip client_conf host
                      (KnockServer (addr_mode_of true false) None false false) 53 None srv (ResCrypt true true true))
                   (server_run hmac_sha3_256 sample_conf sample_peer) sample_daemon []) s'
    /\ clock_monotone (sb_hist s')
    /\ streams_finished sample_conf (ChainName INet (lit "filter") (lit "LETMEIN")) [] sample_peer
                (ResPort 53 false true [10; 11]) s'.
Proof.
  intros parse_ip host srv HOST.
  eapply (C68_any_segmentation_from_files hmac_sha3_256 parse_ip no_fraction _ _ client_conf _ _ sample_conf
            sample_conf (ChainName INet (lit "filter") (lit "LETMEIN")) host true srv (ResCrypt true true true)
            None 11 53 _ sample_peer None false false sample_daemon []).
  - exact hmac_ok.
  - exact C54_client_started.
  - exact C54_server_started.
  - exact C54_server_started.
  - exact C54_files_agree.
  - right. split; [reflexivity|].
    destruct (started_configures _ _ _ _ _ C54_client_started) as [CF V]. exact (cf_client _ _ _ CF V).
  - exact HOST.
  - split; exists 192; split; try discriminate; simpl; auto.
  - split; [reflexivity|]. apply bytes_ok_spec. vm_compute. reflexivity.
  - exists sample_peer. split; [|exact Logic.I]. right. split; [reflexivity|]. intros; discriminate.
  - eapply hist_start with (k := sample_kernel) (exe_ok := true) (ok := true); [|vm_compute; reflexivity].
    unfold configured_chain. repeat split; try reflexivity; discriminate.
  - reflexivity.
  - vm_compute. reflexivity.
  - constructor.
  - intros p x q y r t u E. destruct p; discriminate.
Qed.
