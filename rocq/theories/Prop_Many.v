(** C83: any number of simultaneous legitimate knocks succeed. *)

From Coq Require Import String NArith List Lia Permutation.
From Verif Require Import M_Base M_Proto M_IpAddr M_FwProto M_ConfTypes M_Text M_Conf M_Server M_Client M_Firewall
  M_Sha3 S_Wire S_Session S_Client S_Pair S_Text S_Conf S_System S_Whole S_E2e
  P_Base P_Sha3 P_Load P_Session P_FwdProps P_E2e P_Files P_Whole Prop_Conf Prop_Pair Prop_Whole S_Files S_Firewall
  S_Many P_Many Prop_E2e.
Import ListNotations.
Local Open Scope N_scope.

(** [who]: the clients, each with its address and the resource that it wants; any
    number of them, also for the same resource, the same user or from the same
    address.  All of them run concurrently with each other, with the firewall daemon
    after any history, and with anything that others ask of it.  Then all knocks
    together take at most 19 steps per client; in every state that can be reached,
    every single client either is through (it reported success, its session ended
    well and its port is open until the lease expires) or can take its next step,
    whatever the other clients have done; and every execution can be continued until
    all clients are through. *)
Theorem C83_simultaneous_knocks_succeed :
  forall mac parse_ip sc fc c who d0 h0 tr s,
  (forall x y, length (mac x y) = 32%nat /\ all_bytes (mac x y)) ->
  (forall q peer rs, In (q, (peer, rs)) who -> legitimate mac parse_ip sc fc c q peer rs) ->
  history fc c d0 h0 -> d_phase d0 = PhRun -> has_chain (d_kernel d0) c = true ->
  many_steps fc c tr (Many (map fst who) d0 h0) s -> clock_monotone (my_hist s) ->
  (knock_steps tr <= 19 * length who)%nat
  /\ Forall2 (fun w q => finished fc c h0 (fst (snd w)) (snd (snd w)) (seen_by q s)
        \/ exists f', full_step fc c 1 (seen_by q s) f' /\ clock_monotone (fu_hist f')) who (my_knocks s)
  /\ exists tr' s', many_steps fc c tr' s s' /\ clock_monotone (my_hist s')
       /\ Forall2 (fun w q => finished fc c h0 (fst (snd w)) (snd (snd w)) (seen_by q s')) who (my_knocks s').
Proof.
  intros mac parse_ip sc fc c who d0 h0 tr s MS W H PH HC R MONO.
  pose proof (who_legitimate mac parse_ip sc fc c who W) as LG.
  destruct (run_all mac parse_ip sc fc c MS d0 h0 H PH HC tr _ s LG R) as (ns & A & EN).
  pose proof (all_bound mac parse_ip sc fc c MS d0 h0 H PH HC _ _ _ _ _ LG A MONO) as B. rewrite map_length in B.
  split; [lia|]. split; [exact (each mac parse_ip sc fc c MS d0 h0 H PH HC _ _ _ _ _ W A MONO)|].
  eapply (all_end mac parse_ip sc fc c MS d0 h0 H PH HC (S (19 * length who) - knock_steps tr) who tr s W R MONO). lia.
Qed.
Print Assumptions C83_simultaneous_knocks_succeed.

(** The step that a client can take is a step of the whole system. *)
Theorem C83_nobody_blocks_another :
  forall fc c l1 q l2 d h f', full_step fc c 1 (seen_by q (Many (l1 ++ q :: l2) d h)) f' ->
  exists s', many_step fc c (Some (length l1)) (Many (l1 ++ q :: l2) d h) s'
    /\ nth_error (my_knocks s') (length l1) = Some (alone f')
    /\ my_daemon s' = fu_daemon f' /\ my_hist s' = fu_hist f'
    /\ forall i, i <> length l1 -> nth_error (my_knocks s') i = nth_error (l1 ++ q :: l2) i.
Proof.
  intros fc c l1 q l2 d h f' ST. eexists. split; [constructor; exact ST|]. cbn [my_knocks my_daemon my_hist].
  split; [rewrite nth_error_app2, PeanoNat.Nat.sub_diag by lia; reflexivity|]. split; [reflexivity|]. split; [reflexivity|].
  intros i NE. destruct (Compare_dec.le_lt_dec (length l1) i) as [L|L].
  - rewrite !nth_error_app2 by lia. destruct (i - length l1)%nat eqn:E; [lia|reflexivity].
  - rewrite !nth_error_app1 by lia. reflexivity.
Qed.
Print Assumptions C83_nobody_blocks_another.

(** Configuration files that agree give such clients. *)
Theorem C83_files_make_legitimate_clients :
  forall mac parse_ip fraction cfile cls cc sfile sls sc fc c host (ipv4 : bool) srv crypt given user port rs peer
         kport tcp udp,
  started_from fraction VarClient cfile cls cc ->
  started_from fraction VarServer sfile sls sc -> started_from fraction VarServer sfile sls fc ->
  files_agree cls sls user port rs -> user_of_command cls given user ->
  resolvable parse_ip host (if ipv4 then RmIpv4 else RmIpv6) srv crypt ->
  plausible_address peer -> ip_address peer -> family_fits c peer ->
  legitimate mac parse_ip sc fc c
    (Knocking (Pair (run_knock mac parse_ip cc host
                       (KnockServer (addr_mode_of ipv4 (negb ipv4)) kport tcp udp) port given srv crypt)
                    (server_run mac sc peer) [] [] []) [] []) peer rs.
Proof.
  intros mac parse_ip fraction cfile cls cc sfile sls sc fc c host ipv4 srv crypt given user port rs peer
    kport tcp udp CL SL FL FA UC HOST PL IA FF.
  destruct (files_to_agree _ _ _ _ _ _ _ _ _ _ _ _ _ _ _ CL SL FA HOST) as (key & id & AG).
  pose proof (files_permit _ _ _ _ _ _ _ _ FL FA) as PP.
  assert (port < 2 ^ 16) as PB.
  { destruct FA as [_ (i & crs & _ & _ & _ & (o & t & _ & _ & RT) & <- & _) _]. eapply resource_text_sane. exact RT. }
  assert (run_knock mac parse_ip cc host (KnockServer (addr_mode_of ipv4 (negb ipv4)) kport tcp udp) port given srv crypt
          = run_knock mac parse_ip cc host (KnockServer (addr_mode_of ipv4 (negb ipv4)) kport tcp udp) port (Some user) srv crypt)
    as ->.
  { destruct UC as [-> | [-> D]]; [reflexivity|]. unfold run_knock. rewrite (default_user_of _ _ _ _ _ CL D). reflexivity. }
  econstructor; eassumption.
Qed.
Print Assumptions C83_files_make_legitimate_clients.

(** Any number of the sample clients, from two different addresses, all get through. *)
Definition sample_chain : chain_name := ChainName INet (lit "filter") (lit "LETMEIN").
Definition sample_knock (parse_ip : list N -> option ip) (host : list N) (srv : res_srv) (peer : ip) : knock :=
  Knocking (Pair (run_knock hmac_sha3_256 parse_ip client_conf host
                    (KnockServer (addr_mode_of true false) None false false) 53 None srv (ResCrypt true true true))
                 (server_run hmac_sha3_256 sample_conf peer) [] [] []) [] [].
Definition other_peer : ip := V4 [192; 0; 2; 8].

Lemma sample_history : history sample_conf sample_chain sample_daemon [].
Proof.
  unfold sample_chain. eapply hist_start with (k := sample_kernel) (exe_ok := true) (ok := true); [|vm_compute; reflexivity].
  unfold configured_chain. repeat split; try reflexivity; discriminate.
Qed.

Example C83_witness : forall parse_ip host srv a b,
  resolvable parse_ip host RmIpv4 srv (ResCrypt true true true) ->
  let rs := ResPort 53 false true [10; 11] in
  let who := repeat (sample_knock parse_ip host srv sample_peer, (sample_peer, rs)) a
             ++ repeat (sample_knock parse_ip host srv other_peer, (other_peer, rs)) b in
  exists tr s', many_steps sample_conf sample_chain tr (Many (map fst who) sample_daemon []) s'
    /\ clock_monotone (my_hist s')
    /\ Forall2 (fun w q => finished sample_conf sample_chain [] (fst (snd w)) (snd (snd w)) (seen_by q s'))
               who (my_knocks s').
Proof.
  intros parse_ip host srv a b HOST rs who.
  eapply (C83_simultaneous_knocks_succeed hmac_sha3_256 parse_ip sample_conf sample_conf sample_chain who
            sample_daemon [] [] (Many (map fst who) sample_daemon [])).
  - exact hmac_ok.
  - intros q peer r J.
    assert (q = sample_knock parse_ip host srv peer /\ r = rs /\ (peer = sample_peer \/ peer = other_peer)) as (-> & -> & P).
    { apply in_app_or in J. destruct J as [J|J]; apply repeat_spec in J;
        pose proof (f_equal fst J) as E1; pose proof (f_equal (fun x => fst (snd x)) J) as E2;
        pose proof (f_equal (fun x => snd (snd x)) J) as E3; cbn [fst snd] in E1, E2, E3; subst peer;
        (split; [exact E1|]); (split; [exact E3|]); auto. }
    unfold sample_knock.
    eapply (C83_files_make_legitimate_clients hmac_sha3_256 parse_ip no_fraction _ _ client_conf _ _ sample_conf sample_conf
              sample_chain host true srv (ResCrypt true true true) None 11 53 _ peer None false false).
    + exact C54_client_started.
    + exact C54_server_started.
    + exact C54_server_started.
    + exact C54_files_agree.
    + right. split; [reflexivity|].
      destruct (started_configures _ _ _ _ _ C54_client_started) as [CF V]. exact (cf_client _ _ _ CF V).
    + exact HOST.
    + destruct P as [-> | ->]; (split; exists 192; split; try discriminate; simpl; auto).
    + destruct P as [-> | ->]; (split; [reflexivity|]; apply bytes_ok_spec; vm_compute; reflexivity).
    + exists peer. split; [|destruct P as [-> | ->]; exact Logic.I]. right. split; [reflexivity|].
      intros o L. destruct P as [-> | ->]; discriminate.
  - exact sample_history.
  - reflexivity.
  - vm_compute. reflexivity.
  - constructor.
  - intros p x q y r t u E. destruct p; discriminate.
Qed.
