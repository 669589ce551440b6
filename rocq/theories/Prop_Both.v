(** Property C69: a knock over one or both families succeeds exactly if the network
    allows it. *)

From Coq Require Import String ZArith NArith List Bool Lia.
From Verif Require Import M_Base M_Proto M_IpAddr M_FwProto M_ConfTypes M_Server M_Client M_Sha3
  S_Wire S_Session S_Client S_Pair S_Both P_Base P_Proto P_Server P_Session P_Client P_Sha3 P_Pair P_Both P_Exec P_CExec Prop_Client Prop_Pair.
Import ListNotations.
Local Open Scope N_scope.

(** Client and server agree about the knock.  The client command has the options
    [-4] and [-6] or not, and each family works or not.  Then every execution takes
    at most 36 steps, and in every state a next step is possible or the command is
    over as [world_done] says: it reports success exactly if enough families work,
    and exactly the addresses of the families that count were opened. *)
Theorem C69_families_that_work :
  forall mac parse_ip cc sc net host ipv4 ipv6 srv crypt user key res_id port rs kport tcp udp n s,
  (forall x y, length (mac x y) = 32%nat /\ all_bytes (mac x y)) ->
  (forall m, In m (families ipv4 ipv6 (parse_ip host)) ->
     agree cc sc host parse_ip m srv crypt user key res_id port rs) ->
  world_steps mac sc net n
    (World (run_knock mac parse_ip cc host (KnockServer (addr_mode_of ipv4 ipv6) kport tcp udp) port (Some user) srv crypt)
           None [] [] [] []) s ->
  (n <= 36)%nat
  /\ (world_done ipv4 ipv6 net (families ipv4 ipv6 (parse_ip host)) port rs s
      \/ exists s', world_step mac sc net s s').
Proof.
  intros mac parse_ip cc sc net host ipv4 ipv6 srv crypt user key res_id port rs kport tcp udp n s MS AG.
  assert (exists m0, In m0 (families ipv4 ipv6 (parse_ip host))) as (m0 & I0).
  { unfold families. destruct ipv4, ipv6, (parse_ip host) as [[|]|]; eexists; left; reflexivity. }
  pose proof (AG m0 I0) as A0.
  destruct (ag_cres _ _ _ _ _ _ _ _ _ _ _ _ A0) as (crs & I & EP & AU).
  unfold run_knock. unfold conf_key.
  rewrite (In_nlookup _ _ _ _ (ag_ckeys _ _ _ _ _ _ _ _ _ _ _ _ A0) (ag_ckey _ _ _ _ _ _ _ _ _ _ _ _ A0)).
  unfold resource_id_by_port. rewrite <- EP at 1.
  rewrite (res_id_unique _ res_id crs user (ag_cports _ _ _ _ _ _ _ _ _ _ _ _ A0) I (contains_user_of _ _ AU)).
  pose proof (control_port_choice (KnockServer (addr_mode_of ipv4 ipv6) kport tcp udp) cc
                (ag_ctransport _ _ _ _ _ _ _ _ _ _ _ _ A0)) as (OT & _).
  set (cp := to_control_port (KnockServer (addr_mode_of ipv4 ipv6) kport tcp udp) cc) in *.
  cbn [ks_addr_mode]. clear A0 I EP AU I0 m0.
  set (q := KnockSeq host srv crypt cp user res_id key).
  set (F := world_done ipv4 ipv6 net (families ipv4 ipv6 (parse_ip host)) port rs).
  intros R. revert n s R. change (wdw mac sc net F 36 (World (run_modes mac parse_ip q (addr_mode_of ipv4 ipv6)) None [] [] [] [])).
  assert (W := fun m peer N K c se up dn op pa AGm =>
    works_seq mac parse_ip MS cc sc net host srv crypt user key res_id port rs cp OT m AGm peer F N K c se up dn op pa).
  assert (X := fun m N K se up dn op pa AGm => 
    fails_seq mac parse_ip MS cc sc net host srv crypt user key res_id port rs cp OT m AGm F N K se up dn op pa).
  fold q in W, X.
  assert (END : forall r se up dn op pa, quiet se -> F (World (CRet r) se up dn op pa) ->
    wdw mac sc net F 0 (World (CRet r) se up dn op pa)).
  { intros r se up dn op pa QU H. apply wdw_end; [|exact H]. intros s' ST. inversion ST; subst; cbn in QU; discriminate QU. }
  assert (ONE : forall m, families ipv4 ipv6 (parse_ip host) = [m] ->
    wdw mac sc net F 36 (World (knock_sequence mac parse_ip q m) None [] [] [] [])).
  { intros m EF. assert (AGm := AG m ltac:(rewrite EF; left; reflexivity)).
    assert (EN : enough ipv4 ipv6 net [m] <-> net m <> None).
    { unfold enough. destruct (ipv4 || ipv6).
      - split; [intros H; apply H; left; reflexivity|intros H x [<-|[]]; exact H].
      - split; [intros (x & [<-|[]] & H); exact H|intros H; exists m; split; [left; reflexivity|exact H]]. }
    destruct (net m) as [peer|] eqn:NET.
    - apply (wdw_mono _ _ _ _ (18 + 0)); [lia|]. apply (W m peer 0%nat CRet _ None); auto; [exact Logic.I|apply follows_self|].
      intros x up dn OP. apply END; [reflexivity|]. subst F. rewrite EF. constructor; cbn [wd_client wd_past wd_session wd_opened].
      + exists (Ok tt). split; [reflexivity|]. split; [discriminate|]. rewrite EN. split; [discriminate|reflexivity].
      + cbn. constructor; [reflexivity|constructor].
      + cbn [S_Both.granted]. rewrite NET. cbn. constructor; [exact OP|constructor].
    - apply (wdw_mono _ _ _ _ (11 + 0)); [lia|]. apply (X m 0%nat CRet None); auto; [exact Logic.I| |apply follows_self].
      intros e. apply END; [exact Logic.I|]. subst F. rewrite EF. constructor; cbn [wd_client wd_past wd_session wd_opened].
      + exists (Err e). split; [reflexivity|]. split; [discriminate|]. rewrite EN. split; [discriminate|]. intros H. contradiction H. reflexivity.
      + constructor.
      + cbn [S_Both.granted]. rewrite NET. destruct (ipv4 || ipv6); constructor. }
  assert (NAME : ipv4 = false -> ipv6 = false -> parse_ip host = None \/ exists m, families ipv4 ipv6 (parse_ip host) = [m]
            /\ run_modes mac parse_ip q AmTryBoth = knock_sequence mac parse_ip q m).
  { intros -> ->. unfold run_modes, is_ipv4_addr, is_ipv6_addr. cbn [kq_addr q].
    destruct (parse_ip host) as [[o|o]|]; [right; eexists; split; reflexivity..|left; reflexivity]. }
  destruct ipv4, ipv6; cbn [addr_mode_of].
  - (* both *)
    cbn [families] in *. assert (A6 := AG RmIpv6 ltac:(left; reflexivity)). assert (A4 := AG RmIpv4 ltac:(right; left; reflexivity)).
    cbn [run_modes]. unfold and_then.
    destruct (net RmIpv6) as [p6|] eqn:N6.
    + change 36%nat with (18 + 18)%nat. eapply (W RmIpv6 p6 18%nat); [exact A6|exact N6|exact Logic.I|apply follows_bind|].
      intros m6 up dn O6. cbn [olist app].
      destruct (net RmIpv4) as [p4|] eqn:N4.
      * apply (wdw_mono _ _ _ _ (18 + 0)); [lia|]. apply (W RmIpv4 p4 0%nat CRet); auto; [reflexivity|apply follows_self|].
        intros m4 up' dn' O4. apply END; [reflexivity|]. constructor; cbn [wd_client wd_past wd_session wd_opened].
        -- exists (Ok tt). split; [reflexivity|]. split; [discriminate|]. split; [|reflexivity].
           intros _ x [<-|[<-|[]]]; congruence.
        -- cbn. repeat constructor.
        -- cbn [S_Both.granted]. rewrite N6, N4. cbn. repeat constructor; assumption.
      * apply (wdw_mono _ _ _ _ (11 + 0)); [lia|]. apply (X RmIpv4 0%nat CRet); auto; [reflexivity| |apply follows_self].
        intros e. apply END; [reflexivity|]. constructor; cbn [wd_client wd_past wd_session wd_opened].
        -- exists (Err e). split; [reflexivity|]. split; [discriminate|]. split; [discriminate|].
           intros H. exfalso. apply (H RmIpv4); [right; left; reflexivity|exact N4].
        -- cbn. repeat constructor.
        -- cbn [S_Both.granted]. rewrite N6, N4. cbn. repeat constructor; assumption.
    + apply (wdw_mono _ _ _ _ (11 + 0)); [lia|]. eapply (X RmIpv6 0%nat); [exact A6|exact N6|exact Logic.I| |apply follows_bind].
      intros e. cbn beta iota. apply END; [exact Logic.I|]. constructor; cbn [wd_client wd_past wd_session wd_opened].
      * exists (Err e). split; [reflexivity|]. split; [discriminate|]. split; [discriminate|].
        intros H. exfalso. apply (H RmIpv6); [left; reflexivity|exact N6].
      * constructor.
      * cbn [S_Both.granted]. rewrite N6. cbn. constructor.
  - (* -4 *) apply (ONE RmIpv4). reflexivity.
  - (* -6 *) apply (ONE RmIpv6). reflexivity.
  - (* neither *)
    destruct (NAME eq_refl eq_refl) as [E|(m & EF & EM)]; [|rewrite EM; apply ONE; exact EF].
    cbn [run_modes]. unfold is_ipv4_addr, is_ipv6_addr. cbn [kq_addr q]. rewrite E.
    assert (EF : families false false (parse_ip host) = [RmIpv6; RmIpv4]) by (rewrite E; reflexivity).
    assert (A6 := AG RmIpv6 ltac:(rewrite EF; left; reflexivity)). assert (A4 := AG RmIpv4 ltac:(rewrite EF; right; left; reflexivity)).
    subst F. rewrite EF in *.
    destruct (net RmIpv6) as [p6|] eqn:N6.
    + change 36%nat with (18 + 18)%nat. eapply (W RmIpv6 p6 18%nat); [exact A6|exact N6|exact Logic.I|apply follows_bind|].
      intros m6 up dn O6. cbn [olist app]. cbn beta.
      destruct (net RmIpv4) as [p4|] eqn:N4.
      * apply (wdw_mono _ _ _ _ (18 + 0)); [lia|]. eapply (W RmIpv4 p4 0%nat); [exact A4|exact N4|reflexivity|apply follows_bind|].
        intros m4 up' dn' O4. cbn beta iota. apply END; [reflexivity|]. constructor; cbn [wd_client wd_past wd_session wd_opened].
        -- exists (Ok tt). split; [reflexivity|]. split; [discriminate|]. split; [|reflexivity].
           intros _. exists RmIpv6. split; [left; reflexivity|congruence].
        -- cbn. repeat constructor.
        -- cbn [S_Both.granted]. rewrite N6, N4. cbn. repeat constructor; assumption.
      * apply (wdw_mono _ _ _ _ (11 + 0)); [lia|]. eapply (X RmIpv4 0%nat); [exact A4|exact N4|reflexivity| |apply follows_bind].
        intros e. cbn beta iota. apply END; [reflexivity|]. constructor; cbn [wd_client wd_past wd_session wd_opened].
        -- exists (Ok tt). split; [reflexivity|]. split; [discriminate|]. split; [|reflexivity].
           intros _. exists RmIpv6. split; [left; reflexivity|congruence].
        -- cbn. repeat constructor.
        -- cbn [S_Both.granted]. rewrite N6, N4. cbn. repeat constructor; assumption.
    + apply (wdw_mono _ _ _ _ (11 + 18)); [lia|]. eapply (X RmIpv6 18%nat); [exact A6|exact N6|exact Logic.I| |apply follows_bind].
      intros e. cbn beta iota.
      destruct (net RmIpv4) as [p4|] eqn:N4.
      * apply (wdw_mono _ _ _ _ (18 + 0)); [lia|]. eapply (W RmIpv4 p4 0%nat); [exact A4|exact N4|exact Logic.I|apply follows_bind|].
        intros m4 up' dn' O4. cbn beta iota. apply END; [reflexivity|]. constructor; cbn [wd_client wd_past wd_session wd_opened].
        -- exists (Ok tt). split; [reflexivity|]. split; [discriminate|]. split; [|reflexivity].
           intros _. exists RmIpv4. split; [right; left; reflexivity|congruence].
        -- cbn. repeat constructor.
        -- cbn [S_Both.granted]. rewrite N6, N4. cbn. repeat constructor; assumption.
      * apply (wdw_mono _ _ _ _ (11 + 0)); [lia|]. eapply (X RmIpv4 0%nat); [exact A4|exact N4|exact Logic.I| |apply follows_bind].
        intros e'. cbn beta iota. apply END; [exact Logic.I|]. constructor; cbn [wd_client wd_past wd_session wd_opened].
        -- exists (Err e). split; [reflexivity|]. split; [discriminate|]. split; [discriminate|].
           intros (x & [<-|[<-|[]]] & H); congruence.
        -- constructor.
        -- cbn [S_Both.granted]. rewrite N6, N4. cbn. constructor.
Qed.
Print Assumptions C69_families_that_work.

(** There always is an execution up to the end. *)
Lemma world_ends : forall mac sc net (D : world -> Prop) b k s0 s,
  (forall n s', world_steps mac sc net n s0 s' -> (n <= b)%nat /\ (D s' \/ exists s'', world_step mac sc net s' s'')) ->
  forall n, world_steps mac sc net n s0 s -> (b < n + k)%nat -> exists n' s', world_steps mac sc net n' s0 s' /\ D s'.
Proof.
  intros mac sc net D b k. induction k as [|k IH]; intros s0 s H n R L.
  - destruct (H n s R) as [LE _]. lia.
  - destruct (H n s R) as [_ [HD|(s1 & ST)]]; [exists n, s; auto|].
    apply (IH s0 s1 H (S n)); [|lia]. clear H L. induction R as [s|n s s2 s3 S0 R IHR].
    + econstructor; [exact ST|constructor].
    + econstructor; [exact S0|]. apply IHR. exact ST.
Qed.

Definition ex_net4 : network := fun m => match m with RmIpv4 => Some (V4 [192; 0; 2; 7]) | RmIpv6 => None end.

Definition ex_start (ipv4 ipv6 : bool) : world :=
  World (run_knock hmac_sha3_256 ex_parse_ip (ex_conf PolAlways) ex_host
           (KnockServer (addr_mode_of ipv4 ipv6) None false false) 22 (Some 7) ex_srv ex_crypt)
        None [] [] [] [].

(** A host name with a working IPv4 and a dead IPv6 path.  Without an option the
    command succeeds and opens the port for the IPv4 address; with both options it
    fails, because IPv6 was asked for, and opens nothing. *)
Example C69_one_family_dead :
  (exists n s, world_steps hmac_sha3_256 (ex_conf PolAlways) ex_net4 n (ex_start false false) s
     /\ wd_client s = CRet (Ok tt)
     /\ exists t, wd_opened s = [fw_new_open (V4 [192; 0; 2; 7]) t 22] /\ covers_tcp t = true)
  /\ (exists n s e, world_steps hmac_sha3_256 (ex_conf PolAlways) ex_net4 n (ex_start true true) s
     /\ wd_client s = CRet (Err e) /\ wd_opened s = []).
Proof.
  assert (AG : forall m, agree (ex_conf PolAlways) (ex_conf PolAlways) ex_host ex_parse_ip m ex_srv ex_crypt
                               7 ex_key 3 22 (ResPort 22 true false [7])).
  { intros m. destruct (C12_nonvacuous PolAlways). constructor; try assumption.
    right. split; [reflexivity|]. exists DnsSystem. reflexivity. }
  split.
  - destruct (world_ends hmac_sha3_256 (ex_conf PolAlways) ex_net4 _ 36 37 (ex_start false false) (ex_start false false)
      (fun n s => C69_families_that_work _ _ _ _ _ _ _ _ _ _ _ _ _ _ _ _ _ _ n s hmac_ok (fun m _ => AG m)) 0%nat
      (wss_0 _ _ _ _) ltac:(lia)) as (n & s & R & [(r & E1 & _ & E2) _ OP]).
    exists n, s. split; [exact R|]. split.
    + rewrite E1. f_equal. apply E2. exists RmIpv4. split; [right; left; reflexivity|discriminate].
    + cbn in OP. inversion OP as [|a m l l' (t & E & CT & _) T]; subst. inversion T; subst. exists t. split; [f_equal|exact CT].
  - destruct (world_ends hmac_sha3_256 (ex_conf PolAlways) ex_net4 _ 36 37 (ex_start true true) (ex_start true true)
      (fun n s => C69_families_that_work _ _ _ _ _ _ _ _ _ _ _ _ _ _ _ _ _ _ n s hmac_ok (fun m _ => AG m)) 0%nat
      (wss_0 _ _ _ _) ltac:(lia)) as (n & s & R & [(r & E1 & NP & E2) _ OP]).
    cbn in OP. inversion OP as [EO|]; subst. exists n, s.
    destruct r as [[]|e|]; [|exists e; auto|contradiction NP; reflexivity].
    exfalso. apply (proj1 E2 eq_refl RmIpv6); [left; reflexivity|reflexivity].
Qed.
