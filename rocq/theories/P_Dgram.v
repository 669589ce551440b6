(** Simulation of the datagrams and dispatchers (S_Dgram.v) by the channels that
    carry whole messages (S_E2e.v). *)

From Coq Require Import String ZArith NArith List Bool Lia Permutation.
From Verif Require Import M_Base M_Proto M_IpAddr M_FwProto M_ConfTypes M_Server M_Client M_Firewall M_Udp M_Wake
  S_Wire S_Session S_Client S_Pair S_Firewall S_E2e S_Dgram
  P_Base P_Proto P_FwProto P_Udp P_Pair P_E2e P_Bytes.
Import ListNotations.
Local Open Scope N_scope.

Notation UDP := M_Udp.Udp.

(** *** The dispatchers *)

Lemma firstn_msg : forall (b : list N), length b = MSG_SIZE -> firstn MSG_SIZE b = b.
Proof. intros b E. rewrite <- E. apply firstn_all. Qed.

Lemma try_recv_new : forall max b p, 1 <= max -> length b = MSG_SIZE ->
  try_recv max (UDP [] 0) (RdDatagram b p) = (UDP [(p, UConn [b] false)] 1, Ok tt).
Proof.
  intros max b p M L. unfold try_recv. rewrite (firstn_msg _ L), L, Nat.eqb_refl. cbn [negb u_conn conn_get u_nr conn_set uc_queue uc_accepted].
  change (len []) with 0. unfold UDP_RX_QUEUE_SIZE. destruct (N.leb_spec 0 max); [|lia]. cbn [negb N.leb N.compare N.eqb].
  rewrite sa_eqb_refl. cbn [app]. change (len [(p, UConn [b] false)]) with 1.
  destruct (N.ltb_spec max 1); [lia|]. cbn [N.add]. destruct (N.leb_spec 1 (max * 4)); [|lia]. reflexivity.
Qed.

Lemma try_recv_old : forall max b p a, 1 <= max -> length b = MSG_SIZE ->
  try_recv max (UDP [(p, UConn [] a)] 0) (RdDatagram b p) = (UDP [(p, UConn [b] a)] 1, Ok tt).
Proof.
  intros max b p a M L. unfold try_recv. rewrite (firstn_msg _ L), L, Nat.eqb_refl. cbn [negb u_conn conn_get u_nr].
  rewrite sa_eqb_refl. cbn [conn_set]. rewrite sa_eqb_refl. cbn [uc_queue uc_accepted].
  change (len [(p, UConn [] a)]) with 1. change (len []) with 0. unfold UDP_RX_QUEUE_SIZE.
  destruct (N.leb_spec 1 max); [|lia]. cbn [negb N.leb N.compare N.eqb conn_set]. rewrite sa_eqb_refl. cbn [app].
  change (len [(p, UConn [b] a)]) with 1.
  destruct (N.ltb_spec max 1); [lia|]. cbn [N.add]. destruct (N.leb_spec 1 (max * 4)); [|lia]. reflexivity.
Qed.

Definition items (p : sockaddr) (l : list (list N)) : list sock_item := map (fun b => ItDatagram b p) l.

Definition waits (ph : recv_phase) (i : nat) : list nat := match ph with RpWait => [i] | _ => [] end.

Definition bw (b : bool) (n : nat) : nat := if b then n else 0.
Definition rpw (ph : recv_phase) : nat := match ph with RpIdle => 2 | RpSleep => 1 | RpWait => 0 end.
Definition apw (ap : accept_phase) : nat := match ap with ApWait => 0 | _ => 1 end.

(** The client's dispatcher holds the datagrams [l]; [w] bounds the steps it can
    still make. *)
Inductive cst (there : sockaddr) : cprog -> wake -> list (list N) -> nat -> Prop :=
| Cst : forall cl cs ap rdy aw rw ph l w,
    cs = [] \/ cs = [(there, UConn [] false)] -> (l <> [] -> rdy = true) ->
    ph = RpIdle \/ (exists k, cl = CRecv k) ->
    w = (12 * length l + bw rdy 5 + bw rw 2 + rpw ph)%nat ->
    cst there cl (Wake (UdpSys (UDP cs 0) [(there, false)] false) (items there l) rdy aw rw ap [ph] (waits ph 0)) l w.

Lemma one_item : forall (l : list (list N)), (length l <= 1)%nat -> l = [] \/ exists b, l = [b].
Proof. intros [|b [|b' l]] L; cbn in L; try lia; eauto. Qed.

Lemma c_call : forall there k cd l w cd' r, cst there (CRecv k) cd l w ->
  wake_step 1 cd (WvCall 0) = Some (cd', r) -> exists w', cst there (CRecv k) cd' l w' /\ (1 + w' <= w)%nat.
Proof.
  intros there k cd l w cd' r C ST. inversion C; subst. cbn in ST. destruct ph; try discriminate ST. injection ST as <- <-.
  eexists. split; [eapply (Cst there (CRecv k) cs ap rdy aw rw RpWait); eauto|cbn [rpw]; lia].
Qed.

Lemma c_timer : forall there k cd l w cd' r, cst there (CRecv k) cd l w ->
  wake_step 1 cd (WvRecvTimer 0) = Some (cd', r) -> exists w', cst there (CRecv k) cd' l w' /\ (1 + w' <= w)%nat.
Proof.
  intros there k cd l w cd' r C ST. inversion C; subst. cbn in ST. destruct ph; try discriminate ST. injection ST as <- <-.
  eexists. split; [eapply (Cst there (CRecv k) cs ap rdy aw rw RpWait); eauto|cbn [rpw]; lia].
Qed.

Lemma c_arrive : forall there cl cd l w cd' r b, cst there cl cd l w ->
  wake_step 1 cd (WvArrive (ItDatagram b there)) = Some (cd', r) ->
  exists w', cst there cl cd' (l ++ [b]) w' /\ (w' <= w + 17)%nat.
Proof.
  intros there cl cd l w cd' r b C ST. inversion C; subst. cbn in ST. injection ST as <- <-.
  eexists. split.
  - replace (items there l ++ [ItDatagram b there]) with (items there (l ++ [b])) by (unfold items; rewrite map_app; reflexivity).
    eapply (Cst there cl cs ap true aw rw ph); eauto.
  - rewrite app_length. cbn [length bw]. destruct rdy; cbn [bw]; lia.
Qed.

Lemma c_recv : forall there k cd l w cd' r by_watch, cst there (CRecv k) cd l w -> (length l <= 1)%nat ->
  (forall b, In b l -> length b = MSG_SIZE) ->
  wake_step 1 cd (WvRecv 0 by_watch) = Some (cd', r) ->
  (l = [] /\ returned r = None /\ exists w', cst there (CRecv k) cd' [] w' /\ (1 + w' <= w)%nat)
  \/ (exists b w', l = [b] /\ r = UrDatagram b /\ (forall cl, cst there cl cd' [] w') /\ (1 + w' <= w)%nat).
Proof.
  intros there k cd l w cd' r by_watch C LL LM ST. inversion C as [? ? ? ? ? ? ? ? ? CS RD _ ?]; subst.
  unfold wake_step in ST. cbn [us_dead wk_sys wk_lock wk_rw wk_rdy wk_buf] in ST.
  destruct ph; cbn [waits] in ST; try discriminate ST. cbn [Nat.eqb andb] in ST.
  destruct (one_item l LL) as [->|(b & ->)].
  - left. split; [reflexivity|].
    destruct (if by_watch then rw else rdy) eqn:EN; [|discriminate ST].
    cbn [items map sock_try_read] in ST. unfold udp_step in ST. cbn [us_dead us_sess nth_error us_udp try_recv_from try_recv] in ST.
    assert (G : match conn_get (u_conn (UDP cs 0)) there with Some (UConn (b :: q) a) => (UDP cs 0, UrPanic) | _ => (UDP cs 0, UrIdle) end = (UDP cs 0, UrIdle)).
    { destruct CS as [->| ->]; [reflexivity|]. cbn. rewrite sa_eqb_refl. reflexivity. }
    destruct CS as [->| ->]; cbn in ST; rewrite ?sa_eqb_refl in ST; cbn in ST; injection ST as <- <-;
      (split; [reflexivity|]); rewrite ?orb_false_r;
      eexists; (split; [eapply (Cst there (CRecv k) _ ap false aw _ RpSleep [])|];
        [eauto| |eauto|reflexivity|]);
      try (intros X; contradiction); destruct by_watch, rw, rdy; cbn in *; try discriminate EN; lia.
  - right. assert (rdy = true) as -> by (apply RD; discriminate).
    pose proof (LM b (or_introl eq_refl)) as LB.
    destruct (if by_watch then rw else true) eqn:EN; [|discriminate ST].
    cbn [items map sock_try_read] in ST. unfold udp_step in ST.
    cbn [us_dead us_sess nth_error us_udp] in ST. unfold try_recv_from, news in ST. cbn [us_udp wk_sys] in ST.
    exists b. destruct CS as [->| ->].
    + rewrite try_recv_new in ST by (auto; lia). cbn [u_conn conn_get] in ST. rewrite ?sa_eqb_refl in ST.
      cbn in ST. rewrite ?sa_eqb_refl in ST. injection ST as <- <-. eexists. split; [reflexivity|]. split; [reflexivity|]. split.
      * intros cl. eapply (Cst there cl _ ap true _ _ RpIdle []); eauto. 
      * destruct by_watch, rw; cbn; lia.
    + rewrite try_recv_old in ST by (auto; lia). cbn [u_conn conn_get] in ST. rewrite ?sa_eqb_refl in ST.
      cbn in ST. rewrite ?sa_eqb_refl in ST. injection ST as <- <-. eexists. split; [reflexivity|]. split; [reflexivity|]. split.
      * intros cl. eapply (Cst there cl _ ap true _ _ RpIdle []); eauto.
      * destruct by_watch, rw; cbn; lia.
Qed.

(** A client that waits for a datagram that has arrived can go on. *)
Lemma c_go : forall there k cd b w, cst there (CRecv k) cd [b] w -> length b = MSG_SIZE ->
  (exists cd' r, wake_step 1 cd (WvCall 0) = Some (cd', r))
  \/ (exists cd' r, wake_step 1 cd (WvRecv 0 false) = Some (cd', r))
  \/ (exists cd' r, wake_step 1 cd (WvRecvTimer 0) = Some (cd', r)).
Proof.
  intros there k cd b w C LB. inversion C as [? ? ? ? ? ? ? ? ? CS RD _ ?]; subst.
  assert (rdy = true) as -> by (apply RD; discriminate). destruct ph.
  - left. eexists _, _. cbn. reflexivity.
  - right. left. unfold wake_step. cbn [us_dead wk_sys wk_lock wk_rw wk_rdy wk_buf waits Nat.eqb andb items map sock_try_read].
    unfold udp_step. cbn [us_dead us_sess nth_error us_udp]. unfold try_recv_from. destruct CS as [->| ->].
    + rewrite try_recv_new by (auto; lia). cbn [u_conn conn_get]. rewrite sa_eqb_refl. cbn. eexists _, _. reflexivity.
    + rewrite try_recv_old by (auto; lia). cbn [u_conn conn_get]. rewrite sa_eqb_refl. cbn. eexists _, _. reflexivity.
  - right. right. eexists _, _. cbn. reflexivity.
Qed.

Section Server.
Variables (mac : list N -> list N -> list N) (sc : config) (max : N) (here : sockaddr) (i : nat) (os : list (sockaddr * bool)).
Hypothesis MAX : 1 <= max.
Hypothesis OS : length os = i.

(** letmeind's dispatcher holds the datagrams [m]. *)
Inductive sst : option sprog -> wake -> list (list N) -> nat -> Prop :=
| Sa : forall rdy aw rw ap l w,
    (l <> [] -> rdy = true) ->
    w = (25 * length l + bw rdy 5 + bw aw 5 + bw rw 2 + apw ap)%nat ->
    sst None (Wake (UdpSys (UDP [] 0) os false) (items here l) rdy aw rw ap (repeat RpIdle i) []) l w
| Sb : forall p rdy aw rw ap ph q l w,
    (l <> [] -> rdy = true) -> (q <> [] -> rw = true) ->
    ph = RpIdle \/ (exists k, p = SRecv k) ->
    w = (5 * length q + 25 * length l + bw rdy 5 + bw aw 5 + bw rw 2 + apw ap + rpw ph + 1)%nat ->
    sst (Some p) (Wake (UdpSys (UDP [(here, UConn q true)] (len q)) (os ++ [(here, false)]) false)
                       (items here l) rdy aw rw ap (repeat RpIdle i ++ [ph]) (waits ph i)) (q ++ l) w
| Sc : forall v rdy aw rw ap w,
    w = (bw rdy 5 + bw aw 5 + bw rw 2 + apw ap)%nat ->
    sst (Some (SRet v)) (Wake (UdpSys (UDP [] 0) (os ++ [(here, true)]) false)
                              [] rdy aw rw ap (repeat RpIdle i ++ [RpIdle]) []) [] w.

Lemma nth_last : forall (A : Type) (l : list A) x, length l = i -> nth_error (l ++ [x]) i = Some x.
Proof. clear. intros A l x <-. rewrite nth_error_app2, Nat.sub_diag by lia. reflexivity. Qed.

Lemma phase_last : forall x y, set_phase (repeat RpIdle i ++ [x]) i y = repeat RpIdle i ++ [y].
Proof.
  intros x y. unfold set_phase. rewrite firstn_app, skipn_app, repeat_length, Nat.sub_diag.
  rewrite firstn_all2, skipn_all2 by (rewrite repeat_length; lia). cbn. rewrite app_nil_r. reflexivity.
Qed.

Lemma closed_last : forall l x, length l = i -> set_closed (l ++ [(x, false)]) i = l ++ [(x, true)].
Proof.
  clear. intros l x <-. induction l as [|[a b] l IH]; [reflexivity|]. cbn. rewrite IH. reflexivity.
Qed.

Lemma s_spawn : forall p sd m w sd' r, sst p sd m w -> wake_step max sd WvSpawn = Some (sd', r) ->
  exists w', sst p sd' m w' /\ (1 + w' <= w)%nat.
Proof using mac sc MAX OS.
  intros p sd m w sd' r S ST. inversion S; subst; cbn in ST; destruct ap; try discriminate ST; injection ST as <- <-.
  - eexists. split; [eapply (Sa rdy aw rw ApWait); eauto|cbn [apw]; lia].
  - eexists. split; [eapply (Sb p0 rdy aw rw ApWait); eauto|cbn [apw]; lia].
  - eexists. split; [eapply (Sc v rdy aw rw ApWait); eauto|cbn [apw]; lia].
Qed.

Lemma s_timer : forall p sd m w sd' r, sst p sd m w -> wake_step max sd WvAcceptTimer = Some (sd', r) ->
  exists w', sst p sd' m w' /\ (1 + w' <= w)%nat.
Proof using mac sc MAX OS.
  intros p sd m w sd' r S ST. inversion S; subst; cbn in ST; destruct ap; try discriminate ST; injection ST as <- <-.
  - eexists. split; [eapply (Sa rdy aw rw ApWait); eauto|cbn [apw]; lia].
  - eexists. split; [eapply (Sb p0 rdy aw rw ApWait); eauto|cbn [apw]; lia].
  - eexists. split; [eapply (Sc v rdy aw rw ApWait); eauto|cbn [apw]; lia].
Qed.

Lemma items_snoc : forall l b, items here l ++ [ItDatagram b here] = items here (l ++ [b]).
Proof. intros l b. unfold items. rewrite map_app. reflexivity. Qed.

Lemma s_arrive : forall p sd m w sd' r b, sst p sd m w -> (forall v, p <> Some (SRet v)) ->
  wake_step max sd (WvArrive (ItDatagram b here)) = Some (sd', r) ->
  exists w', sst p sd' (m ++ [b]) w' /\ (w' <= w + 30)%nat.
Proof using mac sc MAX OS.
  intros p sd m w sd' r b S NR ST. inversion S; subst; cbn in ST; injection ST as <- <-; rewrite ?items_snoc.
  - eexists. split; [eapply (Sa true aw rw ap); eauto|]. rewrite app_length. destruct rdy; cbn; lia.
  - rewrite <- app_assoc. eexists. split; [eapply (Sb p0 true aw rw ap); eauto|]. rewrite app_length. destruct rdy; cbn; lia.
  - exfalso. eapply NR. reflexivity.
Qed.

Lemma order_nil : forall (A : Type) (order : list A -> list A), (forall l, Permutation (order l) l) -> order [] = [].
Proof. intros A order P. apply Permutation_nil, Permutation_sym, P. Qed.
Lemma order_one : forall (A : Type) (order : list A -> list A) x, (forall l, Permutation (order l) l) -> order [x] = [x].
Proof. intros A order x P. apply Permutation_length_1_inv, Permutation_sym, P. Qed.

Lemma s_accept : forall p sd m w sd' r by_watch order, (forall l, Permutation (order l) l) ->
  sst p sd m w -> (length m <= 1)%nat -> (forall b, In b m -> length b = MSG_SIZE) ->
  wake_step max sd (WvAccept by_watch order) = Some (sd', r) ->
  exists w', sst (sessions mac sc r p) sd' m w' /\ (1 + w' <= w)%nat
             /\ (sessions mac sc r p = p \/ p = None /\ sessions mac sc r p = Some (server_run mac sc (sa_ip here))).
Proof using mac sc MAX OS.
  intros p sd m w sd' r by_watch order P S LL LM ST. inversion S as [rdy aw rw ap l w0 RD EW|p0 rdy aw rw ap ph q l w0 RD RW PH EW|v rdy aw rw ap w0 EW]; subst;
    unfold wake_step in ST; cbn [us_dead wk_sys wk_accept wk_aw wk_rdy wk_buf] in ST; destruct ap; try discriminate ST.
  - destruct (one_item _ LL) as [->|(b & ->)].
    + destruct (if by_watch then aw else rdy) eqn:EN; [|discriminate ST].
      cbn [items map sock_try_read] in ST. unfold udp_step in ST. cbn [us_dead us_sess us_udp try_accept try_recv u_conn] in ST.
      rewrite (order_nil _ order P) in ST. cbn in ST. injection ST as <- <-. rewrite !orb_false_r. eexists. split.
      * cbn [sessions]. eapply (Sa false _ rw ApSleep []); [intros X; contradiction|reflexivity].
      * split; [|left; reflexivity]. destruct by_watch, rdy, aw; cbn in *; try discriminate EN; lia.
    + pose proof (LM b (or_introl eq_refl)) as LB. assert (rdy = true) as -> by (apply RD; discriminate).
      destruct (if by_watch then aw else true) eqn:EN; [|discriminate ST].
      cbn [items map sock_try_read] in ST. unfold udp_step, try_accept, news in ST.
      cbn [us_dead us_sess us_udp wk_sys] in ST. rewrite try_recv_new in ST by auto. cbn [u_conn] in ST.
      rewrite (order_one _ order _ P) in ST. cbn in ST. rewrite ?sa_eqb_refl in ST. cbn in ST. rewrite ?sa_eqb_refl in ST.
      injection ST as <- <-. rewrite !orb_true_r. eexists. split.
      * cbn [sessions]. eapply (Sb _ true true true ApIdle RpIdle [b] []); auto; intros X; contradiction.
      * split; [|right; split; reflexivity]. destruct rw, aw; cbn; lia.
  - destruct q as [|b q].
    + cbn [app] in *. destruct (one_item _ LL) as [->|(b & ->)].
      * destruct (if by_watch then aw else rdy) eqn:EN; [|discriminate ST].
        cbn [items map sock_try_read] in ST. unfold udp_step in ST. cbn [us_dead us_sess us_udp try_accept try_recv u_conn] in ST.
        rewrite (order_one _ order _ P) in ST. cbn in ST. injection ST as <- <-. rewrite !orb_false_r. eexists. split.
        -- cbn [sessions]. eapply (Sb p0 false _ rw ApSleep ph [] []); auto; intros X; contradiction.
        -- split; [|left; reflexivity]. destruct by_watch, rdy, aw; cbn in *; try discriminate EN; lia.
      * pose proof (LM b (or_introl eq_refl)) as LB. assert (rdy = true) as -> by (apply RD; discriminate).
        destruct (if by_watch then aw else true) eqn:EN; [|discriminate ST].
        cbn [items map sock_try_read] in ST. unfold udp_step, try_accept, news in ST.
        cbn [us_dead us_sess us_udp wk_sys] in ST. change (len (@nil (list byte))) with 0 in ST.
        rewrite try_recv_old in ST by auto. cbn [u_conn] in ST.
        rewrite (order_one _ order _ P) in ST. cbn in ST. rewrite ?sa_eqb_refl in ST. cbn in ST.
        injection ST as <- <-. rewrite !orb_true_r, ?orb_false_r. eexists. split.
        -- cbn [sessions]. eapply (Sb p0 true _ true ApSleep ph [b] []); auto; intros X; contradiction.
        -- split; [|left; reflexivity]. destruct by_watch, rw, aw; cbn in *; try discriminate EN; lia.
    + destruct q; [|cbn in LL; lia]. destruct l; [|cbn in LL; lia].
      assert (rw = true) as -> by (apply RW; discriminate).
      destruct (if by_watch then aw else rdy) eqn:EN; [|discriminate ST].
      cbn [items map sock_try_read] in ST. unfold udp_step in ST. cbn [us_dead us_sess us_udp try_accept try_recv u_conn] in ST.
      rewrite (order_one _ order _ P) in ST. cbn in ST. injection ST as <- <-. rewrite !orb_false_r. eexists. split.
      * cbn [sessions]. eapply (Sb p0 false _ true ApSleep ph [b] []); auto; intros X; contradiction.
      * split; [|left; reflexivity]. destruct by_watch, rdy, aw; cbn in *; try discriminate EN; lia.
  - destruct (if by_watch then aw else rdy) eqn:EN; [|discriminate ST].
    cbn [items map sock_try_read] in ST. unfold udp_step in ST. cbn [us_dead us_sess us_udp try_accept try_recv u_conn] in ST.
    rewrite (order_nil _ order P) in ST. cbn in ST. injection ST as <- <-. rewrite !orb_false_r. eexists. split.
    * cbn [sessions]. eapply (Sc v false _ rw ApSleep). reflexivity.
    * split; [|left; reflexivity]. destruct by_watch, rdy, aw; cbn in *; try discriminate EN; lia.
Qed.

Lemma s_call : forall k sd m w sd' r, sst (Some (SRecv k)) sd m w -> wake_step max sd (WvCall i) = Some (sd', r) ->
  exists w', sst (Some (SRecv k)) sd' m w' /\ (1 + w' <= w)%nat.
Proof using mac sc MAX OS.
  intros k sd m w sd' r S ST. inversion S; subst. unfold wake_step in ST. cbn [us_dead wk_sys wk_recv us_sess wk_lock] in ST.
  rewrite (nth_last _ (repeat RpIdle _)), (nth_last _ os) in ST by (auto using repeat_length).
  destruct ph; try discriminate ST. injection ST as <- <-. rewrite phase_last.
  eexists. split; [eapply (Sb (SRecv k) rdy aw rw ap RpWait); eauto|cbn [rpw]; lia].
Qed.

Lemma s_rtimer : forall k sd m w sd' r, sst (Some (SRecv k)) sd m w -> wake_step max sd (WvRecvTimer i) = Some (sd', r) ->
  exists w', sst (Some (SRecv k)) sd' m w' /\ (1 + w' <= w)%nat.
Proof using mac sc MAX OS.
  intros k sd m w sd' r S ST. inversion S; subst. unfold wake_step in ST. cbn [us_dead wk_sys wk_recv us_sess wk_lock] in ST.
  rewrite (nth_last _ (repeat RpIdle _)) in ST by (auto using repeat_length).
  destruct ph; try discriminate ST. injection ST as <- <-. rewrite phase_last.
  eexists. split; [eapply (Sb (SRecv k) rdy aw rw ap RpWait); eauto|cbn [rpw]; lia].
Qed.

Lemma s_recv : forall k sd m w sd' r by_watch, sst (Some (SRecv k)) sd m w -> (length m <= 1)%nat ->
  (forall b, In b m -> length b = MSG_SIZE) ->
  wake_step max sd (WvRecv i by_watch) = Some (sd', r) ->
  (m = [] /\ returned r = None /\ exists w', sst (Some (SRecv k)) sd' [] w' /\ (1 + w' <= w)%nat)
  \/ (exists b w', m = [b] /\ r = UrDatagram b /\ (forall p, sst (Some p) sd' [] w') /\ (1 + w' <= w)%nat).
Proof using mac sc MAX OS.
  intros k sd m w sd' r by_watch S LL LM ST. inversion S as [|p0 rdy aw rw ap ph q l w0 RD RW PH EW|]; subst.
  unfold wake_step in ST. cbn [us_dead wk_sys wk_lock wk_rw wk_rdy wk_buf wk_recv us_sess] in ST.
  destruct ph; cbn [waits] in ST; try discriminate ST. rewrite Nat.eqb_refl in ST. cbn [andb] in ST.
  assert (N1 : nth_error (os ++ [(here, false)]) i = Some (here, false)) by (apply nth_last; exact OS).
  destruct q as [|b q]; cbn [app] in *.
  - destruct (one_item _ LL) as [->|(b & ->)].
    + left. split; [reflexivity|]. destruct (if by_watch then rw else rdy) eqn:EN; [|discriminate ST].
      cbn [items map sock_try_read] in ST. unfold udp_step in ST. cbn [us_dead us_sess us_udp try_recv_from try_recv] in ST.
      rewrite N1 in ST. cbn in ST. rewrite ?sa_eqb_refl in ST. cbn in ST. injection ST as <- <-. split; [reflexivity|].
      rewrite phase_last, ?orb_false_r. eexists. split.
      * eapply (Sb (SRecv k) false aw _ ap RpSleep [] []); auto; try (intros X; contradiction). eauto.
      * destruct by_watch, rw, rdy; cbn in *; try discriminate EN; lia.
    + right. pose proof (LM b (or_introl eq_refl)) as LB. assert (rdy = true) as -> by (apply RD; discriminate).
      destruct (if by_watch then rw else true) eqn:EN; [|discriminate ST].
      cbn [items map sock_try_read] in ST. unfold udp_step, try_recv_from, news in ST. cbn [us_dead us_sess us_udp wk_sys] in ST.
      rewrite N1 in ST. change (len (@nil (list byte))) with 0 in ST.
      rewrite try_recv_old in ST by auto. cbn [u_conn conn_get] in ST. rewrite ?sa_eqb_refl in ST. cbn in ST. rewrite ?sa_eqb_refl in ST.
      injection ST as <- <-. exists b. eexists. split; [reflexivity|]. split; [reflexivity|]. rewrite phase_last, ?orb_false_r. split.
      * intros p. eapply (Sb p true aw _ ap RpIdle [] []); auto; try (intros X; contradiction).
      * destruct by_watch, rw; cbn in *; try discriminate EN; lia.
  - right. destruct q; [|cbn in LL; lia]. destruct l; [|cbn in LL; lia].
    assert (rw = true) as -> by (apply RW; discriminate).
    destruct (if by_watch then true else rdy) eqn:EN; [|discriminate ST].
    cbn [items map sock_try_read] in ST. unfold udp_step in ST. cbn [us_dead us_sess us_udp try_recv_from try_recv] in ST.
    rewrite N1 in ST. cbn in ST. rewrite ?sa_eqb_refl in ST. cbn in ST. rewrite ?sa_eqb_refl in ST. injection ST as <- <-.
    exists b. eexists. split; [reflexivity|]. split; [reflexivity|]. rewrite phase_last, ?orb_false_r. split.
    * intros p. eapply (Sb p false aw _ ap RpIdle [] []); auto; try (intros X; contradiction).
    * destruct by_watch, rdy; cbn in *; try discriminate EN; lia.
Qed.

Lemma s_close : forall v sd w sd' r, sst (Some (SRet v)) sd [] w ->
  wake_step max sd (WvClose i) = Some (sd', r) -> r <> UrClosed ->
  exists w', sst (Some (SRet v)) sd' [] w' /\ (1 + w' <= w)%nat.
Proof using mac sc MAX OS.
  intros v sd w sd' r S ST NC. inversion S as [|p0 rdy aw rw ap ph q l w0 RD RW PH EW EP ED EM|v0 rdy aw rw ap w0 EW]; subst.
  - destruct q; [|discriminate EM]. cbn [app] in EM. subst l.
    unfold wake_step in ST. cbn [us_dead wk_sys wk_recv us_sess] in ST.
    rewrite (nth_last _ (repeat RpIdle _)) in ST by apply repeat_length.
    destruct ph; try discriminate ST. unfold udp_step in ST. cbn [us_dead us_sess us_udp] in ST.
    rewrite (nth_last _ os) in ST by exact OS.
    unfold disconnect in ST. cbn [u_conn u_nr conn_get] in ST. rewrite ?sa_eqb_refl in ST. cbn in ST. rewrite ?sa_eqb_refl in ST.
    cbn in ST. rewrite closed_last in ST by exact OS. injection ST as <- <-. eexists. split.
    + eapply (Sc v rdy aw rw ap). reflexivity.
    + cbn. lia.
  - exfalso. unfold wake_step in ST. cbn [us_dead wk_sys wk_recv us_sess] in ST.
    rewrite (nth_last _ (repeat RpIdle _)) in ST by apply repeat_length.
    unfold udp_step in ST. cbn [us_dead us_sess us_udp] in ST. rewrite (nth_last _ os) in ST by exact OS.
    injection ST as _ <-. apply NC. reflexivity.
Qed.

(** *** Who waits can go on *)

Lemma s_go_accept : forall sd b w, sst None sd [b] w -> length b = MSG_SIZE ->
  (exists sd' r, wake_step max sd WvSpawn = Some (sd', r))
  \/ (exists sd' r, wake_step max sd WvAcceptTimer = Some (sd', r))
  \/ (exists sd' r, wake_step max sd (WvAccept false (fun l => l)) = Some (sd', r)).
Proof using mac sc MAX OS.
  intros sd b w S LB. inversion S as [rdy aw rw ap l w0 RD EW| |]; subst. destruct ap.
  - left. eexists _, _. cbn. reflexivity.
  - right. right. assert (rdy = true) as -> by (apply RD; discriminate).
    unfold wake_step. cbn [us_dead wk_sys wk_accept wk_rdy wk_buf items map sock_try_read]. unfold udp_step, try_accept.
    cbn [us_dead us_udp]. rewrite try_recv_new by auto. cbn. rewrite sa_eqb_refl. eexists _, _. reflexivity.
  - right. left. eexists _, _. cbn. reflexivity.
Qed.

Lemma s_go_recv : forall k sd b w, sst (Some (SRecv k)) sd [b] w -> length b = MSG_SIZE ->
  (exists sd' r, wake_step max sd (WvCall i) = Some (sd', r))
  \/ (exists sd' r, wake_step max sd (WvRecvTimer i) = Some (sd', r))
  \/ (exists by_watch sd' r, wake_step max sd (WvRecv i by_watch) = Some (sd', r)).
Proof using mac sc MAX OS.
  intros k sd b w S LB. inversion S as [|p0 rdy aw rw ap ph q l w0 RD RW PH EW EP ED EM|]; subst.
  assert (N1 : nth_error (os ++ [(here, false)]) i = Some (here, false)) by (apply nth_last; exact OS).
  destruct ph.
  - left. unfold wake_step. cbn [us_dead wk_sys wk_recv us_sess]. rewrite (nth_last _ (repeat RpIdle _)), N1 by (apply repeat_length).
    eexists _, _. reflexivity.
  - right. right. unfold wake_step. cbn [us_dead wk_sys wk_lock wk_rw wk_rdy wk_buf waits]. rewrite Nat.eqb_refl. cbn [andb].
    destruct q as [|b' q]; cbn [app] in EM.
    + subst l. assert (rdy = true) as -> by (apply RD; discriminate). exists false.
      cbn [items map sock_try_read]. unfold udp_step, try_recv_from. cbn [us_dead us_sess us_udp].
      rewrite N1. change (len (@nil (list byte))) with 0. rewrite try_recv_old by auto. cbn. rewrite sa_eqb_refl. cbn. eexists _, _. reflexivity.
    + injection EM as -> EM. apply app_eq_nil in EM. destruct EM as (-> & ->).
      assert (rw = true) as -> by (apply RW; discriminate). exists true.
      cbn [items map sock_try_read]. unfold udp_step, try_recv_from. cbn [us_dead us_sess us_udp].
      rewrite N1. cbn. rewrite sa_eqb_refl. cbn. eexists _, _. reflexivity.
  - right. left. unfold wake_step. cbn [us_dead wk_sys wk_recv us_sess]. rewrite (nth_last _ (repeat RpIdle _)) by (apply repeat_length).
    eexists _, _. reflexivity.
Qed.

Lemma s_go_close : forall v sd w, (forall x, In x os -> snd x = true) -> sst (Some (SRet v)) sd [] w ->
  (exists sd' r, wake_step max sd (WvClose i) = Some (sd', r) /\ r <> UrClosed)
  \/ (idle_disp sd (S i) /\ us_sess (wk_sys sd) = os ++ [(here, true)]).
Proof using mac sc MAX OS.
  intros v sd w AC S. inversion S as [|p0 rdy aw rw ap ph q l w0 RD RW PH EW EP ED EM|v0 rdy aw rw ap w0 EW]; subst.
  - left. destruct q; [|discriminate EM]. cbn [app] in EM. subst l.
    assert (ph = RpIdle) as -> by (destruct PH as [E|(k & E)]; [exact E|discriminate E]).
    unfold wake_step. cbn [us_dead wk_sys wk_recv us_sess].
    rewrite (nth_last _ (repeat RpIdle _)) by apply repeat_length. unfold udp_step. cbn [us_dead us_sess us_udp].
    rewrite (nth_last _ os) by exact OS.
    unfold disconnect. cbn [u_conn u_nr conn_get]. rewrite sa_eqb_refl. cbn. rewrite sa_eqb_refl. cbn.
    eexists _, _. split; [reflexivity|discriminate].
  - right. split; [|reflexivity]. repeat split; try reflexivity.
    + cbn. intros x H. apply in_app_or in H. destruct H as [H|[<-|[]]]; [apply AC; exact H|reflexivity].
    + cbn. rewrite app_length, OS. cbn. lia.
    + cbn. symmetry. apply (repeat_cons i RpIdle).
Qed.

Lemma s_other : forall p sd m w, sst (Some p) sd m w -> (forall k, p <> SRecv k) -> (forall v, p <> SRet v) ->
  forall p', sst (Some p') sd m w.
Proof.
  intros p sd m w S NR NV p'. inversion S as [|p0 rdy aw rw ap ph q l w0 RD RW PH EW EP ED EM|v0 rdy aw rw ap w0 EW]; subst.
  - eapply Sb; eauto. left. destruct PH as [E|(k & E)]; [exact E|]. exfalso. eapply NR. exact E.
  - exfalso. eapply NV. reflexivity.
Qed.
End Server.

Lemma c_other : forall there cl cd l w, cst there cl cd l w -> (forall k, cl <> CRecv k) -> forall cl', cst there cl' cd l w.
Proof.
  intros there cl cd l w C NR cl'. inversion C as [? ? ? ? ? ? ? ? ? CS RD PH ?]; subst. eapply Cst; eauto.
  left. destruct PH as [E|(k & E)]; [exact E|]. exfalso. eapply NR. exact E.
Qed.

(** *** A client that connects by UDP *)

Inductive by_udp : cprog -> Prop :=
| bu_ret : forall r, by_udp (CRet r)
| bu_lookup : forall s m k, (forall r, by_udp (k r)) -> by_udp (CLookup s m k)
| bu_connect : forall a p k, (forall r, by_udp (k r)) -> by_udp (CConnect false a p k)
| bu_rand : forall z k, (forall r, by_udp (k r)) -> by_udp (CRand z k)
| bu_send : forall m k, (forall r, by_udp (k r)) -> by_udp (CSend m k)
| bu_recv : forall k, (forall r, by_udp (k r)) -> by_udp (CRecv k).

(** *** The simulation *)

Section Sim.
Variables (mac : list N -> list N -> list N) (sc conf : config) (c : chain_name) (max : N).
Variables (here there : sockaddr) (i : nat) (os : list (sockaddr * bool)).
Hypothesis MAX : 1 <= max.
Hypothesis OS : length os = i.

Definition in_session (p : option sprog) : sprog :=
  match p with Some x => x | None => server_run mac sc (sa_ip here) end.

Inductive dsim : dgrams -> full -> nat -> Prop :=
| Dsim : forall cl cd p sd d h rq rp up dn op cm sm wc ws w,
    by_udp cl -> cst there cl cd cm wc -> sst here i os p sd sm ws ->
    sized MSG_SIZE (sm ++ up) -> sized MSG_SIZE (cm ++ dn) ->
    w = (wc + ws + 31 * length up + 18 * length dn)%nat ->
    dsim (Dgrams cl cd p sd d h rq rp up dn)
         (Full (Pair cl (in_session p) (sm ++ up) (cm ++ dn) op) d h rq rp) w.

Lemma sized_in : forall n l b, sized n l -> In b l -> length b = n.
Proof. intros n l b S I. unfold sized in S. rewrite Forall_forall in S. auto. Qed.

Lemma dsim_step : forall j s s', dgram_step mac sc conf c max here there i j s s' -> forall f w, dsim s f w ->
  narrow (fu_pair f) ->
  exists n f' w', full_steps conf c n f f' /\ dsim s' f' w' /\ (j + w' <= w + 33 * n)%nat.
Proof.
  intros j s s' ST f w S NA.
  inversion S as [cl cd p sd d h rq rp up dn op cm sm wc ws w0 BU C D ZU ZD EW E1 E2 E3]; clear S. subst s f w.
  destruct NA as (NL & NE). cbn [fu_pair pr_up pr_down pr_server] in NL, NE. rewrite !app_length in NL.
  inversion ST; subst; clear ST.
  - (* lookup *)
    exists 1%nat. eexists _, _. split; [apply one, fs_pair; [eapply ps_lookup; eassumption|apply away_same]|].
    split; [econstructor; [inversion BU; auto|eapply c_other; [eassumption|discriminate]|eassumption..|reflexivity]|lia].
  - exists 1%nat. eexists _, _. split; [apply one, fs_pair; [eapply ps_connect; eassumption|apply away_same]|].
    split; [econstructor; [inversion BU; auto|eapply c_other; [eassumption|discriminate]|eassumption..|reflexivity]|lia].
  - exists 1%nat. eexists _, _. split; [apply one, fs_pair; [eapply ps_crand; eassumption|apply away_same]|].
    split; [econstructor; [inversion BU; auto|eapply c_other; [eassumption|discriminate]|eassumption..|reflexivity]|lia].
  - (* send *)
    exists 1%nat. eexists _, _. split; [apply one, fs_pair; [eapply ps_csend; eassumption|apply away_same]|].
    rewrite <- app_assoc.
    split; [econstructor; [inversion BU; auto|eapply c_other; [eassumption|discriminate]|eassumption| |eassumption|reflexivity]|].
    + rewrite app_assoc. apply sized_app; [exact ZU|]. eapply wire_length. eassumption.
    + rewrite app_length. cbn [length]. lia.
  - (* call *)
    destruct (c_call _ _ _ _ _ _ _ C ltac:(eassumption)) as (w' & C' & L). exists 0%nat. eexists _, _. split; [constructor|].
    split; [econstructor; eauto|lia].
  - (* receive *)
    destruct (c_recv _ _ _ _ _ _ _ _ C ltac:(lia) ltac:(intros b I; eapply sized_in; [exact ZD|apply in_or_app; auto]) ltac:(eassumption))
      as [(-> & -> & w' & C' & L)|(b & w' & -> & -> & C' & L)].
    + exists 0%nat. eexists _, _. split; [constructor|]. split; [econstructor; eauto|lia].
    + cbn [app returned] in *. exists 1%nat. eexists _, _. split; [apply one, fs_pair; [eapply ps_crecv|apply away_same]|].
      split; [eapply (Dsim _ _ _ _ _ _ _ _ up dn op [] sm); [inversion BU; auto|apply C'|eassumption|eassumption| |reflexivity]|cbn [app]; lia].
      inversion ZD; assumption.
  - (* timer *)
    destruct (c_timer _ _ _ _ _ _ _ C ltac:(eassumption)) as (w' & C' & L). exists 0%nat. eexists _, _. split; [constructor|].
    split; [econstructor; eauto|lia].
  - (* to letmeind *)
    rewrite app_length in NL. cbn [length] in NL. destruct x; [|cbn in NL; lia]. destruct y; [|cbn in NL; lia].
    destruct sm; [|cbn in NL; lia]. cbn [app] in *.
    assert (NR : forall v, p <> Some (SRet v)).
    { intros v ->. cbn [in_session] in NE. specialize (NE v eq_refl). discriminate NE. }
    destruct (s_arrive mac sc max here i os MAX OS _ _ _ _ _ _ _ D NR ltac:(eassumption)) as (w' & D' & L). cbn [app] in D'.
    exists 0%nat. eexists _, _. split; [constructor|].
    split; [eapply (Dsim _ _ _ _ _ _ _ _ [] dn op cm [b]); eauto|cbn; lia].
  - (* to the client *)
    rewrite app_length in NL. cbn [length] in NL. destruct x; [|cbn in NL; lia]. destruct y; [|cbn in NL; lia].
    destruct cm; [|cbn in NL; lia]. cbn [app] in *.
    destruct (c_arrive _ _ _ _ _ _ _ _ C ltac:(eassumption)) as (w' & C' & L). cbn [app] in C'.
    exists 0%nat. eexists _, _. split; [constructor|].
    split; [eapply (Dsim _ _ _ _ _ _ _ _ up [] op [b] sm); eauto|cbn; lia].
  - destruct (s_spawn mac sc max here i os MAX OS _ _ _ _ _ _ D ltac:(eassumption)) as (w' & D' & L). exists 0%nat. eexists _, _. split; [constructor|].
    split; [econstructor; eauto|lia].
  - (* accept *)
    destruct (s_accept mac sc max here i os MAX OS _ _ _ _ _ _ _ _ ltac:(eassumption) D ltac:(lia)
                ltac:(intros b I; eapply sized_in; [exact ZU|apply in_or_app; auto]) ltac:(eassumption)) as (w' & D' & L & Q).
    exists 0%nat. eexists _, _. split; [constructor|].
    assert (in_session (sessions mac sc r p) = in_session p) as EP by (destruct Q as [->|(-> & ->)]; reflexivity).
    rewrite <- EP. split; [econstructor; eauto|lia].
  - destruct (s_timer mac sc max here i os MAX OS _ _ _ _ _ _ D ltac:(eassumption)) as (w' & D' & L). exists 0%nat. eexists _, _. split; [constructor|].
    split; [econstructor; eauto|lia].
  - (* random of the session *)
    exists 1%nat. eexists _, _. split; [apply one, fs_pair; [eapply ps_srand; eassumption|exact Logic.I]|].
    split; [eapply (Dsim _ _ (Some _)); [eassumption|eassumption|eapply s_other; [eassumption|discriminate..]|eassumption..|reflexivity]|lia].
  - exists 1%nat. eexists _, _. split; [apply one, fs_pair; [eapply ps_ssend; eassumption|exact Logic.I]|].
    rewrite <- app_assoc.
    split; [eapply (Dsim _ _ (Some _)); [eassumption|eassumption|eapply s_other; [eassumption|discriminate..]|eassumption| |reflexivity]|].
    + rewrite app_assoc. apply sized_app; [exact ZD|]. eapply wire_length. eassumption.
    + rewrite app_length. cbn [length]. lia.
  - exists 1%nat. eexists _, _. split; [apply one, fs_pair; [eapply ps_fwconnect; eassumption|exact Logic.I]|].
    split; [eapply (Dsim _ _ (Some _)); [eassumption|eassumption|eapply s_other; [eassumption|discriminate..]|eassumption..|reflexivity]|lia].
  - exists 1%nat. eexists _, _. split; [apply one; eapply fs_send; eassumption|].
    split; [eapply (Dsim _ _ (Some _)); [eassumption|eassumption|eapply s_other; [eassumption|discriminate..]|eassumption..|reflexivity]|lia].
  - exists 1%nat. eexists _, _. split; [apply one; eapply fs_receive; eassumption|].
    split; [eapply (Dsim _ _ (Some _)); [eassumption|eassumption|eapply s_other; [eassumption|discriminate..]|eassumption..|reflexivity]|lia].
  - destruct (s_call mac sc max here i os MAX OS _ _ _ _ _ _ D ltac:(eassumption)) as (w' & D' & L). exists 0%nat. eexists _, _. split; [constructor|].
    split; [econstructor; eauto|lia].
  - (* receive of the session *)
    destruct (s_recv mac sc max here i os MAX OS _ _ _ _ _ _ _ D ltac:(lia)
                ltac:(intros b I; eapply sized_in; [exact ZU|apply in_or_app; auto]) ltac:(eassumption))
      as [(-> & -> & w' & D' & L)|(b & w' & -> & -> & D' & L)].
    + exists 0%nat. eexists _, _. split; [constructor|]. split; [econstructor; eauto|lia].
    + cbn [app returned in_session] in *. exists 1%nat. eexists _, _. split; [apply one, fs_pair; [eapply ps_srecv|exact Logic.I]|].
      split; [eapply (Dsim _ _ (Some _) _ _ _ _ _ up dn op cm []); [eassumption|eassumption|apply D'| |eassumption|reflexivity]|cbn [app]; lia].
      inversion ZU; assumption.
  - destruct (s_rtimer mac sc max here i os MAX OS _ _ _ _ _ _ D ltac:(eassumption)) as (w' & D' & L). exists 0%nat. eexists _, _. split; [constructor|].
    split; [econstructor; eauto|lia].
  - (* close *)
    cbn [in_session] in NE. specialize (NE v eq_refl). apply app_eq_nil in NE. destruct NE as (-> & ->).
    destruct (s_close mac sc max here i os MAX OS _ _ _ _ _ D ltac:(eassumption) ltac:(assumption)) as (w' & D' & L).
    exists 0%nat. eexists _, _. split; [constructor|]. split; [eapply (Dsim _ _ (Some (SRet v))); eauto|lia].
  - exists 1%nat. eexists _, _. split; [apply one; eapply fs_handle; eassumption|]. split; [econstructor; eauto|lia].
  - exists 0%nat. eexists _, _. split; [apply one; eapply fs_other; eassumption|]. split; [econstructor; eauto|lia].
Qed.

Lemma in_session_recv : forall p k, SRecv k = in_session p -> (p = None \/ p = Some (SRecv k)).
Proof. intros [p|] k E; [right; cbn in E; congruence|left; reflexivity]. Qed.

Lemma in_session_some : forall p x, x = in_session p -> (forall k, x <> SRecv k) -> p = Some x.
Proof.
  intros [p|] x E N; [cbn in E; congruence|]. exfalso. cbn in E. unfold server_run, recv_msg in E. eapply N. exact E.
Qed.

Lemma away_opened : forall cl k up dn op x, ~ away_from_socket (Pair cl (SFwRecv k) up dn op) (Pair cl (k (FwRxBuf x)) up dn op).
Proof. intros cl k up dn op x (H & _). cbn in H. eapply not_itself; [reflexivity|eassumption]. Qed.

(** If the channels can go on, so can the datagrams. *)
Lemma dsim_go : forall s f w f', dsim s f w -> narrow (fu_pair f) -> full_step conf c 1 f f' ->
  exists s', dgram_step mac sc conf c max here there i 1 s s' /\ (dg_hist s' = dg_hist s \/ dg_hist s' = fu_hist f').
Proof.
  intros s f w f' S NA ST. pose proof (conj OS Logic.I) as HO. clear OS.
  inversion S as [cl cd p sd d h rq rp up dn op cm sm wc ws w0 BU C D ZU ZD EW E1 E2 E3]; clear S. subst s f w.
  destruct NA as (NL & NE). cbn [fu_pair pr_up pr_down pr_server] in NL, NE. rewrite !app_length in NL.
  inversion ST; subst; clear ST.
  - match goal with H : pair_step _ _ |- _ => inversion H; subst; clear H end.
    + eexists. split; [eapply ds_lookup; eassumption|left; reflexivity].
    + inversion BU; subst. eexists. split; [eapply ds_connect; eassumption|left; reflexivity].
    + eexists. split; [eapply ds_crand; eassumption|left; reflexivity].
    + eexists. split; [eapply ds_csend; eassumption|left; reflexivity].
    + destruct dn as [|x dn].
      * rewrite app_nil_r in *. subst cm. destruct dn0; [|cbn in NL; lia].
        destruct (c_go _ _ _ _ _ C ltac:(eapply sized_in; [exact ZD|left; reflexivity])) as [(cd' & r & E)|[(cd' & r & E)|(cd' & r & E)]].
        -- eexists. split; [eapply ds_ccall; exact E|left; reflexivity].
        -- eexists. split; [eapply ds_crecv; exact E|left; reflexivity].
        -- eexists. split; [eapply ds_ctimer; exact E|left; reflexivity].
      * inversion C; subst. eexists. split; [eapply (ds_down _ _ _ _ _ _ _ _ _ _ _ _ _ _ _ _ _ [] x dn); cbn; reflexivity|left; reflexivity].
    + destruct up as [|x up].
      * rewrite app_nil_r in *. destruct sm as [|x sm]; [discriminate|]. destruct sm; [|cbn in NL; lia].
        pose proof (sized_in _ _ _ ZU (or_introl eq_refl)) as LB.
        destruct (in_session_recv p k ltac:(eassumption)) as [->| ->].
        -- destruct (s_go_accept mac sc max here i os MAX (proj1 HO) _ _ _ D LB) as [(sd' & r & E)|[(sd' & r & E)|(sd' & r & E)]].
           ++ eexists. split; [eapply ds_spawn; exact E|left; reflexivity].
           ++ eexists. split; [eapply ds_timer; exact E|left; reflexivity].
           ++ eexists. split; [eapply ds_accept; [|exact E]; intros l; apply Permutation_refl|left; reflexivity].
        -- destruct (s_go_recv mac sc max here i os MAX (proj1 HO) _ _ _ _ D LB) as [(sd' & r & E)|[(sd' & r & E)|(bw & sd' & r & E)]].
           ++ eexists. split; [eapply ds_scall; exact E|left; reflexivity].
           ++ eexists. split; [eapply ds_stimer; exact E|left; reflexivity].
           ++ eexists. split; [eapply ds_srecv; exact E|left; reflexivity].
      * assert (exists sd' r, wake_step max sd (WvArrive (ItDatagram x here)) = Some (sd', r)) as (sd' & r & E)
          by (inversion D; subst; eexists _, _; cbn; reflexivity).
        eexists. split; [eapply (ds_up _ _ _ _ _ _ _ _ _ _ _ _ _ _ _ _ [] x up); exact E|left; reflexivity].
    + rewrite (in_session_some p _ ltac:(eassumption) ltac:(discriminate)) in *.
      eexists. split; [eapply ds_ssend; eassumption|left; reflexivity].
    + rewrite (in_session_some p _ ltac:(eassumption) ltac:(discriminate)) in *.
      eexists. split; [eapply ds_srand; eassumption|left; reflexivity].
    + rewrite (in_session_some p _ ltac:(eassumption) ltac:(discriminate)) in *.
      eexists. split; [eapply ds_fwconnect; eassumption|left; reflexivity].
    + match goal with H : away_from_socket _ _, E : SFwSend _ _ = _ |- _ => rewrite <- E in H; destruct H as (_ & H); cbn in H end.
      exfalso. eapply snoc_neq; eassumption.
    + match goal with H : away_from_socket _ _, E : SFwRecv _ = _ |- _ => rewrite <- E in H end.
      exfalso. eapply away_opened. eassumption.
  - rewrite (in_session_some p _ ltac:(eassumption) ltac:(discriminate)) in *.
    eexists. split; [eapply ds_fwsend; eassumption|left; reflexivity].
  - eexists. split; [eapply ds_handle; eassumption|right; reflexivity].
  - rewrite (in_session_some p _ ltac:(eassumption) ltac:(discriminate)) in *.
    eexists. split; [eapply ds_fwrecv; eassumption|left; reflexivity].
Qed.
End Sim.
