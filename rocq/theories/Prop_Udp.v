(** Properties of the UDP connection tracking: C28-C32. *)

From Coq Require Import String ZArith NArith List Bool Lia ZifyBool ZifyNat ZifyN Permutation.
From Verif Require Import M_Base M_Proto M_IpAddr M_Udp S_Wire S_Udp P_Base P_Udp P_UdpProps.
Import ListNotations.
Local Open Scope N_scope.

(** *** Concrete data for the examples *)

Definition peer_a := SockAddr (V4 [192; 0; 2; 1]) 40000 0 0.
Definition peer_b := SockAddr (V4 [192; 0; 2; 2]) 40000 0 0.
Definition dgram (n : N) : list byte := repeat n 56.
Definition acc (n : N) (p : sockaddr) := UeAccept (RdDatagram (dgram n) p) (fun l => l).

Ltac by_run := 
  match goal with |- udp_history ?m ?ps ?s ?h =>
    change h with ([] ++ h);
    eapply (urun_sound m ps (map fst h)); [apply uh_start| |vm_compute; reflexivity];
    repeat (constructor; [simpl; auto|]); constructor end.

(** *** C28 *)

(** A receive of a session returns the oldest datagram of exactly this session's
    peer, and returns nothing only if none of this peer is waiting. *)
Theorem C28_receive_returns_oldest_own_datagram :
  forall max peers s h, udp_history max peers s h ->
  forall sid rd s' r p,
  udp_step max s (UeRecv sid rd) = Some (s', r) -> session_peer peers h sid = Some p ->
  match r with
  | UrDatagram b => exists l, waiting_after (session_peer peers h) p h rd = b :: l
  | UrIdle => waiting_after (session_peer peers h) p h rd = []
  | UrFail _ | UrClosed | UrPanic => True
  | UrAccepted _ | UrDone => False
  end.
Proof.
  intros max peers s h H sid rd s' r p ST SP.
  pose proof (recv_result max peers s h H _ (self_extends peers h) sid rd s' r p ST SP) as R.
  destruct r; auto.
Qed.
Print Assumptions C28_receive_returns_oldest_own_datagram.

(** What the sessions of a peer received is, in order and without repetition,
    part of what the peer sent. *)
Theorem C28_deliveries_are_subsequence_of_arrivals :
  forall max peers s h, udp_history max peers s h -> forall p,
  subsequence (deliveries (session_peer peers h) p h) (arrivals p h).
Proof.
  intros max peers s h H p. eapply sub_prefix. apply (fifo max peers s h H _ (self_extends peers h) p).
Qed.
Print Assumptions C28_deliveries_are_subsequence_of_arrivals.

(** Nothing is lost as long as no session of the peer is closed and none of its
    datagrams is refused: what was received, followed by what is waiting, is
    everything the peer sent. *)
Theorem C28_nothing_lost :
  forall max peers s h, udp_history max peers s h -> forall p,
  (forall x, In x h -> ~ resets (session_peer peers h) p x) ->
  deliveries (session_peer peers h) p h ++ queue (session_peer peers h) p h = arrivals p h.
Proof.
  intros max peers s h H p NR. exact (fifo_complete max peers s h H _ (self_extends peers h) p NR).
Qed.
Print Assumptions C28_nothing_lost.

(** Non-vacuity: two peers, interleaved. *)
Example C28_interleaved : exists s h, udp_history 8 [] s h
  /\ deliveries (session_peer [] h) peer_a h = [dgram 1; dgram 3]
  /\ deliveries (session_peer [] h) peer_b h = [dgram 2]
  /\ queue (session_peer [] h) peer_b h = [dgram 4]
  /\ (forall x, In x h -> ~ resets (session_peer [] h) peer_a x)
  /\ (forall x, In x h -> ~ resets (session_peer [] h) peer_b x).
Proof.
  exists (UdpSys (Udp [(peer_a, UConn [] true); (peer_b, UConn [dgram 4] true)] 1)
                 [(peer_a, false); (peer_b, false)] false),
         [(acc 1 peer_a, UrAccepted peer_a); (acc 2 peer_b, UrAccepted peer_b);
          (UeRecv 1 (RdDatagram (dgram 3) peer_a), UrDatagram (dgram 2));
          (UeRecv 0 (RdDatagram (dgram 4) peer_b), UrDatagram (dgram 1));
          (UeRecv 0 RdWouldBlock, UrDatagram (dgram 3))].
  split; [by_run|]. repeat split; try (vm_compute; reflexivity).
  all: intros x I [(sid & E & _)|(b & _ & F)]; simpl in I;
    repeat (destruct I as [<-|I]; [discriminate|]); contradiction.
Qed.

(** *** C29 *)

(** At every moment there are at most [max] connections, at most four datagrams
    wait per peer, and only connected peers have waiting datagrams. *)
Theorem C29_memory_is_bounded :
  forall max peers s h, udp_history max peers s h -> us_dead s = false ->
  len (u_conn (us_udp s)) <= max
  /\ (forall p c, In (p, c) (u_conn (us_udp s)) -> (length (uc_queue c) <= 4)%nat)
  /\ NoDup (map fst (u_conn (us_udp s))).
Proof.
  intros max peers s h H D. pose proof (alive_inv max peers s h H D _ (self_extends peers h)) as I.
  split; [apply I|]. split; [|apply I]. intros p c IP. apply in_get in IP; [|apply I].
  pose proof (ui_entry _ _ _ _ _ I p) as E. unfold entry_ok in E. rewrite IP in E. apply E.
Qed.
Print Assumptions C29_memory_is_bounded.

(** The same in terms of what happened: of how many peers, and how many datagrams
    of each, the server keeps. *)
Theorem C29_kept_datagrams_are_bounded :
  forall max peers s h, udp_history max peers s h -> us_dead s = false ->
  (forall p, (length (queue (session_peer peers h) p h) <= 4)%nat)
  /\ (forall ps, NoDup ps -> (forall p, In p ps -> queue (session_peer peers h) p h <> []) -> len ps <= max)
  /\ (forall ps, NoDup ps -> (forall p, In p ps -> connected (session_peer peers h) p h = true) -> len ps <= max).
Proof.
  intros max peers s h H D. split; [exact (queue_bound max peers s h H D)|].
  pose proof (proj2 (conn_bound max peers s h H D)) as B.
  split; [|exact B]. intros ps ND Q. apply B; [exact ND|]. intros p IP.
  eapply queue_connected; eauto.
Qed.
Print Assumptions C29_kept_datagrams_are_bounded.

(** Non-vacuity: the bounds are reached. *)
Example C29_bounds_reached : exists s h, udp_history 1 [] s h /\ us_dead s = false
  /\ length (queue (session_peer [] h) peer_a h) = 4%nat /\ len (u_conn (us_udp s)) = 1
  /\ In (acc 9 peer_b, UrFail "UDP socket read: Too many connections") h.
Proof.
  exists (UdpSys (Udp [(peer_a, UConn [dgram 1; dgram 2; dgram 3; dgram 4] true)] 4) [(peer_a, false)] false),
         [(acc 1 peer_a, UrAccepted peer_a); (acc 2 peer_a, UrIdle); (acc 3 peer_a, UrIdle);
          (acc 4 peer_a, UrIdle); (acc 9 peer_b, UrFail "UDP socket read: Too many connections")].
  split; [by_run|]. repeat split; try (vm_compute; reflexivity). simpl. tauto.
Qed.

(** *** C30: refuted *)

(** Whatever the configured maximum: five datagrams of one peer that arrive before
    its session receives one, and then the end of this session, abort the server. *)
Definition crash_trace : uhist :=
  [(acc 1 peer_a, UrAccepted peer_a); (acc 2 peer_a, UrIdle); (acc 3 peer_a, UrIdle);
   (acc 4 peer_a, UrIdle); (acc 5 peer_a, UrFail "UDP socket read: RX queue overflow");
   (UeClose 0, UrPanic)].

Ltac closed_tests :=
  repeat match goal with
         | |- context [?t] =>
             match t with
             | N.leb ?a ?b => let v := eval vm_compute in t in
                              match v with true => change t with true | false => change t with false end
             | N.ltb ?a ?b => let v := eval vm_compute in t in
                              match v with true => change t with true | false => change t with false end
             end
         end.

Theorem C30_udp_traffic_cannot_crash_refuted :
  forall max, 1 <= max ->
  exists s, udp_history max [] s crash_trace /\ us_dead s = true.
Proof.
  intros max M.
  assert (L0 : (0 <=? max) = true) by (apply N.leb_le; lia).
  assert (L1 : (1 <=? max) = true) by (apply N.leb_le; lia).
  assert (L2 : (max <? 1) = false) by (apply N.ltb_ge; lia).
  assert (M1 : (1 <=? max * UDP_RX_QUEUE_SIZE) = true) by (apply N.leb_le; unfold UDP_RX_QUEUE_SIZE; lia).
  assert (M2 : (2 <=? max * UDP_RX_QUEUE_SIZE) = true) by (apply N.leb_le; unfold UDP_RX_QUEUE_SIZE; lia).
  assert (M3 : (3 <=? max * UDP_RX_QUEUE_SIZE) = true) by (apply N.leb_le; unfold UDP_RX_QUEUE_SIZE; lia).
  assert (M4 : (4 <=? max * UDP_RX_QUEUE_SIZE) = true) by (apply N.leb_le; unfold UDP_RX_QUEUE_SIZE; lia).
  exists (UdpSys (Udp [] 4) [(peer_a, true)] true). split; [|reflexivity].
  change crash_trace with ([] ++ crash_trace).
  eapply (urun_sound max [] (map fst crash_trace)); [apply uh_start| |].
  - repeat (constructor; [simpl; auto|]). constructor.
  - unfold crash_trace, acc, map, fst, urun, udp_step, udp_start, try_accept, try_recv.
    cbn -[N.leb N.ltb N.mul].
    repeat (rewrite ?L0, ?L1, ?L2, ?M1, ?M2, ?M3, ?M4; try closed_tests; cbn -[N.leb N.ltb N.mul]).
    reflexivity.
Qed.
Print Assumptions C30_udp_traffic_cannot_crash_refuted.

(** As long as no datagram arrives for a peer that already has four waiting, no
    call panics. *)
Theorem C30_no_panic_without_overflow_partial :
  forall max peers s h, udp_history max peers s h -> no_overflow (session_peer peers h) h ->
  us_dead s = false /\ forall ev, ~ In (ev, UrPanic) h.
Proof.
  intros max peers s h H NO. pose proof (no_panic max peers s h H NO) as D. split; [exact D|].
  clear NO. induction H as [|s h ev s' r H IH OK ST]; intros e I; [contradiction|].
  apply in_app_or in I. destruct I as [I|[I|[]]].
  - eapply IH; [|exact I]. eapply alive; eauto.
  - injection I as -> ->. unfold udp_step in ST. destruct (us_dead s); [discriminate|].
    destruct e as [rd o|sid rd|sid].
    + destruct (try_accept _ _ _ _) as [st r]. injection ST as <- ->. discriminate.
    + destruct (nth_error (us_sess s) sid) as [[p []]|]; try discriminate.
      destruct (try_recv_from _ _ _ _) as [st r]. injection ST as <- ->. discriminate.
    + destruct (nth_error (us_sess s) sid) as [[p []]|]; try discriminate.
      destruct (disconnect _ _) as [st r]. injection ST as <- ->. discriminate.
Qed.
Print Assumptions C30_no_panic_without_overflow_partial.

(** *** C31: refuted *)

(** A one-byte datagram of peer B makes the pending receive of peer A's session
    fail. *)
Theorem C31_foreign_datagram_harmless_refuted :
  exists s h s' e, udp_history 8 [] s h
  /\ session_peer [] h 0 = Some peer_a
  /\ udp_step 8 s (UeRecv 0 (RdDatagram [0] peer_b)) = Some (s', UrFail e).
Proof.
  eexists _, [(acc 1 peer_a, UrAccepted peer_a)], _, _.
  split; [by_run|]. split; [reflexivity|]. vm_compute. reflexivity.
Qed.
Print Assumptions C31_foreign_datagram_harmless_refuted.

(** A receive fails only if the socket reports an error, or if the datagram that
    it reads from the socket is too short, or comes from a peer that has four
    waiting, or from a new peer while the maximum number is connected. *)
Theorem C31_receive_failures_partial :
  forall max peers s h, udp_history max peers s h -> forall sid rd s' e,
  udp_step max s (UeRecv sid rd) = Some (s', UrFail e) ->
  rd = RdError \/ exists d q, rd = RdDatagram d q
    /\ ((length d < 56)%nat \/ length (queue (session_peer peers h) q h) = 4%nat
        \/ (connected (session_peer peers h) q h = false
            /\ exists ps, NoDup ps /\ len ps = max
                 /\ forall p, In p ps -> connected (session_peer peers h) p h = true)).
Proof. exact recv_fail. Qed.
Print Assumptions C31_receive_failures_partial.

(** *** C32: refuted *)

(** Two sessions of the same peer are open at the same time; closing the first
    one throws away the datagram that waits for the second. *)
Definition double_trace : uhist :=
  [(acc 1 peer_a, UrAccepted peer_a); (acc 2 peer_a, UrIdle); (acc 3 peer_a, UrIdle);
   (acc 4 peer_a, UrIdle); (acc 5 peer_a, UrFail "UDP socket read: RX queue overflow");
   (acc 6 peer_b, UrAccepted peer_b); (acc 7 peer_a, UrAccepted peer_a);
   (UeClose 0, UrDone); (UeRecv 2 RdWouldBlock, UrIdle)].
Theorem C32_accepted_once_refuted :
  exists s, udp_history 8 [] s double_trace
  /\ session_peer [] double_trace 0 = Some peer_a /\ session_peer [] double_trace 2 = Some peer_a
  /\ ~ closes double_trace 2
  /\ exists pre post, double_trace = pre ++ (UeClose 0, UrDone) :: post
       /\ session_peer [] pre 2 = Some peer_a /\ ~ closes pre 0
       /\ deliveries (session_peer [] double_trace) peer_a double_trace = [].
Proof.
  eexists. split; [by_run|]. split; [reflexivity|]. split; [reflexivity|]. split.
  { unfold closes, double_trace. simpl. intros I. repeat (destruct I as [I|I]; [discriminate|]). contradiction. }
  exists (firstn 7 double_trace), [(UeRecv 2 RdWouldBlock, UrIdle)].
  split; [reflexivity|]. split; [reflexivity|]. split; [|reflexivity].
  unfold closes, double_trace. simpl. intros I. repeat (destruct I as [I|I]; [discriminate|]). contradiction.
Qed.
Print Assumptions C32_accepted_once_refuted.

(** Accept returns a peer only if it is connected, or the datagram just read is
    its first, and if it was not returned since; it returns nothing only if all
    connected peers were returned. *)
Theorem C32_accept_returns_new_peers_partial :
  forall max peers s h, udp_history max peers s h ->
  forall rd o s' r, uevent_ok (UeAccept rd o) ->
  udp_step max s (UeAccept rd o) = Some (s', r) ->
  match r with
  | UrAccepted p => taken (session_peer peers h) p h = false /\
      (connected (session_peer peers h) p h = true \/ exists d, rd = RdDatagram d p /\ (56 <= length d)%nat)
  | UrIdle => forall p, connected (session_peer peers h) p h = true
      \/ (exists d, rd = RdDatagram d p /\ (56 <= length d)%nat) -> taken (session_peer peers h) p h = true
  | UrFail _ | UrPanic => True
  | UrDatagram _ | UrDone | UrClosed => False
  end.
Proof.
  intros max peers s h H rd o s' r OK ST.
  pose proof (accept_result max peers s h H _ (self_extends peers h) rd o s' r OK ST) as A.
  destruct r; auto.
Qed.
Print Assumptions C32_accept_returns_new_peers_partial.

(** Between two accepts of the same peer, one of its sessions was closed or one of
    its datagrams was refused. *)
Theorem C32_accepted_again_only_after_reset_partial :
  forall max peers s h1 ev1 h2 ev2 p,
  udp_history max peers s (h1 ++ (ev1, UrAccepted p) :: h2 ++ [(ev2, UrAccepted p)]) ->
  exists x, In x h2
    /\ resets (session_peer peers (h1 ++ (ev1, UrAccepted p) :: h2 ++ [(ev2, UrAccepted p)])) p x.
Proof. exact accepted_twice. Qed.
Print Assumptions C32_accepted_again_only_after_reset_partial.

(** Without overflow, a peer has at most one open session. *)
Theorem C32_one_open_session_without_overflow_partial :
  forall max s h, udp_history max [] s h -> no_overflow (session_peer [] h) h ->
  forall i j p, session_peer [] h i = Some p -> session_peer [] h j = Some p ->
  ~ closes h i -> ~ closes h j -> i = j.
Proof. exact one_open. Qed.
Print Assumptions C32_one_open_session_without_overflow_partial.

(** Non-vacuity: a peer is accepted, closed and accepted again, without overflow. *)
Example C32_accepted_again : exists s, udp_history 8 [] s
    ([] ++ (acc 1 peer_a, UrAccepted peer_a) ::
       [(UeRecv 0 RdWouldBlock, UrDatagram (dgram 1)); (UeClose 0, UrDone)]
     ++ [(acc 2 peer_a, UrAccepted peer_a)]).
Proof. eexists. cbn [app]. by_run. Qed.

Example C30_no_overflow_possible : exists s h, udp_history 8 [] s h /\ length h = 2%nat
  /\ no_overflow (session_peer [] h) h.
Proof.
  eexists _, [(acc 1 peer_a, UrAccepted peer_a); (UeRecv 0 RdWouldBlock, UrDatagram (dgram 1))].
  split; [by_run|]. split; [reflexivity|].
  intros pre x post E (b & p & R & L).
  destruct pre as [|y [|z [|? pre]]]; simpl in E; try discriminate.
  injection E as _ <- _. discriminate.
Qed.

(** A session that was closed stays closed: receiving from it and closing it again
    report that and change nothing.  No other session reports it. *)
Theorem C32_closed_session_is_dead :
  forall max peers s h, udp_history max peers s h -> us_dead s = false ->
  forall sid ev, session_peer peers h sid <> None -> (ev = UeClose sid \/ exists rd, ev = UeRecv sid rd) ->
  exists s' r, udp_step max s ev = Some (s', r) /\ (r = UrClosed <-> closes h sid) /\ (closes h sid -> s' = s).
Proof. exact closed_is_dead. Qed.
Print Assumptions C32_closed_session_is_dead.

Example C32_closed_session_witness : exists s, udp_history 8 [] s
    [(acc 1 peer_a, UrAccepted peer_a); (UeClose 0, UrDone); (acc 2 peer_a, UrAccepted peer_a);
     (UeRecv 0 (RdDatagram (dgram 3) peer_a), UrClosed); (UeRecv 1 RdWouldBlock, UrDatagram (dgram 2))].
Proof. eexists. by_run. Qed.
