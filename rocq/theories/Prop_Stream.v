(** Properties of stream framing: C06. *)

From Coq Require Import String NArith PeanoNat List Lia.
From Verif Require Import M_Base M_Proto M_FwProto M_Stream S_Wire S_Stream P_FwProto P_Stream.
Import ListNotations.

(** Any number of consecutive receives, any schedule of arrivals, closes,
    partial reads, spurious wake-ups and failures: the messages returned are
    the consecutive [size]-byte blocks of the byte stream; a disconnect is
    reported only after the peer closed, and then less than one block had been
    left; the loop never trips its assertion. *)
Theorem C06_receive_any_segmentation : forall calls size s sched blocks o s' sched',
  0 < size ->
  recv_many calls size s sched = (blocks, o, s', sched') ->
  (forall b, In b blocks -> length b = size)
  /\ (o = None ->
      byte_stream s sched = concat blocks ++ byte_stream s' sched')
  /\ (o = Some (Done (Ok None)) ->
      (rx_closed s = true \/ In Close sched)
      /\ exists part used, length part < size /\ sched = used ++ sched'
                      /\ rx_pending s ++ arrivals used = concat blocks ++ part)
  /\ prefix_of (concat blocks) (byte_stream s sched)
  /\ o <> Some (Done Panic).
Proof. exact recv_many_spec. Qed.
Print Assumptions C06_receive_any_segmentation.

(** A stream of three bytes per read and a split in the middle of a message. *)
Example C06_receive_nonvacuous :
  recv_many 2 4 (RxSock [1%N] false)
    [ReadUpTo 2; Arrive [2%N; 3%N]; Spurious; ReadUpTo 0; ReadUpTo 9; Arrive [4%N; 5%N; 6%N];
     ReadUpTo 2; Arrive [7%N; 8%N; 9%N]; ReadUpTo 5]
  = ([[1; 2; 3; 4]; [5; 6; 7; 8]]%N, None, RxSock [9%N] false, []).
Proof. reflexivity. Qed.

(** If enough bytes have arrived, one wake-up per missing byte always
    completes the message, however small the individual reads are. *)
Theorem C06_receive_completes : forall ks size acc s,
  length acc < size ->
  size - length acc <= length (rx_pending s) -> size - length acc <= length ks ->
  exists s' sched',
    recv_loop size acc s (map ReadUpTo ks)
    = (Done (Ok (Some (acc ++ firstn (size - length acc) (rx_pending s)))), s', sched').
Proof. exact recv_loop_drain. Qed.
Print Assumptions C06_receive_completes.

Example C06_receive_completes_nonvacuous :
  length (@nil N) < MSG_SIZE /\ MSG_SIZE - 0 <= length (repeat 7%N 60)
  /\ MSG_SIZE <= length (repeat 0 56).
Proof. repeat split; apply PeanoNat.Nat.leb_le; reflexivity. Qed.

(** Whatever is written is a prefix of the message; the whole message has been
    written exactly when success is reported; no assertion fails. *)
Theorem C06_send_any_short_writes : forall sched buf,
  0 < length buf ->
  let '(o, w) := send_loop buf 0 sched in
  prefix_of w buf
  /\ (o = TxDone (Ok tt) <-> w = buf)
  /\ o <> TxDone Panic.
Proof. exact (fun sched buf => send_loop_spec sched buf 0). Qed.
Print Assumptions C06_send_any_short_writes.

(** Sending completes once the socket has taken enough bytes, in any portions. *)
Theorem C06_send_completes : forall ks buf, 0 < length buf ->
  (forall k, In k ks -> 0 < k) -> length buf <= length ks ->
  net_send false buf (map WriteUpTo ks) = (TxDone (Ok tt), buf).
Proof.
  intros ks buf L POS N. unfold net_send.
  assert (forall ks count, count < length buf -> (forall k, In k ks -> 0 < k) ->
            length buf - count <= length ks ->
            send_loop buf count (map WriteUpTo ks) = (TxDone (Ok tt), skipn count buf)) as G.
  { clear. induction ks as [|k ks IH]; intros count C POS N; cbn [length] in N; [lia|].
    cbn [map send_loop]. rewrite skipn_length.
    pose proof (POS k (or_introl eq_refl)) as K.
    set (n := Nat.min k (length buf - count)). assert (0 < n <= length buf - count) as B by (unfold n; lia).
    destruct (Nat.ltb_spec (length buf) (count + n)); [lia|].
    destruct (Nat.eqb_spec (count + n) (length buf)) as [E|E].
    - rewrite firstn_all2; [reflexivity|]. rewrite skipn_length. lia.
    - rewrite IH; [|lia|intros x X; apply POS; right; exact X|lia]. f_equal.
      replace (skipn (count + n) buf) with (skipn n (skipn count buf)) by (rewrite skipn_skipn'; f_equal; lia). apply firstn_skipn. }
  apply (G ks 0); [exact L|exact POS|lia].
Qed.
Print Assumptions C06_send_completes.

(** A closed socket neither sends nor receives anything. *)
Theorem C06_closed_socket_is_dead : forall buf tx rx sched, exists e e',
  net_send true buf tx = (TxDone (Err e), []) /\ net_recv true rx sched = (Done (Err e'), rx, sched).
Proof. intros. do 2 eexists. split; reflexivity. Qed.
Print Assumptions C06_closed_socket_is_dead.

(** 56 waiting bytes are received as one control message. *)
Theorem C06_control_receive_completes : forall ks s,
  56 <= length (rx_pending s) -> 56 <= length ks ->
  exists s' sched', net_recv false s (map ReadUpTo ks)
    = (Done (Ok (Some (firstn 56 (rx_pending s)))), s', sched').
Proof. intros ks s A B. apply (recv_loop_drain ks 56 [] s); cbn [length]; lia. Qed.
Print Assumptions C06_control_receive_completes.

Example C06_completes_witness :
  net_send false (repeat 7%N 56) (map WriteUpTo (repeat 3 56)) = (TxDone (Ok tt), repeat 7%N 56)
  /\ exists s' sched', net_recv false (RxSock (repeat 7%N 60) false) (map ReadUpTo (repeat 0 56))
    = (Done (Ok (Some (repeat 7%N 56))), s', sched') /\ rx_pending s' = repeat 7%N 4.
Proof. split; [vm_compute; reflexivity|]. do 2 eexists. split; vm_compute; reflexivity. Qed.

Example C06_send_nonvacuous :
  send_loop [1; 2; 3]%N 0 [WriteUpTo 1; WrSpurious; WriteUpTo 0; WriteUpTo 5]
  = (TxDone (Ok tt), [1; 2; 3]%N).
Proof. reflexivity. Qed.

(** The firewall socket: a message sent over one stream and received from
    another one that carries the same bytes arrives unchanged, for every
    segmentation on both sides. *)
Theorem C06_fw_message_transfer : forall m tx w rx sched s' sched' r,
  api_fw_message m ->
  fw_send m tx = (TxDone (Ok tt), w) ->
  prefix_of w (byte_stream rx sched) ->
  fw_recv rx sched = (FwDone (Ok (Some r)), s', sched') ->
  r = m /\ byte_stream rx sched = w ++ byte_stream s' sched'.
Proof. exact fw_transfer. Qed.
Print Assumptions C06_fw_message_transfer.

Example C06_fw_transfer_nonvacuous :
  exists w s' sched',
    fw_send fw_new_ack [WriteUpTo 10; WriteUpTo 100] = (TxDone (Ok tt), w)
    /\ fw_recv (RxSock [] false) [Arrive (firstn 7 w); ReadUpTo 3; ReadUpTo 50;
                                  Arrive (skipn 7 w); ReadUpTo 50]
       = (FwDone (Ok (Some fw_new_ack)), s', sched').
Proof. eexists _, _, _. split; vm_compute; reflexivity. Qed.

(** What a receive from the firewall socket ends with, however the bytes that have
    arrived are handed over: with the first message if it is there and valid, with
    an error if it is not valid, with the end of the stream if the peer has closed it
    before that, and otherwise it goes on waiting. *)
Theorem C06_fw_receive_outcome : forall ks bytes closed, all_bytes bytes -> length bytes < length ks ->
  exists o s' sched', fw_recv (RxSock bytes closed) (map ReadUpTo ks) = (o, s', sched')
  /\ (FWMSG_SIZE <= length bytes -> valid_fw_frame (firstn FWMSG_SIZE bytes) ->
       exists m, o = FwDone (Ok (Some m)) /\ fw_layout (firstn FWMSG_SIZE bytes) m)
  /\ (FWMSG_SIZE <= length bytes -> ~ valid_fw_frame (firstn FWMSG_SIZE bytes) -> exists e, o = FwDone (Err e))
  /\ (length bytes < FWMSG_SIZE -> o = if closed then FwDone (Ok None) else FwWaiting).
Proof.
  intros ks bytes closed B L. unfold fw_recv.
  destruct (Nat.le_gt_cases FWMSG_SIZE (length bytes)) as [G|G].
  - destruct (recv_loop_drain ks FWMSG_SIZE [] (RxSock bytes closed)) as (s' & sched' & ->);
      [apply Nat.ltb_lt; reflexivity|cbn [rx_pending length]; lia|cbn [length]; lia|].
    cbn [rx_pending length app]. rewrite Nat.sub_0_r.
    assert (BB : all_bytes (firstn FWMSG_SIZE bytes)).
    { intros x X. apply B. rewrite <- (firstn_skipn FWMSG_SIZE bytes). apply in_or_app. left. exact X. }
    do 3 eexists. split; [reflexivity|].
    destruct (fw_decode_total _ BB) as [(m & -> & V & A & SE)|(e & -> & NV)].
    + split; [|split; [|lia]].
      * intros _ _. exists m. split; [reflexivity|]. destruct (fw_roundtrip m A) as (b & E1 & LAY & _). congruence.
      * intros _ NV. contradiction.
    + split; [|split; [|lia]]; [intros _ V; contradiction|]. intros _ _. eexists. reflexivity.
  - destruct (recv_loop_short ks FWMSG_SIZE [] (RxSock bytes closed)) as (sched' & ->); [cbn [rx_pending length]; lia|exact L|].
    cbn [rx_closed]. destruct closed; do 3 eexists; (split; [reflexivity|]); (split; [|split]); try lia; reflexivity.
Qed.
Print Assumptions C06_fw_receive_outcome.

(** The same for the control socket, which hands over the bytes of a message. *)
Theorem C06_control_receive_outcome : forall ks bytes closed, length bytes < length ks ->
  exists o s' sched', net_recv false (RxSock bytes closed) (map ReadUpTo ks) = (o, s', sched')
  /\ (56 <= length bytes -> o = Done (Ok (Some (firstn 56 bytes))))
  /\ (length bytes < 56 -> o = if closed then Done (Ok None) else Waiting).
Proof.
  intros ks bytes closed L. unfold net_recv.
  destruct (Nat.le_gt_cases 56 (length bytes)) as [G|G].
  - destruct (recv_loop_drain ks 56 [] (RxSock bytes closed)) as (s' & sched' & E); [cbn; lia|cbn [rx_pending length]; lia|cbn [length]; lia|].
    change MSG_SIZE with 56. rewrite E. do 3 eexists. split; [reflexivity|]. split; [reflexivity|lia].
  - destruct (recv_loop_short ks 56 [] (RxSock bytes closed)) as (sched' & E); [cbn [rx_pending length]; lia|exact L|].
    change MSG_SIZE with 56. rewrite E. do 3 eexists. split; [reflexivity|]. split; [lia|]. destruct closed; reflexivity.
Qed.
Print Assumptions C06_control_receive_outcome.

(** An acknowledgement cut after 7 bytes: the receiver waits, or notices the end. *)
Example C06_outcome_witness : exists w, fw_send fw_new_ack [WriteUpTo 100] = (TxDone (Ok tt), w)
  /\ fst (fst (fw_recv (RxSock (firstn 7 w) true) (map ReadUpTo (repeat 0 8)))) = FwDone (Ok None)
  /\ fst (fst (fw_recv (RxSock (firstn 7 w) false) (map ReadUpTo (repeat 0 8)))) = FwWaiting
  /\ fst (fst (fw_recv (RxSock (w ++ w) true) (map ReadUpTo (repeat 0 80)))) = FwDone (Ok (Some fw_new_ack))
  /\ exists e, fst (fst (fw_recv (RxSock (repeat 255%N 40) false) (map ReadUpTo (repeat 2 60)))) = FwDone (Err e).
Proof. eexists. repeat split; try (vm_compute; reflexivity). eexists. vm_compute. reflexivity. Qed.

(** The same for control messages over TCP. *)
Theorem C06_control_message_transfer : forall m tx w rx sched s' sched' b buf,
  api_message m ->
  msg_serialize m = Ok buf ->
  net_send false buf tx = (TxDone (Ok tt), w) ->
  prefix_of w (byte_stream rx sched) ->
  net_recv false rx sched = (Done (Ok (Some b)), s', sched') ->
  try_msg_deserialize b = Ok m /\ byte_stream rx sched = w ++ byte_stream s' sched'.
Proof. exact ctrl_transfer. Qed.
Print Assumptions C06_control_message_transfer.

Example C06_control_transfer_nonvacuous :
  exists buf w s' sched',
    msg_serialize (Msg MAGIC GoAway 1 2 (repeat 3%N 8) (repeat 4%N 32)) = Ok buf
    /\ net_send false buf [WriteUpTo 10; WriteUpTo 100] = (TxDone (Ok tt), w)
    /\ net_recv false (RxSock [] false) [Arrive (firstn 7 w); ReadUpTo 3; ReadUpTo 50;
                                  Arrive (skipn 7 w); ReadUpTo 50]
       = (Done (Ok (Some buf)), s', sched').
Proof. eexists _, _, _, _. split; [|split]; vm_compute; reflexivity. Qed.
