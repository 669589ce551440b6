(** Proofs about the stream loops. *)

From Coq Require Import String ZArith NArith List Bool Arith Lia ZifyBool ZifyNat.
From Verif Require Import M_Base M_Proto M_FwProto M_Stream S_Wire S_Stream P_Base P_Proto P_FwProto.
Import ListNotations.
Local Open Scope nat_scope.

(** The single-receive invariant. *)
Lemma skipn_skipn' : forall (A : Type) (n m : nat) (l : list A),
  skipn n (skipn m l) = skipn (m + n) l.
Proof.
  intros A n m. revert n. induction m as [|m IH]; intros n l; [reflexivity|].
  destruct l as [|x l]; [simpl; apply skipn_nil|]. simpl. apply IH.
Qed.

Lemma recv_loop_spec : forall sched size acc s,
  length acc < size ->
  match recv_loop size acc s sched with
  | (Done (Ok (Some b)), s', sched') =>
      length b = size
      /\ acc ++ byte_stream s sched = b ++ byte_stream s' sched'
      /\ exists used, sched = used ++ sched'
  | (Done (Ok None), s', sched') =>
      (rx_closed s = true \/ In Close sched)
      /\ rx_pending s' = []
      /\ exists part used, length part < size
                      /\ acc ++ rx_pending s ++ arrivals used = part
                      /\ sched = used ++ sched'
  | (Done (Err e), s', sched') => In Fail sched
  | (Done Panic, _, _) => False
  | (Waiting, s', sched') => sched' = []
  end.
Proof.
  induction sched as [|ev sched IH]; intros size acc s Hacc; [reflexivity|].
  destruct ev as [bs| |k| |].
  - (* Arrive *)
    cbn [recv_loop]. specialize (IH size acc (RxSock (rx_pending s ++ bs) (rx_closed s)) Hacc).
    destruct (recv_loop size acc _ sched) as [[o s'] sched'] eqn:E.
    unfold byte_stream in *. cbn [arrivals rx_pending rx_closed] in *.
    destruct o as [[[b|]|e|]|].
    + destruct IH as (L & S & u & Hu). split; [exact L|]. split.
      * rewrite <- S. rewrite <- !app_assoc. reflexivity.
      * exists (Arrive bs :: u). rewrite Hu. reflexivity.
    + destruct IH as (C & P & part & u & L & S & Hu). split.
      { destruct C; [left; assumption|right; right; assumption]. }
      split; [exact P|].
      exists part, (Arrive bs :: u). split; [exact L|]. split.
      * cbn [arrivals]. rewrite <- S, <- !app_assoc. reflexivity.
      * rewrite Hu. reflexivity.
    + right. exact IH.
    + exact IH.
    + exact IH.
  - (* Close *)
    cbn [recv_loop]. specialize (IH size acc (RxSock (rx_pending s) true) Hacc).
    destruct (recv_loop size acc _ sched) as [[o s'] sched'] eqn:E.
    unfold byte_stream in *. cbn [arrivals rx_pending rx_closed] in *.
    destruct o as [[[b|]|e|]|].
    + destruct IH as (L & S & u & Hu). split; [exact L|]. split; [exact S|].
      exists (Close :: u). rewrite Hu. reflexivity.
    + destruct IH as (C & P & part & u & L & S & Hu). split; [right; left; reflexivity|].
      split; [exact P|]. exists part, (Close :: u). split; [exact L|].
      split; [exact S|]. rewrite Hu. reflexivity.
    + right. exact IH.
    + exact IH.
    + exact IH.
  - (* ReadUpTo *)
    cbn [recv_loop].
    remember (Nat.min (S k) (Nat.min (size - length acc) (length (rx_pending s)))) as n eqn:En.
    destruct (Nat.eqb_spec n 0) as [Hn|Hn].
    + destruct (rx_closed s) eqn:Ec.
      * (* disconnect *)
        split; [left; reflexivity|].
        assert (rx_pending s = []) as EP.
        { destruct (rx_pending s) eqn:EP; [reflexivity|]. cbn [length] in En. lia. }
        split; [exact EP|].
        exists acc, [ReadUpTo k]. split; [exact Hacc|]. rewrite EP. simpl.
        rewrite app_nil_r. auto.
      * specialize (IH size acc s Hacc).
        destruct (recv_loop size acc s sched) as [[o s'] sched'] eqn:E.
        unfold byte_stream in *. cbn [arrivals] in *.
        destruct o as [[[b|]|e|]|].
        -- destruct IH as (L & S & u & Hu). split; [exact L|]. split; [exact S|].
           exists (ReadUpTo k :: u). rewrite Hu. reflexivity.
        -- destruct IH as (C & P & part & u & L & S & Hu). split.
           { destruct C; [left; congruence|right; right; assumption]. }
           split; [exact P|]. exists part, (ReadUpTo k :: u). split; [exact L|].
           split; [exact S|]. rewrite Hu. reflexivity.
        -- right. exact IH.
        -- exact IH.
        -- exact IH.
    + assert (length (firstn n (rx_pending s)) = n) as Lf.
      { apply firstn_length_le. lia. }
      destruct (Nat.ltb_spec size (length (acc ++ firstn n (rx_pending s)))) as [Hp|Hp].
      { rewrite app_length, Lf in Hp. lia. }
      destruct (Nat.eqb_spec (length (acc ++ firstn n (rx_pending s))) size) as [Hf|Hf].
      * split; [exact Hf|]. split.
        -- unfold byte_stream. cbn [arrivals rx_pending].
           rewrite <- (firstn_skipn n (rx_pending s)) at 1. rewrite <- !app_assoc. reflexivity.
        -- exists [ReadUpTo k]. reflexivity.
      * specialize (IH size (acc ++ firstn n (rx_pending s))
                       (RxSock (skipn n (rx_pending s)) (rx_closed s))).
        assert (length (acc ++ firstn n (rx_pending s)) < size) as Hlt by lia.
        specialize (IH Hlt).
        destruct (recv_loop size _ _ sched) as [[o s'] sched'] eqn:E.
        unfold byte_stream in *. cbn [arrivals rx_pending rx_closed] in *.
        destruct o as [[[b|]|e|]|].
        -- destruct IH as (L & S & u & Hu). split; [exact L|]. split.
           ++ rewrite <- S. rewrite <- (firstn_skipn n (rx_pending s)) at 1.
              rewrite <- !app_assoc. reflexivity.
           ++ exists (ReadUpTo k :: u). rewrite Hu. reflexivity.
        -- destruct IH as (C & P & part & u & L & S & Hu). split.
           { destruct C; [left; assumption|right; right; assumption]. }
           split; [exact P|]. exists part, (ReadUpTo k :: u). split; [exact L|].
           split; [|rewrite Hu; reflexivity].
           cbn [arrivals]. rewrite <- S.
           rewrite <- (firstn_skipn n (rx_pending s)) at 1. rewrite <- !app_assoc. reflexivity.
        -- right. exact IH.
        -- exact IH.
        -- exact IH.
  - (* Spurious *)
    cbn [recv_loop]. specialize (IH size acc s Hacc).
    destruct (recv_loop size acc s sched) as [[o s'] sched'] eqn:E.
    unfold byte_stream in *. cbn [arrivals] in *.
    destruct o as [[[b|]|e|]|].
    + destruct IH as (L & S & u & Hu). split; [exact L|]. split; [exact S|].
      exists (Spurious :: u). rewrite Hu. reflexivity.
    + destruct IH as (C & P & part & u & L & S & Hu). split.
      { destruct C; [left; assumption|right; right; assumption]. }
      split; [exact P|]. exists part, (Spurious :: u). split; [exact L|].
      split; [exact S|]. rewrite Hu. reflexivity.
    + right. exact IH.
    + exact IH.
    + exact IH.
  - (* Fail *)
    cbn [recv_loop]. left. reflexivity.
Qed.

(** Consecutive receives return the consecutive blocks of the stream. *)
Lemma recv_many_spec : forall calls size s sched blocks o s' sched',
  0 < size ->
  recv_many calls size s sched = (blocks, o, s', sched') ->
  (forall b, In b blocks -> length b = size)
  /\ (o = None ->
      byte_stream s sched = concat blocks ++ byte_stream s' sched')
  /\ (o = Some (Done (Ok None)) ->
      (rx_closed s = true \/ In Close sched)
      /\ exists part used, length part < size /\ sched = used ++ sched'
                      /\ rx_pending s ++ arrivals used = concat blocks ++ part)
  /\ prefix_of (concat blocks) (byte_stream s sched)
  /\ o <> Some (Done Panic).
Proof.
  induction calls as [|c IH]; intros size s sched blocks o s' sched' Hsz E.
  - simpl in E. inversion E; subst. simpl. repeat split; try discriminate.
    + intros b [].
    + eexists; reflexivity.
  - cbn [recv_many] in E.
    pose proof (recv_loop_spec sched size [] s) as Hs. simpl in Hs. specialize (Hs Hsz).
    destruct (recv_loop size [] s sched) as [[o1 s1] sched1] eqn:E1.
    destruct o1 as [[[b|]|e|]|].
    + destruct (recv_many c size s1 sched1) as [[[bs o2] s2] sched2] eqn:E2.
      inversion E; subst; clear E.
      destruct (IH _ _ _ _ _ _ _ Hsz E2) as (HB & HN & HD & HP & HPan).
      destruct Hs as (L & S & used & U).
      split; [intros x [<-|Hx]; auto|]. split; [|split; [|split]].
      * intro En. rewrite S, (HN En). simpl. rewrite <- app_assoc. reflexivity.
      * intro En. destruct (HD En) as (HC & part & used2 & L2 & U2 & S2). split.
        { destruct HC as [HC|HC].
          - (* closed flag was set in between *)
            destruct (rx_closed s) eqn:Ec; [left; reflexivity|right].
            clear - E1 HC Ec Hsz.
            assert (forall sched size acc s o s1 sched1,
                      recv_loop size acc s sched = (o, s1, sched1) ->
                      rx_closed s1 = true -> rx_closed s = true \/ In Close sched) as Aux.
            { clear. induction sched as [|ev sched IH]; intros size acc s o s1 sched1 E H.
              - simpl in E. inversion E; subst. auto.
              - destruct ev as [bs| |k| |]; cbn [recv_loop] in E.
                + apply IH in E; [|exact H]. simpl in E. simpl. tauto.
                + right. left. reflexivity.
                + destruct (Nat.eqb _ 0).
                  * destruct (rx_closed s) eqn:Ec; [auto|]. apply IH in E; [|exact H].
                    destruct E as [E|E]; [congruence|]. simpl. tauto.
                  * destruct (Nat.ltb _ _).
                    { inversion E; subst. simpl in H. auto. }
                    destruct (Nat.eqb _ _).
                    { inversion E; subst. simpl in H. auto. }
                    apply IH in E; [|exact H]. simpl in E. simpl. tauto.
                + apply IH in E; [|exact H]. simpl. tauto.
                + inversion E; subst. auto. }
            destruct (Aux _ _ _ _ _ _ _ E1 HC); [congruence|assumption].
          - right. rewrite U. apply in_or_app. right. exact HC. }
        exists part, (used ++ used2). split; [exact L2|]. split.
        { rewrite U, U2, app_assoc. reflexivity. }
        (* the blocks read so far *)
        assert (forall sched size acc s b s1 used sched1,
                  length acc < size ->
                  recv_loop size acc s sched = (Done (Ok (Some b)), s1, sched1) ->
                  sched = used ++ sched1 ->
                  acc ++ rx_pending s ++ arrivals used = b ++ rx_pending s1) as Aux.
        { clear. intros sched size acc s b s1 used sched1 Hl E U.
          pose proof (recv_loop_spec sched size acc s Hl) as Hs. rewrite E in Hs.
          destruct Hs as (_ & S & _). unfold byte_stream in S.
          assert (arrivals sched = arrivals used ++ arrivals sched1) as Ea.
          { subst sched. clear. induction used as [|ev u IH]; [reflexivity|].
            destruct ev; simpl; rewrite ?IH, ?app_assoc; reflexivity. }
          rewrite Ea, !app_assoc in S. apply app_inv_tail in S.
          rewrite <- app_assoc in S. exact S. }
        specialize (Aux sched size [] s b s1 used sched1 Hsz E1 U). simpl in Aux.
        assert (arrivals (used ++ used2) = arrivals used ++ arrivals used2) as Ea.
        { clear. induction used as [|ev u IH]; [reflexivity|].
          destruct ev; simpl; rewrite ?IH, ?app_assoc; reflexivity. }
        rewrite Ea, app_assoc, Aux. simpl. rewrite <- !app_assoc, S2. reflexivity.
      * destruct HP as [r Hr]. exists r. rewrite S, Hr. simpl. rewrite <- app_assoc. reflexivity.
      * exact HPan.
    + inversion E; subst; clear E.
      destruct Hs as (HC & HP0 & part & used & L & S & U).
      split; [intros b []|]. split; [discriminate|]. split; [|split].
      * intros _. split; [exact HC|]. exists part, used. auto.
      * eexists; reflexivity.
      * discriminate.
    + inversion E; subst. split; [intros b []|]. repeat split; try discriminate.
      eexists; reflexivity.
    + contradiction.
    + inversion E; subst. split; [intros b []|]. repeat split; try discriminate.
      eexists; reflexivity.
Qed.

(** Liveness: enough bytes and enough wake-ups complete the message. *)
Lemma recv_loop_drain : forall ks size acc s,
  length acc < size ->
  size - length acc <= length (rx_pending s) -> size - length acc <= length ks ->
  exists s' sched',
    recv_loop size acc s (map ReadUpTo ks)
    = (Done (Ok (Some (acc ++ firstn (size - length acc) (rx_pending s)))), s', sched').
Proof.
  induction ks as [|k ks IH]; intros size acc s Hl Hp Hk; [simpl in Hk; lia|].
  cbn [map recv_loop].
  remember (Nat.min (S k) (Nat.min (size - length acc) (length (rx_pending s)))) as n eqn:En.
  assert (0 < n) as Hn by lia.
  destruct (Nat.eqb_spec n 0) as [H0|_]; [lia|].
  assert (length (firstn n (rx_pending s)) = n) as Lf by (apply firstn_length_le; lia).
  destruct (Nat.ltb_spec size (length (acc ++ firstn n (rx_pending s)))) as [Hq|Hq].
  { rewrite app_length, Lf in Hq. lia. }
  destruct (Nat.eqb_spec (length (acc ++ firstn n (rx_pending s))) size) as [Hf|Hf].
  - rewrite app_length, Lf in Hf.
    replace (size - length acc) with n by lia. eauto.
  - rewrite app_length, Lf in Hq, Hf.
    destruct (IH size (acc ++ firstn n (rx_pending s))
                 (RxSock (skipn n (rx_pending s)) (rx_closed s))) as (s' & sched' & E).
    + rewrite app_length, Lf. lia.
    + rewrite app_length, Lf. cbn [rx_pending]. rewrite skipn_length. lia.
    + rewrite app_length, Lf. simpl in Hk. lia.
    + rewrite E. exists s', sched'. cbn [rx_pending].
      rewrite app_length, Lf, <- app_assoc. repeat f_equal.
      replace (size - length acc) with (n + (size - (length acc + n))) by lia.
      rewrite <- (firstn_skipn n (rx_pending s)) at 3.
      rewrite firstn_app, Lf.
      rewrite (firstn_all2 (n := n + _)) by lia.
      f_equal. f_equal. lia.
Qed.

(** Too few bytes: the end of the stream is noticed, or the receiver waits. *)
Lemma recv_loop_short : forall ks size acc s,
  length acc + length (rx_pending s) < size -> length (rx_pending s) < length ks ->
  exists sched',
    recv_loop size acc s (map ReadUpTo ks)
    = (if rx_closed s then Done (Ok None) else Waiting, RxSock [] (rx_closed s), sched').
Proof.
  induction ks as [|k ks IH]; intros size acc [p cl] Hp Hk; cbn [rx_pending rx_closed] in *; [simpl in Hk; lia|].
  cbn [map recv_loop rx_pending rx_closed].
  remember (Nat.min (S k) (Nat.min (size - length acc) (length p))) as n eqn:En.
  destruct (Nat.eqb_spec n 0) as [H0|H0].
  - assert (p = []) as -> by (destruct p; [reflexivity|cbn [length] in *; lia]).
    destruct cl; [eexists; reflexivity|].
    clear - Hp. induction ks as [|j ks IHk]; [eexists; reflexivity|].
    cbn [map recv_loop rx_pending rx_closed length]. rewrite !Nat.min_0_r. exact IHk.
  - assert (length (firstn n p) = n) as Lf by (apply firstn_length_le; lia).
    destruct (Nat.ltb_spec size (length (acc ++ firstn n p))) as [Hq|Hq].
    { rewrite app_length, Lf in Hq. lia. }
    destruct (Nat.eqb_spec (length (acc ++ firstn n p)) size) as [Hf|Hf].
    + rewrite app_length, Lf in Hf. lia.
    + apply (IH size (acc ++ firstn n p) (RxSock (skipn n p) cl)); cbn [rx_pending]; rewrite ?app_length, ?Lf, ?skipn_length; cbn [length] in Hk; lia.
Qed.

(** Sending. *)
Lemma send_loop_spec : forall sched buf count,
  count < length buf ->
  let '(o, w) := send_loop buf count sched in
  prefix_of w (skipn count buf)
  /\ (o = TxDone (Ok tt) <-> w = skipn count buf)
  /\ o <> TxDone Panic.
Proof.
  induction sched as [|ev sched IH]; intros buf count Hc.
  - simpl. split; [eexists; reflexivity|]. split; [|discriminate].
    split; [discriminate|]. intro H.
    assert (length (skipn count buf) = 0) as E by (rewrite <- H; reflexivity).
    rewrite skipn_length in E. lia.
  - destruct ev as [k| |].
    + cbn [send_loop].
      remember (Nat.min k (length (skipn count buf))) as n eqn:En.
      assert (length (skipn count buf) = length buf - count) as Ls by apply skipn_length.
      destruct (Nat.ltb_spec (length buf) (count + n)) as [H1|H1]; [lia|].
      destruct (Nat.eqb_spec (count + n) (length buf)) as [H2|H2].
      * rewrite firstn_all2 by lia. split; [exists []; rewrite app_nil_r; reflexivity|].
        split; [split; reflexivity|discriminate].
      * assert (count + n < length buf) as Hc' by lia.
        specialize (IH buf (count + n) Hc').
        destruct (send_loop buf (count + n) sched) as [o w].
        destruct IH as ([r Hr] & Hiff & Hp).
        assert (skipn count buf = firstn n (skipn count buf) ++ skipn (count + n) buf) as Es.
        { rewrite <- (firstn_skipn n (skipn count buf)) at 1. rewrite skipn_skipn'. reflexivity. }
        split; [exists r; rewrite Es at 1; rewrite Hr, app_assoc; reflexivity|].
        split; [|exact Hp]. rewrite Hiff. split; intro H.
        -- rewrite H. symmetry. exact Es.
        -- rewrite Es in H at 2. apply app_inv_head in H. exact H.
    + cbn [send_loop]. apply IH. exact Hc.
    + simpl. split; [eexists; reflexivity|]. split; [|discriminate].
      split; [discriminate|]. intro H.
      assert (length (skipn count buf) = 0) as E by (rewrite <- H; reflexivity).
      rewrite skipn_length in E. lia.
Qed.

Lemma app_prefix_eq : forall (A : Type) (a b c d : list A),
  length a = length c -> a ++ b = c ++ d -> a = c /\ b = d.
Proof.
  induction a as [|x a IH]; destruct c as [|y c]; simpl; intros d HL E; try discriminate.
  - auto.
  - inversion E; subst. destruct (IH b c d) as [-> ->]; auto.
Qed.

Lemma transfer_aux : forall size b tx w rx sched s' sched' x,
  0 < size -> length b = size ->
  send_loop b 0 tx = (TxDone (Ok tt), w) ->
  prefix_of w (byte_stream rx sched) ->
  recv_loop size [] rx sched = (Done (Ok (Some x)), s', sched') ->
  x = b /\ byte_stream rx sched = w ++ byte_stream s' sched'.
Proof.
  intros size b tx w rx sched s' sched' x Hs Hb Es [r Hr] Er.
  pose proof (send_loop_spec tx b 0) as H. rewrite Es in H.
  destruct H as (_ & [H _] & _); [lia|]. specialize (H eq_refl). cbn [skipn] in H. subst w.
  pose proof (recv_loop_spec sched size [] rx) as Q. rewrite Er in Q.
  destruct Q as (L & S & _); [simpl; lia|]. simpl in S.
  rewrite Hr in S. apply app_prefix_eq in S; [|congruence].
  destruct S as [-> ->]. auto.
Qed.

Lemma fw_transfer : forall m tx w rx sched s' sched' r,
  api_fw_message m ->
  fw_send m tx = (TxDone (Ok tt), w) ->
  prefix_of w (byte_stream rx sched) ->
  fw_recv rx sched = (FwDone (Ok (Some r)), s', sched') ->
  r = m /\ byte_stream rx sched = w ++ byte_stream s' sched'.
Proof.
  intros m tx w rx sched s' sched' r Hm Es Hp Er.
  destruct (fw_roundtrip m Hm) as (b & Eb & [Lb _ _ _ _ _ _] & Ed).
  unfold fw_send in Es. rewrite Eb in Es. unfold fw_recv in Er.
  destruct (recv_loop FWMSG_SIZE [] rx sched) as [[o s1] sched1] eqn:El.
  destruct o as [[[x|]|e|]|]; try (inversion Er; fail).
  assert (0 < FWMSG_SIZE) as Hz by (apply Nat.leb_le; reflexivity).
  destruct (transfer_aux FWMSG_SIZE b tx w rx sched s1 sched1 x Hz Lb Es Hp El) as [-> ES].
  rewrite Ed in Er. simpl in Er. inversion Er; subst. auto.
Qed.

Lemma ctrl_transfer : forall m tx w rx sched s' sched' b buf,
  api_message m ->
  msg_serialize m = Ok buf ->
  net_send false buf tx = (TxDone (Ok tt), w) ->
  prefix_of w (byte_stream rx sched) ->
  net_recv false rx sched = (Done (Ok (Some b)), s', sched') ->
  try_msg_deserialize b = Ok m /\ byte_stream rx sched = w ++ byte_stream s' sched'.
Proof.
  intros m tx w rx sched s' sched' b buf Hm Eb Es Hp Er.
  destruct (roundtrip m Hm) as (b' & Eb' & Lb & Ed).
  rewrite Eb in Eb'. inversion Eb'; subst b'.
  unfold net_send in Es. unfold net_recv in Er.
  assert (0 < MSG_SIZE) as Hz by (apply Nat.leb_le; reflexivity).
  destruct (transfer_aux MSG_SIZE buf tx w rx sched s' sched' b Hz Lb Es Hp Er) as [-> ES].
  auto.
Qed.
