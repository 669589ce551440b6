(** Proofs about the firewall socket protocol model. *)

From Coq Require Import String ZArith NArith List Bool Lia ZifyBool ZifyNat ZifyN.
From Verif Require Import M_Base M_IpAddr M_FwProto S_Wire P_Base.
Import ListNotations.
Local Open Scope N_scope.

Lemma fwop_of_to : forall o, fwop_of_u16 (fwop_to_u16 o) = Ok o.
Proof. destruct o; reflexivity. Qed.
Lemma pt_of_to : forall o, pt_of_u16 (pt_to_u16 o) = Ok o.
Proof. destruct o; reflexivity. Qed.
Lemma at_of_to : forall o, at_of_u16 (at_to_u16 o) = Ok o.
Proof. destruct o; reflexivity. Qed.

Lemma fwop_of_cases : forall v,
  (v <= 2 /\ exists o, fwop_of_u16 v = Ok o /\ v = fwop_to_u16 o)
  \/ (2 < v /\ exists e, fwop_of_u16 v = Err e).
Proof.
  intro v. destruct (N.leb_spec v 2) as [H|H]; [left|right].
  - split; [exact H|]. assert (v = 0 \/ v = 1 \/ v = 2) as [->|[->| ->]] by lia;
      eexists; split; reflexivity.
  - split; [exact H|]. unfold fwop_of_u16, fwop_to_u16.
    repeat match goal with |- context [v =? ?k] => destruct (N.eqb_spec v k); [lia|] end.
    eexists; reflexivity.
Qed.

Lemma pt_of_cases : forall v,
  (v <= 2 /\ exists o, pt_of_u16 v = Ok o /\ v = pt_to_u16 o)
  \/ (2 < v /\ exists e, pt_of_u16 v = Err e).
Proof.
  intro v. destruct (N.leb_spec v 2) as [H|H]; [left|right].
  - split; [exact H|]. assert (v = 0 \/ v = 1 \/ v = 2) as [->|[->| ->]] by lia;
      eexists; split; reflexivity.
  - split; [exact H|]. unfold pt_of_u16, pt_to_u16.
    repeat match goal with |- context [v =? ?k] => destruct (N.eqb_spec v k); [lia|] end.
    eexists; reflexivity.
Qed.

Lemma at_of_cases : forall v,
  (v <= 1 /\ exists o, at_of_u16 v = Ok o /\ v = at_to_u16 o)
  \/ (1 < v /\ exists e, at_of_u16 v = Err e).
Proof.
  intro v. destruct (N.leb_spec v 1) as [H|H]; [left|right].
  - split; [exact H|]. assert (v = 0 \/ v = 1) as [->| ->] by lia;
      eexists; split; reflexivity.
  - split; [exact H|]. unfold at_of_u16, at_to_u16.
    repeat match goal with |- context [v =? ?k] => destruct (N.eqb_spec v k); [lia|] end.
    eexists; reflexivity.
Qed.

Definition fw_flat (m : fw_message) : list byte :=
  be16 (fwop_to_u16 (f_op m)) ++ be16 (pt_to_u16 (f_port_type m)) ++ be16 (f_port m)
    ++ be16 (at_to_u16 (f_addr_type m)) ++ f_addr m.

Lemma fw_serialize_flat : forall m, length (f_addr m) = 16%nat ->
  fw_serialize m = Ok (fw_flat m).
Proof. intros [o t p at_ a] Ha. simpl in Ha. explode Ha. reflexivity. Qed.

Lemma fw_flat_length : forall m, length (f_addr m) = 16%nat -> length (fw_flat m) = 24%nat.
Proof. intros m Ha. unfold fw_flat. rewrite !app_length, Ha. reflexivity. Qed.

Lemma fw_deserialize_flat : forall m, api_fw_message m -> fw_deserialize (fw_flat m) = Ok m.
Proof.
  intros [o t p at_ a] (Hp & Ha & Ba). simpl in Hp, Ha.
  explode Ha. unfold fw_deserialize.
  replace (length (fw_flat _)) with 24%nat by reflexivity.
  replace (Nat.eqb 24 FWMSG_SIZE) with true by reflexivity. cbn [negb].
  unfold deserialize_u16, FWMSG_OFFS_OPERATION, FWMSG_OFFS_PORT_TYPE, FWMSG_OFFS_PORT,
    FWMSG_OFFS_ADDR_TYPE, FWMSG_OFFS_ADDR, ADDR_SIZE, slice.
  replace (length (fw_flat _)) with 24%nat by reflexivity.
  unfold fw_flat. cbn [f_op f_port_type f_port f_addr_type f_addr].
  cbn [Nat.leb Nat.add bind app skipn firstn be16].
  rewrite (of_be_be16' (fwop_to_u16 o)) by (destruct o; reflexivity).
  rewrite (of_be_be16' (pt_to_u16 t)) by (destruct t; reflexivity).
  rewrite (of_be_be16' (at_to_u16 at_)) by (destruct at_; reflexivity).
  rewrite (of_be_be16' p Hp), fwop_of_to, pt_of_to, at_of_to. reflexivity.
Qed.

Lemma fw_roundtrip : forall m, api_fw_message m ->
  exists b, fw_serialize m = Ok b /\ fw_layout b m /\ fw_deserialize b = Ok m.
Proof.
  intros m Hm. pose proof Hm as (Hp & Ha & Ba). exists (fw_flat m).
  split; [apply fw_serialize_flat; assumption|].
  split; [|apply fw_deserialize_flat; assumption].
  assert (all_bytes (fw_flat m)) as HB.
  { unfold fw_flat. byte_conses; auto using all_bytes_be16. }
  change (2 ^ 16) with 65536 in Hp.
  destruct m as [o t p at_ a]. simpl in Hp, Ha, Ba.
  split; simpl f_op; simpl f_port_type; simpl f_port; simpl f_addr_type; simpl f_addr; auto.
  - apply fw_flat_length. exact Ha.
  - destruct o; reflexivity.
  - destruct t; reflexivity.
  - unfold u16_at, fw_flat. simpl. lia.
  - destruct at_; reflexivity.
  - clear HB Ba. explode Ha. reflexivity.
Qed.

Lemma fw_decode_total : forall b, all_bytes b ->
  (exists m, fw_deserialize b = Ok m /\ valid_fw_frame b /\ api_fw_message m
             /\ fw_serialize m = Ok b)
  \/ (exists e, fw_deserialize b = Err e /\ ~ valid_fw_frame b).
Proof.
  intros b HB. unfold fw_deserialize.
  destruct (Nat.eqb_spec (length b) FWMSG_SIZE) as [HL|HL]; cbn [negb].
  2:{ right. eexists; split; [reflexivity|]. intros [H _]. apply HL. exact H. }
  change FWMSG_SIZE with 24%nat in HL. explode HL. split_bytes.
  unfold deserialize_u16, FWMSG_OFFS_OPERATION, FWMSG_OFFS_PORT_TYPE, FWMSG_OFFS_PORT,
    FWMSG_OFFS_ADDR_TYPE, FWMSG_OFFS_ADDR, ADDR_SIZE, slice.
  cbn [length Nat.leb Nat.add bind firstn skipn].
  match goal with |- context [fwop_of_u16 (of_be ?l)] => set (ov := of_be l) end.
  match goal with |- context [pt_of_u16 (of_be ?l)] => set (tv := of_be l) end.
  match goal with |- context [at_of_u16 (of_be ?l)] => set (av := of_be l) end.
  assert (forall a b, of_be [a; b] = a * 2 ^ 8 + b) as OB.
  { intros. unfold of_be. cbn [fold_left]. lia. }
  destruct (fwop_of_cases ov) as [(Ho & o & Eo & Vo)|(Ho & e & Eo)]; rewrite Eo; cbn [bind].
  2:{ right. eexists; split; [reflexivity|]. intros (_ & H & _). subst ov.
      rewrite OB in Ho. unfold u16_at in H. cbn [nth Nat.add] in H. lia. }
  destruct (pt_of_cases tv) as [(Ht & t & Et & Vt)|(Ht & e & Et)]; rewrite Et; cbn [bind].
  2:{ right. eexists; split; [reflexivity|]. intros (_ & _ & H & _). subst tv.
      rewrite OB in Ht. unfold u16_at in H. cbn [nth Nat.add] in H. lia. }
  destruct (at_of_cases av) as [(Ha & a & Ea & Va)|(Ha & e & Ea)]; rewrite Ea; cbn [bind].
  2:{ right. eexists; split; [reflexivity|]. intros (_ & _ & _ & H). subst av.
      rewrite OB in Ha. unfold u16_at in H. cbn [nth Nat.add] in H. lia. }
  left. eexists; split; [reflexivity|]. split; [|split].
  - split; [reflexivity|]. unfold u16_at. cbn [nth Nat.add]. rewrite <- !OB.
    change (of_be _) with ov at 1. change (of_be _) with tv at 1.
    change (of_be _) with av at 1. auto.
  - unfold api_fw_message. cbn [f_port f_addr]. split; [|split].
    + rewrite OB. change (2 ^ 16) with 65536. change (2 ^ 8) with 256. lia.
    + reflexivity.
    + byte_conses; assumption.
  - rewrite fw_serialize_flat by reflexivity. unfold fw_flat.
    cbn [f_op f_port_type f_port f_addr_type f_addr].
    rewrite <- Vo, <- Vt, <- Va. subst ov tv av.
    rewrite !be16_of_be by assumption. reflexivity.
Qed.

Lemma octets_roundtrip : forall a, ip_address a ->
  let (t, o) := addr_to_octets a in
  length o = 16%nat /\ all_bytes o /\ octets_to_addr t o = a.
Proof.
  intros [o|o] [HL HB]; simpl.
  - explode HL. split; [reflexivity|]. split; [|reflexivity].
    split_bytes. byte_conses; first [reflexivity|assumption].
  - auto.
Qed.

Lemma fw_open_roundtrip : forall a t p, ip_address a -> p < 2 ^ 16 ->
  exists b m, fw_serialize (fw_new_open a t p) = Ok b
              /\ fw_deserialize b = Ok m
              /\ f_op m = FwOpen /\ fw_addr m = Some a /\ fw_port m = Some (t, p).
Proof.
  intros a t p Ha Hp. pose proof (octets_roundtrip a Ha) as Ho.
  unfold fw_new_open. destruct (addr_to_octets a) as [ty o] eqn:E.
  destruct Ho as (HL & HB & HR).
  destruct (fw_roundtrip (FwMsg FwOpen t p ty o)) as (b & Es & _ & Ed).
  { split; [exact Hp|]. split; [exact HL|exact HB]. }
  exists b, (FwMsg FwOpen t p ty o). repeat split; auto.
  unfold fw_addr. simpl. rewrite HR. reflexivity.
Qed.

Lemma fw_reply_roundtrip : forall m, m = fw_new_ack \/ m = fw_new_nack ->
  exists b, fw_serialize m = Ok b /\ fw_deserialize b = Ok m
            /\ fw_addr m = None /\ fw_port m = None.
Proof.
  intros m [-> | ->]; eexists; repeat split; reflexivity.
Qed.
