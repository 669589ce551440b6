(** Invariant of the firewall daemon over all histories. *)

From Coq Require Import String ZArith NArith List Bool Lia ZifyBool ZifyNat ZifyN Permutation.
From Verif Require Import M_Base M_IpAddr M_FwProto M_ConfTypes M_Server M_Text M_Firewall
  S_Wire S_Firewall P_Base P_FwProto P_Text P_Firewall.
Import ListNotations.
Local Open Scope N_scope.

(** ** Requests *)

Lemma layout_valid : forall b m, fw_layout b m -> valid_fw_frame b.
Proof.
  intros b m L. split; [apply L|]. rewrite (fl_op _ _ L), (fl_port_type _ _ L), (fl_addr_type _ _ L).
  destruct (f_op m), (f_port_type m), (f_addr_type m); simpl; lia.
Qed.

Lemma decode_layout : forall b m, all_bytes b -> fw_deserialize b = Ok m ->
  fw_layout b m /\ api_fw_message m.
Proof.
  intros b m HB E. destruct (fw_decode_total b HB) as [(m' & E' & _ & A & S)|(e & E' & _)].
  - rewrite E in E'. injection E' as <-.
    destruct (fw_roundtrip m A) as (b' & S' & L & _). rewrite S in S'. injection S' as <-. auto.
  - congruence.
Qed.

Lemma asks_decode : forall b a t port, all_bytes b -> asks b a t port ->
  exists m, fw_deserialize b = Ok m /\ f_op m = FwOpen /\ fw_addr m = Some a
            /\ fw_port m = Some (t, port).
Proof.
  intros b a t port HB (m & L & O & T & P & A).
  assert (api_fw_message m) as AM.
  { pose proof (fl_size _ _ L) as HL. pose proof (fl_addr _ _ L) as FA.
    pose proof (fl_port _ _ L) as FP. explode HL. split_bytes.
    unfold bytes_at in FA. simpl in FA. unfold u16_at in FP. simpl in FP.
    split; [|split].
    - rewrite <- FP. change (2 ^ 16) with 65536. lia.
    - rewrite <- FA. reflexivity.
    - rewrite <- FA. byte_conses; assumption. }
  exists m. destruct (fw_decode_total b HB) as [(m' & E' & _ & A' & S)|(e & E' & NV)].
  2:{ exfalso. apply NV. eapply layout_valid. exact L. }
  assert (m' = m) as ->.
  { destruct (decode_layout b m' HB E') as [L' _].
    assert (f_op m' = f_op m).
    { pose proof (fl_op _ _ L). pose proof (fl_op _ _ L').
      destruct (f_op m), (f_op m'); simpl in *; congruence. }
    assert (f_port_type m' = f_port_type m).
    { pose proof (fl_port_type _ _ L). pose proof (fl_port_type _ _ L').
      destruct (f_port_type m), (f_port_type m'); simpl in *; congruence. }
    assert (f_addr_type m' = f_addr_type m).
    { pose proof (fl_addr_type _ _ L). pose proof (fl_addr_type _ _ L').
      destruct (f_addr_type m), (f_addr_type m'); simpl in *; congruence. }
    pose proof (fl_port _ _ L). pose proof (fl_port _ _ L').
    pose proof (fl_addr _ _ L). pose proof (fl_addr _ _ L').
    destruct m, m'; simpl in *. congruence. }
  split; [exact E'|]. split; [exact O|]. unfold fw_addr, fw_port. rewrite O, T, P.
  split; [|reflexivity]. rewrite A. destruct AM as (_ & LA & _). unfold octets_to_addr.
  destruct (f_addr_type m); [reflexivity|]. clear - LA. revert LA. generalize (f_addr m). intros l LA. explode LA. reflexivity.
Qed.

Lemma decode_asks : forall b m a t port, all_bytes b -> fw_deserialize b = Ok m ->
  f_op m = FwOpen -> fw_addr m = Some a -> fw_port m = Some (t, port) ->
  asks b a t port /\ ip_address a.
Proof.
  intros b m a t port HB E O A P. destruct (decode_layout b m HB E) as [L (Hp & LA & BA)].
  unfold fw_addr in A. unfold fw_port in P. rewrite O in *. injection A as <-. injection P as <- <-.
  unfold octets_to_addr. split.
  - exists m. split; [exact L|]. split; [exact O|]. split; [reflexivity|]. split; [reflexivity|].
    destruct (f_addr_type m); [reflexivity|]. clear - LA. revert LA. generalize (f_addr m). intros l LA. explode LA. reflexivity.
  - destruct (f_addr_type m); simpl; [auto|]. split; [reflexivity|].
    clear - LA BA. revert LA BA. generalize (f_addr m). intros l LA BA. explode LA. split_bytes. simpl. byte_conses; assumption.
Qed.

Lemma not_repeat : forall (v : N) (o : list N), o <> repeat v (length o) -> exists x, In x o /\ x <> v.
Proof.
  induction o as [|y o IH]; intros H; simpl in H; [congruence|].
  destruct (N.eq_dec y v) as [->|NE].
  - destruct IH as (x & I & N); [congruence|]. exists x. split; [right; exact I|exact N].
  - exists y. split; [left; reflexivity|exact NE].
Qed.

Lemma of_be_snoc : forall l x, of_be (l ++ [x]) = of_be l * 256 + x.
Proof. intros. unfold of_be. rewrite fold_left_app. reflexivity. Qed.

Lemma of_be_inj : forall a b, length a = length b -> all_bytes a -> all_bytes b ->
  of_be a = of_be b -> a = b.
Proof.
  induction a as [|x a IH] using rev_ind; intros b L BA BB E.
  - destruct b; [reflexivity|discriminate].
  - destruct b as [|y b _] using rev_ind; [rewrite app_length in L; simpl in L; lia|].
    rewrite !app_length in L. simpl in L. apply all_bytes_app in BA. apply all_bytes_app in BB.
    destruct BA as [BA Bx]. destruct BB as [BB By_].
    assert (x < 256) by (apply Bx; left; reflexivity).
    assert (y < 256) by (apply By_; left; reflexivity).
    rewrite !of_be_snoc in E. rewrite (IH b); auto; try lia. f_equal. f_equal. lia.
Qed.

Lemma all_bytes_repeat : forall v n, v < 256 -> all_bytes (repeat v n).
Proof. intros v n H x I. apply repeat_spec in I. lia. Qed.

Lemma of_be_not_repeat : forall v n o, v < 256 -> length o = n -> all_bytes o ->
  (of_be o <> of_be (repeat v n) <-> exists x, In x o /\ x <> v).
Proof.
  intros v n o V L B. split.
  - intros H. apply not_repeat. intros E. apply H. rewrite E, L. reflexivity.
  - intros (x & I & NX) E. apply of_be_inj in E.
    + rewrite E in I. apply repeat_spec in I. congruence.
    + rewrite repeat_length. exact L.
    + exact B.
    + apply all_bytes_repeat. exact V.
Qed.

Lemma addr_check_plausible : forall a, ip_address a ->
  (addr_check a = true <-> plausible_address a).
Proof.
  intros [o|o] [L B]; unfold addr_check, plausible_address;
    rewrite andb_true_iff, !negb_true_iff, !N.eqb_neq.
  - pose proof (of_be_not_repeat 0 4 o eq_refl L B) as H0.
    pose proof (of_be_not_repeat 255 4 o eq_refl L B) as H1.
    change (of_be (repeat 0 4)) with 0 in H0. change (of_be (repeat 255 4)) with 4294967295 in H1.
    rewrite H0, H1. reflexivity.
  - pose proof (of_be_not_repeat 0 16 o eq_refl L B) as H0.
    pose proof (of_be_not_repeat 255 16 o eq_refl L B) as H1.
    change (of_be (repeat 0 16)) with 0 in H0.
    change (of_be (repeat 255 16)) with 340282366920938463463374607431768211455 in H1.
    rewrite H0, H1. reflexivity.
Qed.

Lemma res_id_by_port_none : forall l port,
  (exists id, res_id_by_port l port None = Some id) <-> (exists id r, In (id, r) l /\ rs_port r = port).
Proof.
  induction l as [|[k r] l IH]; intros port; simpl.
  - split; [intros [? [=]]|intros (? & ? & [] & _)].
  - destruct (rs_port r =? port) eqn:E.
    + split; [|eauto]. intros _. exists k, r. split; [auto|lia].
    + rewrite IH. split.
      * intros (id & r' & I & P). exists id, r'. auto.
      * intros (id & r' & [[= <- <-]|I] & P); [lia|]. eauto.
Qed.

(** ** The lease map *)

Lemma map_update_some : forall m id f m', map_update m id f = Some m' ->
  (exists l, In (id, l) m)
  /\ (forall i l, In (i, l) m' -> In (i, l) m \/ (i = id /\ exists l0, In (id, l0) m /\ l = f l0))
  /\ (forall i l, In (i, l) m -> In (i, l) m' \/ (i = id /\ In (id, f l) m')).
Proof.
  induction m as [|[i l] m IH]; intros id f m' H; simpl in H; [discriminate|].
  destruct (id_eqb i id) eqn:E.
  - apply id_eqb_spec in E. subst i. injection H as <-. split; [|split].
    + exists l. left. reflexivity.
    + intros i' l' [[= <- <-]|I]; [right|left; right; exact I].
      split; [reflexivity|]. exists l. split; [left|]; reflexivity.
    + intros i' l' [[= <- <-]|I]; [right|left; right; exact I].
      split; [reflexivity|]. left. reflexivity.
  - destruct (map_update m id f) as [m1|] eqn:E1; [|discriminate]. injection H as <-.
    destruct (IH id f m1 E1) as ((l1 & I1) & A & B). split; [|split].
    + exists l1. right. exact I1.
    + intros i' l' [[= <- <-]|I]; [left; left; reflexivity|].
      destruct (A _ _ I) as [?|(-> & l0 & J & ->)]; [left; right; assumption|].
      right. split; [reflexivity|]. exists l0. split; [right; exact J|reflexivity].
    + intros i' l' [[= <- <-]|I]; [left; left; reflexivity|].
      destruct (B _ _ I) as [?|(-> & J)]; [left; right; assumption|].
      right. split; [reflexivity|right; exact J].
Qed.

Lemma map_update_none : forall m id f, map_update m id f = None -> forall l, ~ In (id, l) m.
Proof.
  induction m as [|[i l] m IH]; intros id f H l' I; [contradiction|]. simpl in H.
  destruct (id_eqb i id) eqn:E; [discriminate|].
  destruct (map_update m id f) eqn:E1; [discriminate|]. destruct I as [[= -> ->]|I].
  - assert (id_eqb id id = true) by (apply id_eqb_spec; reflexivity). congruence.
  - eapply IH; eassumption.
Qed.

(** Refreshing changes neither address nor port, hence not the rules. *)
Lemma map_update_contents : forall conf now m id m',
  map_update m id (refresh_timeout conf now) = Some m' ->
  flat_map lease_contents (map snd m') = flat_map lease_contents (map snd m).
Proof.
  intros conf now. induction m as [|[i l] m IH]; intros id m' H; simpl in H; [discriminate|].
  destruct (id_eqb i id).
  - injection H as <-. simpl. destruct l; reflexivity.
  - destruct (map_update m id (refresh_timeout conf now)) as [m1|] eqn:E; [|discriminate].
    injection H as <-. simpl. rewrite (IH id m1 E). reflexivity.
Qed.

Lemma partition_perm : forall (A : Type) (f : A -> bool) l,
  Permutation l (filter f l ++ filter (fun x => negb (f x)) l).
Proof.
  induction l as [|x l IH]; [constructor|]. simpl. destruct (f x); simpl.
  - constructor. exact IH.
  - rewrite IH at 1. apply Permutation_middle.
Qed.

(** ** Steps *)

Section Daemon.
Variable conf : config.
Variable c : chain_name.
Hypothesis CC : configured_chain conf c.

Lemma open_port_cases : forall k fw now a p ok k' fw' r,
  fw_shutdown fw = false -> handles_ok c k -> lp_number p <> cp_port (c_port conf) ->
  open_port conf k fw now a p ok = (k', fw', r) ->
  (r = Ok tt /\ k' = k /\ exists m, fw' = Firewall m false
     /\ map_update (fw_leases fw) (a, p) (refresh_timeout conf now) = Some m)
  \/ (r = Ok tt /\ (forall l, ~ In ((a, p), l) (fw_leases fw))
      /\ fw' = Firewall (((a, p), Lease a p (now + c_nft_timeout conf)) :: fw_leases fw) false
      /\ supported c a /\ handles_ok c k'
      /\ contents c k' = contents c k ++ lease_contents (Lease a p (now + c_nft_timeout conf))
      /\ rules_elsewhere c k' = rules_elsewhere c k /\ k_chains k' = k_chains k)
  \/ (k' = k /\ fw' = fw /\ (exists e, r = Err e)
      /\ (ok = false \/ has_chain k c = false \/ ~ supported c a)).
Proof.
  intros k fw now a p ok k' fw' r SD HK NP H. unfold open_port in H. rewrite SD in H.
  destruct (map_update (fw_leases fw) (a, p) (refresh_timeout conf now)) as [m|] eqn:U.
  - injection H as <- <- <-. left. eauto.
  - right. unfold lease_new in H. replace (cp_port (c_port conf) =? lp_number p) with false in H by lia.
    cbn [negb assert_] in H.
    destruct (add_lease conf k (Lease a p (now + c_nft_timeout conf)) ok) as [k1 r1] eqn:AL.
    apply (add_lease_cases conf c CC) in AL; [|exact HK].
    destruct AL as [(-> & S & A1 & A2 & A3 & A4)|(-> & (e & ->) & W)].
    + injection H as <- <- <-. left. split; [reflexivity|].
      split; [eapply map_update_none; exact U|]. split; [reflexivity|]. auto.
    + injection H as <- <- <-. right. split; [reflexivity|]. split; [reflexivity|]. eauto.
Qed.

Lemma lp_number_of : forall t p, lp_number (lease_port_of t p) = p.
Proof. intros [] p; reflexivity. Qed.

Lemma message_cases : forall k fw r now ok sok k' fw' reply res,
  fw_shutdown fw = false -> handles_ok c k ->
  (forall b, r = FwRxBuf b -> all_bytes b) ->
  handle_message conf k fw r now ok sok = (k', fw', reply, res) ->
  (k' = k /\ fw' = fw /\ reply <> Some fw_new_ack /\ res <> Panic
   /\ forall b a t port, r = FwRxBuf b -> asks b a t port ->
      reply = Some fw_new_nack
      /\ (ok = false \/ has_chain k c = false \/ ~ supported c a
          \/ ~ plausible_address a \/ ~ permitted_port conf port))
  \/ (exists b a t port, r = FwRxBuf b /\ asks b a t port /\ ip_address a
      /\ plausible_address a /\ permitted_port conf port
      /\ open_port conf k fw now a (lease_port_of t port) ok = (k', fw', Ok tt)
      /\ reply = Some fw_new_ack /\ res <> Panic).
Proof.
  intros k fw r now ok sok k' fw' reply res SD HK HB H. unfold handle_message in H.
  assert (forall (m : fw_message) (e : M_Base.res unit), e <> Panic -> (if sok then e else Err "send") <> Panic) as SP
    by (intros; destruct sok; [assumption|discriminate]).
  assert (Some fw_new_nack <> Some fw_new_ack) as NA by discriminate.
  destruct r as [| |b].
  - injection H as <- <- <- <-. left. repeat split; try discriminate.
  - injection H as <- <- <- <-. left. repeat split; try discriminate.
  - specialize (HB b eq_refl).
    destruct (fw_deserialize b) as [m|e|] eqn:D.
    + destruct (f_op m) eqn:O.
      1,2: (injection H as <- <- <- <-; left; repeat split; try discriminate;
            exfalso; match goal with A : asks _ _ _ _, B : FwRxBuf _ = FwRxBuf _ |- _ =>
              injection B as <-; apply asks_decode in A; [|exact HB];
              destruct A as (m' & E' & O' & _); congruence end).
      destruct (fw_addr m) as [a|] eqn:FA; [|unfold fw_addr in FA; rewrite O in FA; discriminate].
      destruct (fw_port m) as [[t port]|] eqn:FP; [|unfold fw_port in FP; rewrite O in FP; discriminate].
      destruct (decode_asks b m a t port HB D O FA FP) as [AK IP].
      assert (forall b' a' t' port', FwRxBuf b = FwRxBuf b' -> asks b' a' t' port' ->
              a' = a /\ t' = t /\ port' = port) as UNI.
      { intros b' a' t' port' [= <-] AK'. apply asks_decode in AK'; [|exact HB].
        destruct AK' as (m' & E' & _ & A' & P'). rewrite D in E'. injection E' as <-.
        rewrite FA in A'. rewrite FP in P'. injection A' as <-. injection P' as <- <-. auto. }
      destruct (addr_check a) eqn:AC; cbn [negb] in H.
      2:{ injection H as <- <- <- <-. left.
          split; [reflexivity|]. split; [reflexivity|]. split; [exact NA|].
          split; [apply SP; [exact fw_new_nack|discriminate]|].
          intros b' a' t' port' EB AK'. destruct (UNI _ _ _ _ EB AK') as (-> & -> & ->).
          split; [reflexivity|]. right. right. right. left. intros PL.
          apply (addr_check_plausible a IP) in PL. congruence. }
      unfold resource_id_by_port in H.
      pose proof (res_id_by_port_none (c_resources conf) port) as RI.
      destruct (res_id_by_port (c_resources conf) port None) as [id|].
      2:{ injection H as <- <- <- <-. left.
          split; [reflexivity|]. split; [reflexivity|]. split; [exact NA|].
          split; [apply SP; [exact fw_new_nack|discriminate]|].
          intros b' a' t' port' EB AK'. destruct (UNI _ _ _ _ EB AK') as (-> & -> & ->).
          split; [reflexivity|]. right. right. right. right. intros [_ PP].
          apply RI in PP. destruct PP. discriminate. }
      destruct (port =? cp_port (c_port conf)) eqn:CP.
      { injection H as <- <- <- <-. left.
        split; [reflexivity|]. split; [reflexivity|]. split; [exact NA|].
        split; [apply SP; [exact fw_new_nack|discriminate]|].
        intros b' a' t' port' EB AK'. destruct (UNI _ _ _ _ EB AK') as (-> & -> & ->).
        split; [reflexivity|]. right. right. right. right. intros [PP _]. lia. }
      assert (permitted_port conf port) as PP.
      { split; [lia|]. apply RI. eauto. }
      destruct (open_port conf k fw now a (lease_port_of t port) ok) as [[k1 fw1] r1] eqn:OP.
      pose proof OP as OP'. apply open_port_cases in OP'; auto; [|rewrite lp_number_of; lia].
      destruct OP' as [(-> & _)|[(-> & _)|(-> & -> & (e & ->) & W)]].
      * injection H as <- <- <- <-. right. exists b, a, t, port.
        repeat split; auto; try apply PP; try apply (addr_check_plausible a IP); auto.
        { apply SP; [exact fw_new_nack|discriminate]. }
      * injection H as <- <- <- <-. right. exists b, a, t, port.
        repeat split; auto; try apply PP; try apply (addr_check_plausible a IP); auto.
        { apply SP; [exact fw_new_nack|discriminate]. }
      * injection H as <- <- <- <-. left.
        split; [reflexivity|]. split; [reflexivity|]. split; [exact NA|].
        split; [apply SP; [exact fw_new_nack|discriminate]|].
        intros b' a' t' port' EB AK'. destruct (UNI _ _ _ _ EB AK') as (-> & -> & ->).
        split; [reflexivity|]. tauto.
    + injection H as <- <- <- <-. left. repeat split; try discriminate;
        exfalso; match goal with A : asks _ _ _ _, B : FwRxBuf _ = FwRxBuf _ |- _ =>
          injection B as <-; apply asks_decode in A; [|exact HB];
          destruct A as (m' & E' & _); congruence end.
    + exfalso. destruct (fw_decode_total b HB) as [(m' & E' & _)|(e & E' & _)]; congruence.
Qed.

(** ** The invariant *)

Definition fresh (t : N) (post : hist) : Prop :=
  forall now o1 o2 b1 b2 b3 reply,
  In (FwMaintain now o1 o2 b1 b2 b3, reply) post -> now < t + c_nft_timeout conf.

Definition lease_ok (h : hist) (id : lease_id) (l : lease) : Prop :=
  id = (l_addr l, l_port l) /\ ip_address (l_addr l) /\ supported c (l_addr l)
  /\ exists pre x post t pt port, h = pre ++ x :: post /\ acked x t (l_addr l) pt port
     /\ l_port l = lease_port_of pt port /\ l_timeout l = t + c_nft_timeout conf
     /\ permitted_port conf port /\ fresh t post.

Definition granted_content (h : hist) (w : option text * list stmt) : Prop :=
  exists a pt port p, granted h a pt port /\ ip_address a /\ supported c a /\ permitted_port conf port
    /\ In p (single_ports (lease_port_of pt port)) /\ w = want (Some a) p.

Definition only_granted (h : hist) (ws : list (option text * list stmt)) : Prop :=
  forall w, In w ws -> In w (control_contents conf) \/ granted_content h w.

Definition phase_inv (d : daemon) : Prop :=
  match d_phase d with
  | PhRun => fw_shutdown (d_fw d) = false
             /\ Permutation (contents c (d_kernel d))
                            (control_contents conf ++ flat_map lease_contents (leases d))
  | PhFatal => fw_shutdown (d_fw d) = false
               /\ exists extra, Permutation (contents c (d_kernel d))
                    ((control_contents conf ++ flat_map lease_contents (leases d)) ++ extra)
  | PhDown => fw_shutdown (d_fw d) = true /\ fw_leases (d_fw d) = []
  | PhDead => False
  end.

Record inv (d : daemon) (h : hist) : Prop := {
  i_lease : forall id l, In (id, l) (fw_leases (d_fw d)) -> lease_ok h id l;
  i_handles : handles_ok c (d_kernel d);
  i_only : only_granted h (contents c (d_kernel d));
  i_phase : phase_inv d
}.

Lemma granted_content_snoc : forall h x w, granted_content h w -> granted_content (h ++ [x]) w.
Proof.
  intros h x w (a & pt & port & p & (y & t & I & A) & R). exists a, pt, port, p.
  split; [|exact R]. exists y, t. split; [|exact A]. apply in_or_app. left. exact I.
Qed.

Lemma lease_granted : forall h id l w, lease_ok h id l -> In w (lease_contents l) ->
  granted_content h w.
Proof.
  intros h id l w (_ & IP & SU & pre & x & post & t & pt & port & E & A & LP & _ & PP & _) I.
  rewrite lease_contents_want in I. apply in_map_iff in I. destruct I as (p & <- & I).
  exists (l_addr l), pt, port, p. rewrite LP in I.
  repeat split; auto; try apply PP. exists x, t. split; [|exact A].
  rewrite E. apply in_or_app. right. left. reflexivity.
Qed.

Lemma only_known : forall h ws, only_granted h ws -> known ws.
Proof.
  intros h ws H w I. destruct (H w I) as [C|(a & pt & port & p & _ & IP & _ & _ & _ & ->)].
  - rewrite control_contents_want in C. apply in_map_iff in C. destruct C as (p & <- & _).
    exists None, p. split; [reflexivity|discriminate].
  - exists (Some a), p. split; [reflexivity|]. intros x [= <-]. exact IP.
Qed.

Lemma lease_ok_snoc : forall h x id l, lease_ok h id l ->
  (forall now o1 o2 b1 b2 b3 reply, x = (FwMaintain now o1 o2 b1 b2 b3, reply) ->
     now < l_timeout l) ->
  lease_ok (h ++ [x]) id l.
Proof.
  intros h x id l (E & IP & SU & pre & y & post & t & pt & port & EH & A & LP & LT & PP & F) M.
  split; [exact E|]. split; [exact IP|]. split; [exact SU|].
  exists pre, y, (post ++ [x]), t, pt, port.
  split; [rewrite EH, <- app_assoc; reflexivity|]. repeat split; auto; try apply PP.
  intros now o1 o2 b1 b2 b3 reply I. apply in_app_or in I. destruct I as [I|[I|[]]].
  - eapply F. exact I.
  - rewrite <- LT. eapply M. exact I.
Qed.

(** Maintenance. *)
Lemma maintain_cases : forall d h now o1 o2 lok dok rok k' fw' r,
  inv d h -> d_phase d = PhRun ->
  (forall l, Permutation (o1 l) l) -> (forall l, Permutation (o2 l) l) ->
  maintain conf (d_kernel d) (d_fw d) now o1 o2 lok dok rok = (k', fw', r) ->
  fw' = Firewall (filter (fun x => negb (is_timed_out (snd x) now)) (fw_leases (d_fw d))) false
  /\ handles_ok c k' /\ rules_elsewhere c k' = rules_elsewhere c (d_kernel d)
  /\ k_chains k' = k_chains (d_kernel d)
  /\ ((r = Ok tt /\ Permutation (contents c k')
                      (control_contents conf ++ flat_map lease_contents (map snd (fw_leases fw'))))
      \/ ((exists e, r = Err e) /\ k' = d_kernel d
          /\ (rok = false \/ has_chain (d_kernel d) c = false))).
Proof.
  intros d h now o1 o2 lok dok rok k' fw' r I PH ORD1 ORD2 H.
  pose proof (i_phase _ _ I) as IP. unfold phase_inv in IP. rewrite PH in IP.
  destruct IP as [SD MI]. unfold maintain in H. rewrite SD in H. unfold prune in H.
  set (m := fw_leases (d_fw d)) in *. set (k := d_kernel d) in *.
  set (rest := filter (fun x => negb (is_timed_out (snd x) now)) m) in *.
  set (out := map snd (filter (fun x => is_timed_out (snd x) now) m)) in *.
  assert (Permutation (flat_map lease_contents (leases d))
            (flat_map lease_contents (o1 out) ++ flat_map lease_contents (map snd rest))) as SPL.
  { rewrite (Permutation_flat_map lease_contents (ORD1 out)).
    rewrite <- flat_map_app. apply Permutation_flat_map. unfold leases, out, rest.
    rewrite <- map_app. apply Permutation_map. apply partition_perm. }
  assert (forall l, In l (o1 out) -> exists id, In (id, l) m) as INM.
  { intros l J. apply (Permutation_in l (ORD1 out)) in J. apply in_map_iff in J.
    destruct J as ([id l'] & E & J). simpl in E. subst l'. apply filter_In in J. exists id. apply J. }
  destruct (o1 out) as [|l0 ls0] eqn:EO.
  - injection H as <- <- <-. split; [reflexivity|]. split; [apply I|]. split; [reflexivity|].
    split; [reflexivity|]. left. split; [reflexivity|]. cbn [fw_leases].
    fold k in MI. rewrite MI. apply Permutation_app_head. simpl in SPL. exact SPL.
  - set (ls := l0 :: ls0) in *.
    destruct (remove_leases conf k ls lok dok) as [k1 r1] eqn:RM.
    apply (remove_leases_cases conf c CC) in RM.
    + destruct RM as [(-> & A1 & A2 & A3 & A4)|(-> & (e & ->))].
      * injection H as <- <- <-. split; [reflexivity|]. split; [exact A1|]. split; [exact A3|].
        split; [exact A4|]. left. split; [reflexivity|]. cbn [fw_leases].
        fold k in MI. rewrite MI, SPL in A2.
        rewrite app_assoc, (Permutation_app_comm (control_contents conf)), <- app_assoc in A2.
        apply Permutation_app_inv_l in A2. symmetry. exact A2.
      * destruct (full_rebuild conf k (Firewall rest false) o2 rok) as [k2 r2] eqn:RB.
        injection H as <- <- <-.
        apply (rebuild_running conf c CC) in RB.
        -- destruct RB as [(-> & B1 & B2 & B3 & B4)|(-> & E & W)].
           ++ split; [reflexivity|]. split; [exact B1|]. split; [exact B3|]. split; [exact B4|].
              left. split; [reflexivity|exact B2].
           ++ split; [reflexivity|]. split; [apply I|]. split; [reflexivity|]. split; [reflexivity|].
              right. auto.
        -- intros l J. apply in_map_iff in J. destruct J as ([id l'] & E & J). simpl in E. subst l'.
           apply filter_In in J. destruct J as [J _].
           destruct (i_lease _ _ I id l J) as (_ & _ & SU & _). exact SU.
        -- exact ORD2.
    + eapply only_known. apply I.
    + apply I.
    + intros l J. destruct (INM l J) as [id J']. apply (i_lease _ _ I id l J').
Qed.

Lemma inv_start : forall k exe ok k' d, fw_start conf k exe ok = (k', Ok d) ->
  inv d [] /\ d_kernel d = k' /\ d_phase d = PhRun /\ fw_leases (d_fw d) = []
  /\ rules_elsewhere c k' = rules_elsewhere c k.
Proof.
  intros k exe ok k' d H. unfold fw_start, fw_new in H. destruct exe; [|discriminate].
  destruct (full_rebuild conf k (Firewall [] false) (fun l => l) ok) as [k1 r] eqn:RB.
  apply (rebuild_running conf c CC) in RB; [|contradiction|reflexivity].
  destruct RB as [(-> & B1 & B2 & B3 & B4)|(-> & (e & ->) & _)]; [|discriminate].
  injection H as <- <-. split; [|auto]. split; cbn [d_fw d_kernel fw_leases].
  - contradiction.
  - exact B1.
  - intros w I. apply (Permutation_in w B2) in I. simpl in I. rewrite app_nil_r in I. auto.
  - unfold phase_inv. simpl. split; [reflexivity|]. exact B2.
Qed.

Lemma inv_step : forall d h ev d' reply, inv d h -> event_ok c d ev ->
  fw_step conf d ev = Some (d', reply) -> inv d' (h ++ [(ev, reply)]).
Proof.
  intros d h ev d' reply I EV ST.
  assert (forall ws, only_granted h ws -> only_granted (h ++ [(ev, reply)]) ws) as OG.
  { intros ws O w J. destruct (O w J) as [?|G]; [auto|]. right. apply granted_content_snoc. exact G. }
  assert ((forall now o1 o2 b1 b2 b3, ev <> FwMaintain now o1 o2 b1 b2 b3) ->
          forall id l, lease_ok h id l -> lease_ok (h ++ [(ev, reply)]) id l) as LS.
  { intros NM id l L. apply lease_ok_snoc; [exact L|]. intros n2 q1 q2 b1 b2 b3 rp E.
    exfalso. injection E as E _. exact (NM _ _ _ _ _ _ E). }
  unfold fw_step in ST.
  destruct ev as [r now ok sok|now o1 o2 lok dok rok|ok|k].
  - (* message *)
    assert (forall now2 o1 o2 b1 b2 b3, FwMessage r now ok sok <> FwMaintain now2 o1 o2 b1 b2 b3) as NM
      by (intros; discriminate).
    assert ((d_phase d = PhRun \/ d_phase d = PhFatal)
            /\ exists k1 fw1 res, handle_message conf (d_kernel d) (d_fw d) r now ok sok = (k1, fw1, reply, res)
               /\ d' = Daemon k1 fw1 (next_phase res (d_phase d) (d_phase d))) as (PH & k1 & fw1 & res & HM & ED).
    { destruct (d_phase d) eqn:EP; try discriminate;
        destruct (handle_message conf (d_kernel d) (d_fw d) r now ok sok) as [[[k1 fw1] reply1] res1] eqn:HM;
        injection ST as <- <-; (split; [auto|]); exists k1, fw1, res1; auto. }
    clear ST.
    assert (fw_shutdown (d_fw d) = false) as SD.
    { pose proof (i_phase _ _ I) as IP. unfold phase_inv in IP. destruct PH as [PH|PH]; rewrite PH in IP; apply IP. }
    pose proof HM as MC. apply message_cases in MC; auto.
    2:{ apply I. }
    2:{ intros b ->. exact EV. }
    destruct MC as [(-> & -> & _ & NP & _)|(b & a & t & port & -> & AK & IA & PL & PP & OP & -> & NP)].
    + assert (next_phase res (d_phase d) (d_phase d) = d_phase d) as EP by (destruct res; simpl; congruence).
      rewrite ED, EP. split; cbn [d_fw d_kernel].
      * intros id l J. apply LS; [exact NM|]. apply (i_lease _ _ I). exact J.
      * apply I.
      * apply OG. apply I.
      * pose proof (i_phase _ _ I) as IP. unfold phase_inv, leases in *. cbn [d_phase d_fw d_kernel]. exact IP.
    + assert (next_phase res (d_phase d) (d_phase d) = d_phase d) as EP by (destruct res; simpl; congruence).
      rewrite EP in ED.
      assert (acked (FwMessage (FwRxBuf b) now ok sok, Some fw_new_ack) now a t port) as ACK
        by (exists b, ok, sok; auto).
      assert (forall l, supported c a -> l = Lease a (lease_port_of t port) (now + c_nft_timeout conf) ->
              lease_ok (h ++ [(FwMessage (FwRxBuf b) now ok sok, Some fw_new_ack)])
                       (a, lease_port_of t port) l) as NEW.
      { intros l SU ->. split; [reflexivity|]. split; [exact IA|]. split; [exact SU|].
        eexists h, _, [], now, t, port. split; [reflexivity|]. split; [exact ACK|].
        split; [reflexivity|]. split; [reflexivity|]. split; [exact PP|]. intros ? ? ? ? ? ? ? []. }
      apply open_port_cases in OP; [|exact SD|apply I|rewrite lp_number_of; apply PP].
      destruct OP as [(_ & -> & m & -> & U)|[(_ & NI & -> & SU & HK & CO & _ & _)|(_ & _ & (e & E) & _)]];
        [| |discriminate].
      * pose proof (map_update_some _ _ _ _ U) as (_ & U2 & _).
        pose proof (map_update_contents _ _ _ _ _ U) as UC. subst d'.
        split; cbn [d_fw d_kernel fw_leases].
        -- intros id l J. destruct (U2 _ _ J) as [J'|(-> & l0 & J' & ->)].
           ++ apply LS; [exact NM|]. apply (i_lease _ _ I). exact J'.
           ++ destruct (i_lease _ _ I _ _ J') as (E & _ & SU & _). injection E as E1 E2.
              apply NEW; [rewrite E1; exact SU|]. unfold refresh_timeout. congruence.
        -- apply I.
        -- apply OG. apply I.
        -- pose proof (i_phase _ _ I) as IP. unfold phase_inv, leases in *. cbn [d_phase d_fw d_kernel fw_leases fw_shutdown].
           rewrite UC. destruct PH as [PH|PH]; rewrite PH in *; (split; [reflexivity|apply IP]).
      * subst d'. split; cbn [d_fw d_kernel fw_leases].
        -- intros id l [[= <- <-]|J].
           ++ apply NEW; [exact SU|reflexivity].
           ++ apply LS; [exact NM|]. apply (i_lease _ _ I). exact J.
        -- exact HK.
        -- rewrite CO. intros w J. apply in_app_or in J. destruct J as [J|J].
           ++ apply OG in J; [exact J|apply I].
           ++ right. eapply lease_granted; [|exact J]. apply NEW; [exact SU|reflexivity].
        -- pose proof (i_phase _ _ I) as IP. unfold phase_inv, leases in *. cbn [d_phase d_fw d_kernel fw_leases fw_shutdown map snd flat_map].
           destruct PH as [PH|PH]; rewrite PH in *; (split; [reflexivity|]); rewrite CO.
           ++ destruct IP as [_ IP]. rewrite IP, <- app_assoc. apply Permutation_app_head. apply Permutation_app_comm.
           ++ destruct IP as [_ (extra & IP)]. exists extra. rewrite IP, <- !app_assoc. apply Permutation_app_head.
              rewrite app_assoc. rewrite Permutation_app_comm. reflexivity.
  - (* maintenance *)
    destruct (d_phase d) eqn:PH; try discriminate.
    destruct (maintain conf (d_kernel d) (d_fw d) now o1 o2 lok dok rok) as [[k1 fw1] r1] eqn:MT.
    injection ST as <- <-. destruct EV as [ORD1 ORD2].
    pose proof MT as MC. apply (maintain_cases d h) in MC; auto.
    destruct MC as (-> & HK & EL & CH & R).
    pose proof (i_phase _ _ I) as IP. unfold phase_inv in IP. rewrite PH in IP. destruct IP as [SD MI].
    assert (forall id l, In (id, l) (filter (fun x => negb (is_timed_out (snd x) now)) (fw_leases (d_fw d))) ->
            lease_ok (h ++ [(FwMaintain now o1 o2 lok dok rok, None)]) id l) as LK.
    { intros id l J. apply filter_In in J. destruct J as [J TO]. simpl in TO.
      apply lease_ok_snoc; [apply (i_lease _ _ I); exact J|].
      intros now' o1' o2' b1 b2 b3 rp [= <- <- <- <- <- <- <-]. unfold is_timed_out in TO. lia. }
    split; cbn [d_fw d_kernel fw_leases].
    + exact LK.
    + exact HK.
    + destruct R as [(_ & P)|(_ & -> & _)].
      * intros w J. apply (Permutation_in w P) in J. apply in_app_or in J. destruct J as [J|J]; [auto|].
        right. apply in_flat_map in J. destruct J as (l & J1 & J2). apply in_map_iff in J1.
        destruct J1 as ([id l'] & E & J1). simpl in E. subst l'.
        eapply lease_granted; [|exact J2]. apply LK. exact J1.
      * apply OG. apply I.
    + unfold phase_inv, leases. cbn [d_phase d_fw d_kernel fw_leases fw_shutdown].
      destruct R as [(-> & P)|((e & ->) & -> & _)]; cbn [next_phase].
      * split; [reflexivity|exact P].
      * split; [reflexivity|].
        exists (flat_map lease_contents (map snd (filter (fun x => is_timed_out (snd x) now) (fw_leases (d_fw d))))).
        rewrite MI, <- app_assoc. apply Permutation_app_head.
        rewrite <- flat_map_app. apply Permutation_flat_map. rewrite <- map_app. apply Permutation_map.
        rewrite Permutation_app_comm. apply partition_perm.
  - (* shutdown *)
    assert (fw_shutdown (d_fw d) = false /\ exists k1 fw1 res, fw_shutdown_op conf (d_kernel d) (d_fw d) ok = (k1, fw1, res)
            /\ d' = Daemon k1 fw1 (next_phase res PhDown PhDown)) as (SD & k1 & fw1 & res & SO & ED).
    { pose proof (i_phase _ _ I) as IP. unfold phase_inv in IP.
      destruct (d_phase d) eqn:EP; try discriminate;
        destruct (fw_shutdown_op conf (d_kernel d) (d_fw d) ok) as [[k1 fw1] res1] eqn:SO;
        injection ST as <- <-; (split; [apply IP|]); exists k1, fw1, res1; auto. }
    unfold fw_shutdown_op in SO. rewrite SD in SO.
    destruct (full_rebuild conf (d_kernel d) (Firewall [] true) (fun l => l) ok) as [k2 r2] eqn:RB.
    injection SO as <- <- <-. apply (rebuild_shutdown conf c CC) in RB.
    assert (next_phase r2 PhDown PhDown = PhDown) as EP.
    { destruct RB as [(-> & _)|(_ & (e & ->) & _)]; reflexivity. }
    rewrite EP in ED. subst d'. split; cbn [d_fw d_kernel fw_leases].
    + contradiction.
    + destruct RB as [(_ & R & _)|(-> & _)]; [apply handles_ok_empty; exact R|apply I].
    + destruct RB as [(_ & R & _)|(-> & _)]; [|apply OG; apply I].
      unfold contents. rewrite R. intros w [].
    + unfold phase_inv. simpl. auto.
  - (* other programs *)
    injection ST as <- <-. destruct EV as [ER EN].
    assert (contents c k = contents c (d_kernel d)) as EC by (unfold contents; rewrite ER; reflexivity).
    split; cbn [d_fw d_kernel].
    + intros id l J. apply LS; [intros; discriminate|]. apply (i_lease _ _ I). exact J.
    + destruct (i_handles _ _ I) as [ND LT]. split; rewrite ER; [exact ND|].
      intros r J. apply LT in J. lia.
    + rewrite EC. apply OG. apply I.
    + pose proof (i_phase _ _ I) as IP. unfold phase_inv, leases in *. cbn [d_phase d_fw d_kernel]. rewrite EC. exact IP.
Qed.

Lemma history_inv : forall d h, history conf c d h -> inv d h.
Proof.
  intros d h H. induction H as [k exe ok k' d _ ST|d h ev d' reply H IH EV ST].
  - destruct (inv_start _ _ _ _ _ ST) as (I & _). exact I.
  - eapply inv_step; eassumption.
Qed.

End Daemon.
