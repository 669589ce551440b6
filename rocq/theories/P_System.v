(** Proofs about many sessions and clients with an attacker in between. *)

From Coq Require Import String ZArith NArith List Bool Lia.
From Verif Require Import M_Base M_Proto M_IpAddr M_FwProto M_ConfTypes M_Server M_Client
  S_Wire S_Session S_Client S_System P_Base P_Proto P_FwProto P_Server P_Session P_Client.
Import ListNotations.
Local Open Scope N_scope.

Lemma server_events_app : forall sid a b,
  server_events sid (a ++ b) = server_events sid a ++ server_events sid b.
Proof.
  intros sid a b. induction a as [|[i ev|i ev] a IH]; simpl; auto.
  destruct (Nat.eqb i sid); simpl; rewrite IH; auto.
Qed.
Lemma client_events_app : forall cid a b,
  client_events cid (a ++ b) = client_events cid a ++ client_events cid b.
Proof.
  intros sid a b. induction a as [|[i ev|i ev] a IH]; simpl; auto.
  destruct (Nat.eqb i sid); simpl; rewrite IH; auto.
Qed.

Lemma server_events_split : forall sid tr a ev b, server_events sid tr = a ++ ev :: b ->
  exists pre post, tr = pre ++ GServer sid ev :: post
    /\ server_events sid pre = a /\ server_events sid post = b.
Proof.
  intros sid tr. induction tr as [|[i e|i e] tr IH]; intros a ev b H; simpl in H.
  - destruct a; discriminate.
  - destruct (Nat.eqb_spec i sid) as [->|NE].
    + destruct a as [|x a]; simpl in H; injection H as -> H.
      * exists [], tr. auto.
      * destruct (IH _ _ _ H) as (pre & post & -> & <- & <-).
        exists (GServer sid x :: pre), post. simpl. rewrite Nat.eqb_refl. auto.
    + destruct (IH _ _ _ H) as (pre & post & -> & <- & <-).
      exists (GServer i e :: pre), post. simpl.
      destruct (Nat.eqb_spec i sid); [contradiction|auto].
  - destruct (IH _ _ _ H) as (pre & post & -> & <- & <-).
    exists (GClient i e :: pre), post. auto.
Qed.

Lemma client_events_split : forall cid tr a ev b, client_events cid tr = a ++ ev :: b ->
  exists pre post, tr = pre ++ GClient cid ev :: post
    /\ client_events cid pre = a /\ client_events cid post = b.
Proof.
  intros sid tr. induction tr as [|[i e|i e] tr IH]; intros a ev b H; simpl in H.
  - destruct a; discriminate.
  - destruct (IH _ _ _ H) as (pre & post & -> & <- & <-).
    exists (GServer i e :: pre), post. auto.
  - destruct (Nat.eqb_spec i sid) as [->|NE].
    + destruct a as [|x a]; simpl in H; injection H as -> H.
      * exists [], tr. auto.
      * destruct (IH _ _ _ H) as (pre & post & -> & <- & <-).
        exists (GClient sid x :: pre), post. simpl. rewrite Nat.eqb_refl. auto.
    + destruct (IH _ _ _ H) as (pre & post & -> & <- & <-).
      exists (GClient i e :: pre), post. simpl.
      destruct (Nat.eqb_spec i sid); [contradiction|auto].
Qed.

(** Two decompositions of a list around the last element with a property. *)
Lemma last_split_unique : forall (A : Type) (P : A -> Prop) (a1 a2 : list A) x1 x2 m1 m2 c1 c2,
  a1 ++ x1 :: m1 ++ c1 = a2 ++ x2 :: m2 ++ c2 ->
  (length a1 + S (length m1) = length a2 + S (length m2))%nat ->
  P x1 -> P x2 -> (forall y, P y -> ~ In y m1) -> (forall y, P y -> ~ In y m2) ->
  a1 = a2 /\ x1 = x2 /\ m1 = m2 /\ c1 = c2.
Proof.
  intros A P a1. induction a1 as [|y a1 IH]; intros a2 x1 x2 m1 m2 c1 c2 E L P1 P2 N1 N2.
  - destruct a2 as [|z a2]; simpl in E; injection E as -> E.
    + simpl in L. assert (length m1 = length m2) as LM by lia.
      apply app_inj_len in E; [|exact LM]. destruct E as (-> & ->). auto.
    + exfalso. simpl in L. apply (N1 x2 P2).
      assert (LM : (length a2 < length m1)%nat) by lia.
      assert (nth_error m1 (length a2) = Some x2) as NE.
      { rewrite <- (nth_error_app1 m1 c1) by exact LM. rewrite E.
        rewrite nth_error_app2 by lia. rewrite Nat.sub_diag. reflexivity. }
      eapply nth_error_In. exact NE.
  - destruct a2 as [|z a2]; simpl in E; injection E as -> E.
    + exfalso. simpl in L. apply (N2 x1 P1).
      assert (LM : (length a1 < length m2)%nat) by lia.
      assert (nth_error m2 (length a1) = Some x1) as NE.
      { rewrite <- (nth_error_app1 m2 c2) by exact LM. rewrite <- E.
        rewrite nth_error_app2 by lia. rewrite Nat.sub_diag. reflexivity. }
      eapply nth_error_In. exact NE.
    + simpl in L. destruct (IH a2 x1 x2 m1 m2 c1 c2) as (-> & -> & -> & ->); auto; lia.
Qed.

Definition is_recv (ev : cevent) : Prop := exists d r, ev = CeRecv d r.

(** A computation determines its text. *)
Lemma computed_unique : forall ctr n t1 t2, computed ctr n t1 -> computed ctr n t2 -> t1 = t2.
Proof.
  intros ctr n t1 t2 C1 C2.
  destruct C1 as [pre d m r post b o u res s a E L NR W WL PT
                 |pre d0 cb u0 r0 s0 nonce mid d m r post b o u res s a E L NR WC W WL PT];
  destruct C2 as [pre' d' m' r' post' b' o' u' res' s' a' E' L' NR' W' WL' PT'
                 |pre' d0' cb' u0' r0' s0' nonce' mid' d' m' r' post' b' o' u' res' s' a' E' L' NR' WC' W' WL' PT'].
  - rewrite E in E'. apply app_inj_len in E'; [|congruence]. destruct E' as (-> & E').
    injection E' as <- <- <- <-. unfold wire in *. rewrite W in W'. injection W' as <-.
    destruct (wire_layout_unique _ _ _ _ _ _ _ _ _ _ _ WL WL') as (-> & -> & -> & -> & _).
    eapply protected_text_unique; eauto.
  - exfalso. rewrite E in E'. change (pre' ++ CeRecv d0' (RxBuf cb') :: mid' ++ CeSend d' m' r' :: post')
      with (pre' ++ (CeRecv d0' (RxBuf cb') :: mid') ++ CeSend d' m' r' :: post') in E'.
    rewrite app_assoc in E'. apply app_inj_len in E'.
    + destruct E' as (-> & _). eapply NR. apply in_or_app. right. left. reflexivity.
    + rewrite app_length. simpl. lia.
  - exfalso. rewrite E' in E. change (pre ++ CeRecv d0 (RxBuf cb) :: mid ++ CeSend d m r :: post)
      with (pre ++ (CeRecv d0 (RxBuf cb) :: mid) ++ CeSend d m r :: post) in E.
    rewrite app_assoc in E. apply app_inj_len in E.
    + destruct E as (-> & _). eapply NR'. apply in_or_app. right. left. reflexivity.
    + rewrite app_length. simpl. lia.
  - rewrite E in E'.
    apply (last_split_unique _ is_recv) in E'; try (unfold is_recv; eauto; fail); try lia.
    + destruct E' as (-> & E1 & -> & E2). injection E1 as <- <-. injection E2 as <- <- <- <-.
      unfold wire in *. rewrite W in W'. injection W' as <-.
      destruct (wire_layout_unique _ _ _ _ _ _ _ _ _ _ _ WL WL') as (-> & -> & -> & -> & _).
      destruct (wire_layout_unique _ _ _ _ _ _ _ _ _ _ _ WC WC') as (_ & _ & _ & _ & ->).
      eapply protected_text_unique; eauto.
    + intros y (d1 & r1 & ->) I. eapply NR; eauto.
    + intros y (d1 & r1 & ->) I. eapply NR'; eauto.
Qed.

Lemma computed_app : forall ctr l n t, computed ctr n t -> computed (ctr ++ l) n t.
Proof.
  intros ctr l n t C. destruct C as [pre d m r post b o u res s a E L NR W WL PT
                 |pre d0 cb u0 r0 s0 nonce mid d m r post b o u res s a E L NR WC W WL PT].
  - eapply computed_first with (post := post ++ l); eauto. rewrite E, <- app_assoc. reflexivity.
  - eapply computed_later with (post := post ++ l); eauto.
    rewrite E, <- app_assoc. simpl. rewrite <- app_assoc. reflexivity.
Qed.

Section System.

Variable mac : list byte -> list byte -> list byte.
Variable parse_ip : text -> option ip.
Variable conf : config.
Variable T : N.
Variable w : world.
Hypothesis mac_sized : forall x y, length (mac x y) = 32%nat /\ all_bytes (mac x y).
Hypothesis KS : keys_sized conf.
Hypothesis SC : forall cid, sane_identity (w_client w cid).

(** A response text that a client computed is for the client's own user and
    resource, and for the challenge it received before. *)
Lemma computed_response : forall tr cid n text user resource salt nonce,
  execution mac parse_ip conf T w tr ->
  computed (client_events cid tr) n text ->
  protected_text text Response user resource salt nonce ->
  kq_user (w_client w cid) = user /\ kq_resource (w_client w cid) = resource
  /\ exists pre d0 cb u0 r0 s0 os d m r post,
       client_events cid tr = pre ++ CeRecv d0 (RxBuf cb) :: CeRand 8 os :: CeSend d m r :: post
       /\ n = (length pre + 2)%nat
       /\ wire_layout cb Challenge u0 r0 s0 nonce.
Proof.
  intros tr cid n text user resource salt nonce EX C PT. destruct EX as (_ & EC).
  destruct (EC cid) as (p & R).
  destruct C as [pre d m r post b o u res s a E L NR W WL PT'
                 |pre d0 cb u0 r0 s0 nonce' mid d m r post b o u res s a E L NR WC W WL PT'].
  - destruct (protected_text_det _ _ _ _ _ _ _ _ _ _ _ PT PT') as (<- & _).
    exfalso.
    destruct (knock_sends mac parse_ip T mac_sized _ (SC cid) _ _ _ R _ _ _ _ _ E)
      as [(b' & W' & (s' & a' & t' & WL' & _) & _)
         |(b' & pre' & d' & cb & u9 & r9 & cs & nn & os & _ & -> & _)].
    + unfold wire in *. rewrite W in W'. injection W' as <-.
      destruct (wire_layout_unique _ _ _ _ _ _ _ _ _ _ _ WL WL') as (X & _). discriminate.
    + eapply NR. apply in_or_app. right. left. reflexivity.
  - destruct (protected_text_det _ _ _ _ _ _ _ _ _ _ _ PT PT') as (<- & <- & <- & <- & <-).
    assert (E2 : client_events cid tr = (pre ++ CeRecv d0 (RxBuf cb) :: mid) ++ CeSend d m r :: post).
    { rewrite E, <- app_assoc. reflexivity. }
    destruct (knock_sends mac parse_ip T mac_sized _ (SC cid) _ _ _ R _ _ _ _ _ E2)
      as [(b' & W' & _ & NR')
         |(b' & pre' & d' & cb' & u' & res' & cs & nn & os & W' & EP & WC' & (s' & a' & t' & WL' & _))].
    + exfalso. eapply NR'. apply in_or_app. right. left. reflexivity.
    + unfold wire in *. rewrite W in W'. injection W' as <-.
      destruct (wire_layout_unique _ _ _ _ _ _ _ _ _ _ _ WL WL') as (_ & -> & -> & _ & _).
      split; [reflexivity|]. split; [reflexivity|].
      assert (X : pre = pre' /\ CeRecv d0 (RxBuf cb) = CeRecv d' (RxBuf cb') /\ mid = [CeRand 8 os]).
      { replace (pre ++ CeRecv d0 (RxBuf cb) :: mid)
          with (pre ++ CeRecv d0 (RxBuf cb) :: mid ++ []) in EP by (rewrite app_nil_r; reflexivity).
        change ([CeRecv d' (RxBuf cb'); CeRand 8 os])
          with (CeRecv d' (RxBuf cb') :: [CeRand 8 os] ++ []) in EP.
        pose proof (f_equal (@length _) EP) as LE. rewrite !app_length in LE. simpl in LE.
        rewrite app_nil_r in LE.
        apply (last_split_unique _ is_recv) in EP; try (unfold is_recv; eauto; fail); try (simpl; lia).
        - destruct EP as (A1 & A2 & A3 & _). auto.
        - intros y (d1 & r1 & ->) I. eapply NR; eauto.
        - intros y (d1 & r1 & ->) [I|[]]. discriminate. }
      destruct X as (-> & X & ->). injection X as -> ->.
      exists pre', d', cb', u0, r0, s0, os, d, m, r, post.
      split; [exact E|]. split; [simpl in L; lia|exact WC].
Qed.

Lemma agreement : forall tr, execution mac parse_ip conf T w tr -> unforgeable mac conf w tr ->
  (forall sid, ip_address (w_peer w sid)) ->
  forall pre sid fm ok post, tr = pre ++ GServer sid (EvFwSend fm ok) :: post ->
  exists user key res_id r t nonce salt text cid n,
    In (user, key) (c_keys conf) /\ grants conf user res_id r
    /\ f_op fm = FwOpen /\ fw_addr fm = Some (w_peer w sid) /\ fw_port fm = Some (t, rs_port r)
    /\ covers_tcp t = rs_tcp r /\ covers_udp t = rs_udp r
    /\ session_nonce sid pre nonce
    /\ protected_text text Response user res_id salt nonce
    /\ kq_key (w_client w cid) = key /\ kq_user (w_client w cid) = user
    /\ kq_resource (w_client w cid) = res_id
    /\ computed (client_events cid pre) n text.
Proof.
  intros tr EX UF IP pre sid fm ok post E. pose proof EX as (ES & EC).
  destruct (ES sid) as (p & R).
  assert (E1 : server_events sid tr = server_events sid pre ++ EvFwSend fm ok :: server_events sid post).
  { rewrite E, server_events_app. simpl. rewrite Nat.eqb_refl. reflexivity. }
  destruct (request_facts mac conf (w_peer w sid) T KS _ _ _ _ _ _
              (runs mac conf (w_peer w sid) T KS _ _ R) E1)
    as (user & res_id & rs & pt & pre0 & A & B & G & PT & F & _).
  destruct (port_type_covers _ _ _ PT) as (CT & CU).
  destruct A as [key d1 kb ss nonce d2 chal d3 rb KI _ _ _ _ _ VR].
  destruct VR as (salt & auth & text & WL & PTX & ->).
  cbn [app] in B.
  destruct (server_events_split sid pre
              [EvRecv d1 (RxBuf kb); EvRand 8 (Some ss); EvRand 32 (Some nonce); EvSend d2 chal TxOk]
              (EvRecv d3 (RxBuf rb)) [EvFwConnect true] B) as (g1 & g2 & Eg & P1 & P2).
  assert (Et : tr = g1 ++ GServer sid (EvRecv d3 (RxBuf rb)) :: (g2 ++ GServer sid (EvFwSend fm ok) :: post)).
  { rewrite E, Eg, <- app_assoc. reflexivity. }
  assert (SN : session_nonce sid g1 nonce) by (red; rewrite P1; simpl; auto).
  destruct (UF _ _ _ _ _ _ _ _ _ _ _ Et KI SN WL PTX) as (cid & n & KE & C).
  assert (C' : computed (client_events cid pre) n text).
  { rewrite Eg, client_events_app. apply computed_app. exact C. }
  assert (C2 : computed (client_events cid tr) n text).
  { rewrite E, client_events_app. apply computed_app. exact C'. }
  destruct (computed_response _ _ _ _ _ _ _ _ EX C2 PTX) as (KU & KR & _).
  exists user, key, res_id, rs, pt, nonce, salt, text, cid, n.
  split; [exact KI|]. split; [exact G|]. subst fm.
  split; [unfold fw_new_open; destruct (addr_to_octets (w_peer w sid)); reflexivity|].
  split.
  { unfold fw_new_open, fw_addr. pose proof (octets_roundtrip _ (IP sid)) as O.
    destruct (addr_to_octets (w_peer w sid)) as [at_ oc]. cbn. f_equal. apply O. }
  split; [unfold fw_new_open; destruct (addr_to_octets (w_peer w sid)); reflexivity|].
  split; [exact CT|]. split; [exact CU|].
  split; [red; rewrite B; simpl; auto|].
  auto 10.
Qed.

Lemma unrelayed_address : forall tr, execution mac parse_ip conf T w tr ->
  unforgeable mac conf w tr -> unrelayed w tr -> (forall sid, ip_address (w_peer w sid)) ->
  forall pre sid fm ok post, tr = pre ++ GServer sid (EvFwSend fm ok) :: post ->
  exists user cid, In (user, kq_key (w_client w cid)) (c_keys conf)
    /\ kq_user (w_client w cid) = user /\ fw_addr fm = Some (w_home w cid).
Proof.
  intros tr EX UF UR IP pre sid fm ok post E. pose proof EX as (ES & EC).
  destruct (ES sid) as (p & R).
  assert (E1 : server_events sid tr = server_events sid pre ++ EvFwSend fm ok :: server_events sid post).
  { rewrite E, server_events_app. simpl. rewrite Nat.eqb_refl. reflexivity. }
  destruct (request_facts mac conf (w_peer w sid) T KS _ _ _ _ _ _
              (runs mac conf (w_peer w sid) T KS _ _ R) E1)
    as (user & res_id & rs & pt & pre0 & A & B & G & PT & F & _).
  destruct A as [key d1 kb ss nonce d2 chal d3 rb KI _ _ _ _ _ VR].
  destruct VR as (salt & auth & text & WL & PTX & ->).
  cbn [app] in B.
  destruct (server_events_split sid pre
              [EvRecv d1 (RxBuf kb); EvRand 8 (Some ss); EvRand 32 (Some nonce); EvSend d2 chal TxOk]
              (EvRecv d3 (RxBuf rb)) [EvFwConnect true] B) as (g1 & g2 & Eg & P1 & P2).
  assert (Et : tr = g1 ++ GServer sid (EvRecv d3 (RxBuf rb)) :: (g2 ++ GServer sid (EvFwSend fm ok) :: post)).
  { rewrite E, Eg, <- app_assoc. reflexivity. }
  assert (SN : session_nonce sid g1 nonce) by (red; rewrite P1; simpl; auto).
  destruct (UF _ _ _ _ _ _ _ _ _ _ _ Et KI SN WL PTX) as (cid & n & KE & C).
  pose proof (UR _ _ _ _ _ _ _ _ _ _ _ _ _ Et WL SN PTX C) as HA.
  assert (C2 : computed (client_events cid tr) n text).
  { rewrite Et, client_events_app. apply computed_app. exact C. }
  destruct (computed_response _ _ _ _ _ _ _ _ EX C2 PTX) as (KU & KR & _).
  exists user, cid. split; [rewrite KE; exact KI|]. split; [exact KU|]. rewrite HA. subst fm.
  unfold fw_new_open, fw_addr. pose proof (octets_roundtrip _ (IP sid)) as O.
  destruct (addr_to_octets (w_peer w sid)) as [at_ oc]. cbn. f_equal. apply O.
Qed.

Lemma injective : forall tr, distinct_nonces tr ->
  forall sid1 sid2 nonce1 nonce2 o1 o2 u1 u2 r1 r2 s1 s2 text1 text2 cid n,
  session_nonce sid1 tr nonce1 -> session_nonce sid2 tr nonce2 ->
  protected_text text1 o1 u1 r1 s1 nonce1 -> protected_text text2 o2 u2 r2 s2 nonce2 ->
  computed (client_events cid tr) n text1 -> computed (client_events cid tr) n text2 ->
  sid1 = sid2.
Proof.
  intros tr DN sid1 sid2 nonce1 nonce2 o1 o2 u1 u2 r1 r2 s1 s2 text1 text2 cid n N1 N2 P1 P2 C1 C2.
  assert (text1 = text2) as -> by (eapply computed_unique; eauto).
  destruct (protected_text_det _ _ _ _ _ _ _ _ _ _ _ P1 P2) as (_ & _ & _ & _ & <-).
  eapply DN; eauto.
Qed.

Lemma client_recv_between : forall cid a b pre d cb rest,
  client_events cid (a ++ b) = pre ++ CeRecv d (RxBuf cb) :: rest ->
  ~ In (CeRecv d (RxBuf cb)) (client_events cid a) ->
  exists pre', client_events cid b = pre' ++ CeRecv d (RxBuf cb) :: rest.
Proof.
  intros cid a b pre d cb rest E NI. rewrite client_events_app in E.
  revert pre E. induction (client_events cid a) as [|x l IH]; intros pre E; simpl in *.
  - eauto.
  - destruct pre as [|y pre]; simpl in E; injection E as -> E.
    + exfalso. apply NI. left. reflexivity.
    + apply (IH (fun I => NI (or_intror I)) _ E).
Qed.

Lemma recent : forall tr, execution mac parse_ip conf T w tr -> unforgeable mac conf w tr ->
  unpredictable tr ->
  forall pre sid fm ok post, tr = pre ++ GServer sid (EvFwSend fm ok) :: post ->
  exists user key res_id nonce cid before between d m r,
    In (user, key) (c_keys conf)
    /\ pre = before ++ GServer sid (EvRand 32 (Some nonce)) :: between
    /\ In (GClient cid (CeSend d m r)) between
    /\ kq_key (w_client w cid) = key /\ kq_user (w_client w cid) = user
    /\ kq_resource (w_client w cid) = res_id
    /\ exists b, wire m b /\ valid_response mac key user res_id nonce b.
Proof.
  intros tr EX UF UP pre sid fm ok post E. pose proof EX as (ES & EC).
  destruct (ES sid) as (p & R).
  assert (E1 : server_events sid tr = server_events sid pre ++ EvFwSend fm ok :: server_events sid post).
  { rewrite E, server_events_app. simpl. rewrite Nat.eqb_refl. reflexivity. }
  destruct (request_facts mac conf (w_peer w sid) T KS _ _ _ _ _ _
              (runs mac conf (w_peer w sid) T KS _ _ R) E1)
    as (user & res_id & rs & pt & pre0 & A & B & G & PT & F & _).
  destruct A as [key d1 kb ss nonce d2 chal d3 rb KI _ _ _ _ _ VR].
  destruct VR as (salt & auth & text & WL & PTX & ->).
  cbn [app] in B.
  destruct (server_events_split sid pre
              [EvRecv d1 (RxBuf kb); EvRand 8 (Some ss); EvRand 32 (Some nonce); EvSend d2 chal TxOk]
              (EvRecv d3 (RxBuf rb)) [EvFwConnect true] B) as (g1 & g2 & Eg & P1 & P2).
  destruct (server_events_split sid g1 [EvRecv d1 (RxBuf kb); EvRand 8 (Some ss)]
              (EvRand 32 (Some nonce)) [EvSend d2 chal TxOk] P1) as (h1 & h2 & Eh & Q1 & Q2).
  assert (Et : tr = g1 ++ GServer sid (EvRecv d3 (RxBuf rb)) :: (g2 ++ GServer sid (EvFwSend fm ok) :: post)).
  { rewrite E, Eg, <- app_assoc. reflexivity. }
  assert (SN : session_nonce sid g1 nonce) by (red; rewrite P1; simpl; auto).
  destruct (UF _ _ _ _ _ _ _ _ _ _ _ Et KI SN WL PTX) as (cid & n & KE & C).
  assert (EXg : execution mac parse_ip conf T w tr) by exact EX.
  (* the computation within g1 *)
  destruct C as [cpre d m r cpost b o u res s a Ec L NR W WLc PTc
                 |cpre d0 cb u0 r0 s0 nonce' mid d m r cpost b o u res s a Ec L NR WC W WLc PTc].
  - exfalso. destruct (protected_text_det _ _ _ _ _ _ _ _ _ _ _ PTX PTc) as (<- & _).
    destruct (EC cid) as (pc & RC).
    assert (E2 : client_events cid tr
                 = cpre ++ CeSend d m r :: (cpost ++ client_events cid (g2 ++ GServer sid (EvFwSend fm ok) :: post))).
    { rewrite Et, client_events_app. simpl. rewrite Ec, <- app_assoc. reflexivity. }
    destruct (knock_sends mac parse_ip T mac_sized _ (SC cid) _ _ _ RC _ _ _ _ _ E2)
      as [(b' & W' & (s' & a' & t' & WL' & _) & _)
         |(b' & pre' & d' & cb & u9 & r9 & cs & nn & os & _ & -> & _)].
    + unfold wire in *. rewrite W in W'. injection W' as <-.
      destruct (wire_layout_unique _ _ _ _ _ _ _ _ _ _ _ WLc WL') as (X & _). discriminate.
    + eapply NR. apply in_or_app. right. left. reflexivity.
  - destruct (protected_text_det _ _ _ _ _ _ _ _ _ _ _ PTX PTc) as (<- & <- & <- & <- & <-).
    destruct (EC cid) as (pc & RC).
    assert (Eh' : g1 = (h1 ++ [GServer sid (EvRand 32 (Some nonce))]) ++ h2)
      by (rewrite Eh, <- app_assoc; reflexivity).
    assert (NI : ~ In (CeRecv d0 (RxBuf cb)) (client_events cid (h1 ++ [GServer sid (EvRand 32 (Some nonce))]))).
    { rewrite client_events_app. simpl. rewrite app_nil_r. intro I.
      refine (UP h1 sid nonce _ _ cid d0 cb u0 r0 s0 I WC).
      rewrite Et, Eh, <- app_assoc. reflexivity. }
    rewrite Eh' in Ec. destruct (client_recv_between _ _ _ _ _ _ _ Ec NI) as (pre' & Eb).
    change (pre' ++ CeRecv d0 (RxBuf cb) :: mid ++ CeSend d m r :: cpost)
      with (pre' ++ (CeRecv d0 (RxBuf cb) :: mid) ++ CeSend d m r :: cpost) in Eb.
    rewrite app_assoc in Eb.
    destruct (client_events_split _ _ _ _ _ Eb) as (k1 & k2 & Ek & _).
    assert (E2 : client_events cid tr
                 = (cpre ++ CeRecv d0 (RxBuf cb) :: mid) ++ CeSend d m r
                   :: (cpost ++ client_events cid (g2 ++ GServer sid (EvFwSend fm ok) :: post))).
    { rewrite Et, client_events_app. simpl. rewrite Eh', Ec, <- !app_assoc. simpl.
      rewrite <- app_assoc. reflexivity. }
    assert (C2 : computed (client_events cid tr) n text).
    { eapply computed_later with (cb := cb); [rewrite E2, <- app_assoc; reflexivity|..]; eauto. }
    destruct (computed_response _ _ _ _ _ _ _ _ EX C2 PTX) as (KU & KR & _).
    exists user, key, res_id, nonce, cid, h1,
      (h2 ++ GServer sid (EvRecv d3 (RxBuf rb)) :: g2), d, m, r.
    split; [exact KI|].
    split; [rewrite Eg, Eh, <- app_assoc; reflexivity|].
    split; [apply in_or_app; left; rewrite Ek; apply in_or_app; right; left; reflexivity|].
    split; [exact KE|]. split; [exact KU|]. split; [exact KR|].
    destruct (knock_sends mac parse_ip T mac_sized _ (SC cid) _ _ _ RC _ _ _ _ _ E2)
      as [(b' & W' & _ & NR')
         |(b' & pre2 & d' & cb' & u' & res' & cs & nn & os & W' & EP & WC' & VR')].
    + exfalso. eapply NR'. apply in_or_app. right. left. reflexivity.
    + exists b'. split; [exact W'|].
      pose proof VR' as (s' & a' & t' & WL' & PT' & EA).
      unfold wire in *. rewrite W in W'. injection W' as <-.
      assert (nn = nonce) as <-.
      { assert (C3 : computed (client_events cid tr) n t').
        { assert (LE := f_equal (@length _) EP). rewrite !app_length in LE. simpl in LE.
          eapply computed_later with (pre := pre2) (cb := cb') (mid := [CeRand 8 os]).
          - rewrite E2, EP, <- app_assoc. reflexivity.
          - simpl. lia.
          - intros d9 r9 [I|[]]. discriminate.
          - exact WC'.
          - exact W.
          - exact WL'.
          - exact PT'. }
        pose proof (computed_unique _ _ _ _ C2 C3) as <-.
        destruct (protected_text_det _ _ _ _ _ _ _ _ _ _ _ PTX PT') as (_ & _ & _ & _ & X).
        symmetry. exact X. }
      rewrite KE, KU, KR in VR'. exact VR'.
Qed.

End System.
