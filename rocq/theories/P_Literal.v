(** Proofs about a client that is given the address of its server as text. *)

From Coq Require Import String NArith List Bool Lia.
From Verif Require Import M_Base M_Proto M_IpAddr M_ConfTypes M_Server M_Client M_IpParse
  S_Wire S_Text S_Client S_Ip P_Base P_Client P_IpParse.
Import ListNotations.
Local Open Scope N_scope.

(** *** What a program may do to the network before it talks to the server *)

Fixpoint goes_to (a : ip) (p : cprog) : Prop :=
  match p with
  | CRet _ => True
  | CLookup _ _ _ => False
  | CConnect _ b _ k => b = a /\ forall ok, goes_to a (k ok)
  | CRand _ k => forall os, goes_to a (k os)
  | CSend _ k => forall r, goes_to a (k r)
  | CRecv k => forall r, goes_to a (k r)
  end.

Lemma goes_to_run : forall a T p tr p', crun T p tr p' -> goes_to a p ->
  (forall s m r, ~ In (CeLookup s m r) tr)
  /\ (forall tcp b port ok, In (CeConnect tcp b port ok) tr -> b = a).
Proof.
  intros a T p tr p' R. induction R as [p|p ev p1 tr p' S R IH]; intros G; [split; intros * []|].
  assert (G1 : goes_to a p1) by (inversion S; subst; simpl in G; try contradiction; apply G).
  destruct (IH G1) as [L C]. split.
  - intros s m r [->|I]; [|exact (L _ _ _ I)]. inversion S; subst. exact G.
  - intros tcp b port ok [->|I]; [|exact (C _ _ _ _ I)]. inversion S; subst. apply G.
Qed.

Lemma goes_to_cbind : forall a f p, goes_to a p -> (forall r, goes_to a (f r)) -> goes_to a (cbind p f).
Proof.
  intros a f. induction p as [[]|s m k IH|t b port k IH|sz k IH|m k IH|k IH]; intros A F; simpl in *; auto; try contradiction.
  destruct A as [-> A]. split; [reflexivity|]. intros ok. apply IH; [apply A|exact F].
Qed.

Lemma literal_resolve : forall host a cfg k, address_text host a ->
  (family_ok (rc_mode cfg) a /\ resolve parse_ip_addr host cfg k = k (Ok a))
  \/ (~ family_ok (rc_mode cfg) a /\ exists e, resolve parse_ip_addr host cfg k = k (Err e)).
Proof.
  intros host a cfg k D. apply parse_ip_addr_spec in D. unfold resolve. rewrite D.
  destruct (rc_mode cfg), a as [o|o]; cbn; eauto 6; try (right; split; [tauto|eauto]); left; split; auto.
Qed.

Lemma literal_knock : forall mac q mode a, address_text (kq_addr q) a -> goes_to a (knock_sequence mac parse_ip_addr q mode).
Proof.
  intros mac q mode a D. unfold knock_sequence, client_new.
  match goal with |- goes_to _ (resolve _ _ ?c ?k) => destruct (literal_resolve _ _ c k D) as [[_ ->]|(_ & e & ->)] end.
  2: exact Logic.I.
  assert (MSG : forall o u r k, (forall m, goes_to a (k m)) -> goes_to a (client_msg o u r k)).
  { intros o u r k K. unfold client_msg. simpl. intros os. destruct (msg_new o u r os); simpl; auto. }
  assert (UN : forall (r : res message) k, (forall m, goes_to a (k m)) -> goes_to a (unres r k)).
  { intros r k K. destruct r; simpl; auto. }
  assert (SN : forall m k, goes_to a k -> goes_to a (client_send m k)).
  { intros m k K. simpl. intros [| |]; simpl; auto. }
  assert (RC : forall e k, (forall m, goes_to a (k m)) -> goes_to a (recv_specific e k)).
  { intros e k K. simpl. intros [| | |b]; simpl; auto. destruct (decode_rx b) as [m| |]; simpl; auto.
    destruct (op_eqb (m_op m) GoAway); simpl; auto. destruct (negb _); simpl; auto. }
  assert (B : goes_to a (client_msg Knock (kq_user q) (kq_resource q) (fun m =>
          unres (generate_auth_no_challenge mac m (kq_key q)) (fun knock =>
            client_send knock
              (recv_specific Challenge (fun challenge =>
                client_msg Response (kq_user q) (kq_resource q) (fun m2 =>
                  unres (generate_auth mac m2 (kq_key q) challenge) (fun response =>
                    client_send response
                      (recv_specific ComeIn (fun comein => CRet (Ok tt))))))))))).
  { apply MSG. intros m. apply UN. intros kn. apply SN. apply RC. intros ch. apply MSG. intros m2. apply UN. intros rs. apply SN.
    apply RC. intros ci. exact Logic.I. }
  destruct (cp_tcp (kq_port q)).
  - destruct (cp_udp (kq_port q)); [exact Logic.I|]. split; [reflexivity|]. intros [|]; [exact B|exact Logic.I].
  - destruct (negb (cp_udp (kq_port q))); [exact Logic.I|]. split; [reflexivity|]. intros [|]; [exact B|exact Logic.I].
Qed.

Lemma literal_modes : forall mac q am a, address_text (kq_addr q) a -> goes_to a (run_modes mac parse_ip_addr q am).
Proof.
  intros mac q am a D. pose proof (fun m => literal_knock mac q m a D) as K. unfold run_modes. destruct am; try apply K.
  - destruct (is_ipv4_addr _ _); [apply K|]. destruct (is_ipv6_addr _ _); [apply K|].
    apply goes_to_cbind; [apply K|intros r6]. apply goes_to_cbind; [apply K|intros r4]. destruct r6, r4; exact Logic.I.
  - unfold and_then. apply goes_to_cbind; [apply K|]. intros [r|e|]; [apply K|exact Logic.I|exact Logic.I].
Qed.

Lemma literal_run_knock : forall mac conf host server port user srv crypt a, address_text host a ->
  goes_to a (run_knock mac parse_ip_addr conf host server port user srv crypt).
Proof.
  intros mac conf host server port user srv crypt a D. unfold run_knock.
  destruct (conf_key conf _); [|exact Logic.I]. destruct (resource_id_by_port conf port _); [|exact Logic.I].
  apply literal_modes. exact D.
Qed.

(** *** The address modes *)

Lemma literal_wrong_family : forall mac q mode a, address_text (kq_addr q) a -> ~ family_ok mode a ->
  exists e, knock_sequence mac parse_ip_addr q mode = CRet (Err e).
Proof.
  intros mac q mode a D F. unfold knock_sequence, client_new.
  match goal with |- context [resolve _ _ ?c ?k] => destruct (literal_resolve _ _ c k D) as [[G _]|(_ & e & ->)] end.
  - contradiction.
  - eauto.
Qed.

Lemma literal_first_step : forall mac q mode a, address_text (kq_addr q) a -> family_ok mode a ->
  cp_udp (kq_port q) = negb (cp_tcp (kq_port q)) ->
  exists k, knock_sequence mac parse_ip_addr q mode = CConnect (cp_tcp (kq_port q)) a (cp_port (kq_port q)) k.
Proof.
  intros mac q mode a D F U. unfold knock_sequence, client_new.
  match goal with |- context [resolve _ _ ?c ?k] => destruct (literal_resolve _ _ c k D) as [[_ ->]|(G & _)] end.
  - rewrite U. destruct (cp_tcp (kq_port q)); cbn [negb]; eauto.
  - contradiction.
Qed.

Lemma crun_ret : forall T r tr p, crun T (CRet r) tr p -> tr = [] /\ p = CRet r.
Proof. intros T r tr p R. inversion R as [|? ? ? ? ? S]; subst; [auto|inversion S]. Qed.

Lemma address_text_octets : forall t a, address_text t a -> ip_address a.
Proof.
  intros t [o|o] D; cbn in *.
  - destruct D as (a & b & c & d & w & x & y & z & _ & -> & (_ & _ & A & _) & (_ & _ & B & _) & (_ & _ & C & _) & (_ & _ & E & _)).
    split; [reflexivity|]. intros v [<-|[<-|[<-|[<-|[]]]]]; assumption.
  - destruct D as (vs & E & ->).
    assert (L : length vs = 8%nat) by (destruct E as [|? ? ? ? ? ? ? ? EQ]; [assumption|rewrite !app_length, repeat_length; lia]).
    split.
    + explode L. reflexivity.
    + assert (GV : forall u v, group_text u v -> v < 65536).
      { intros u v [Ln ND]. eapply N.lt_le_trans; [apply (numeral_bound _ _ _ ND); lia|].
        change 65536 with (16 ^ 4). apply N.pow_le_mono_r; lia. }
      assert (GS : forall b u us, groups b u us -> forall v, In v us -> v < 65536).
      { intros b u us G. induction G as [u v G|u a b' c d _ (s1 & s2 & s3 & s4 & w & x & y & z & _ & EQ & (_ & _ & A & _) & (_ & _ & B & _) & (_ & _ & C & _) & (_ & _ & D & _))|u v r us G _ IH]; intros v' I.
        - destruct I as [<-|[]]. eauto.
        - injection EQ as -> -> -> ->. destruct I as [<-|[<-|[]]]; lia.
        - destruct I as [<-|I]; eauto. }
      assert (V : forall v, In v vs -> v < 65536).
      { destruct E as [u us G _|l vl r vr n Hl Hr _ _]; [eauto|]. intros v I. rewrite !in_app_iff in I. destruct I as [I|[I|I]].
        - destruct Hl as [[-> ->]|G]; [destruct I|eauto].
        - apply repeat_spec in I. subst. lia.
        - destruct Hr as [[-> ->]|G]; [destruct I|eauto]. }
      intros x I. apply in_flat_map in I. destruct I as (v & I & [<-|[<-|[]]]).
      * apply N.div_lt_upper_bound; [lia|]. specialize (V v I). lia.
      * apply N.mod_lt. lia.
Qed.
