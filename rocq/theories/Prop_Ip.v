(** Properties of the texts of IP addresses: C64. *)

From Coq Require Import String NArith List Bool Lia.
From Verif Require Import M_Base M_IpAddr M_ConfTypes M_Text M_Server M_Client M_IpParse M_Sha3
  S_Wire S_Client S_Ip P_Base P_Client P_Exec P_CExec P_IpParse P_IpFmt P_Literal Prop_Client.
Import ListNotations.
Local Open Scope N_scope.

(** *** The parser *)

(** A text is read as an address exactly if it denotes that address. *)
Theorem C64_parser_exact : forall t a, parse_ip_addr t = Some a <-> address_text t a.
Proof. exact parse_ip_addr_spec. Qed.
Print Assumptions C64_parser_exact.

(** A text denotes at most one address, and that has 4 or 16 bytes. *)
Theorem C64_text_denotes_one_address : forall t a, address_text t a ->
  ip_address a /\ forall b, address_text t b -> b = a.
Proof. intros t a D. split; [exact (address_text_octets t a D)|]. intros b E. exact (address_text_fun t b a E D). Qed.
Print Assumptions C64_text_denotes_one_address.

(** A printed address denotes the printed address.  Hence different addresses are
    printed differently, and printing and reading returns the address. *)
Theorem C64_printed_address_denotes_itself : forall a, ip_address a ->
  address_text (fmt_ip a) a
  /\ parse_ip_addr (fmt_ip a) = Some a
  /\ forall b, ip_address b -> fmt_ip b = fmt_ip a -> b = a.
Proof.
  intros a A. split; [exact (fmt_ip_denotes a A)|]. split; [exact (parse_fmt_ip a A)|].
  intros b B E. pose proof (parse_fmt_ip b B) as P. rewrite E, (parse_fmt_ip a A) in P. injection P as ->. reflexivity.
Qed.
Print Assumptions C64_printed_address_denotes_itself.

(** *** The client *)

(** A client that is given an address asks no name service, and connects to no
    other address, whatever happens. *)
Theorem C64_client_goes_to_the_given_address :
  forall mac T conf host server port user srv crypt tr p a,
  address_text host a ->
  crun T (run_knock mac parse_ip_addr conf host server port user srv crypt) tr p ->
  (forall s m r, ~ In (CeLookup s m r) tr)
  /\ (forall tcp b pt ok, In (CeConnect tcp b pt ok) tr -> b = a).
Proof.
  intros mac T conf host server port user srv crypt tr p a D R.
  exact (goes_to_run a T _ tr p R (literal_run_knock mac conf host server port user srv crypt a D)).
Qed.
Print Assumptions C64_client_goes_to_the_given_address.

(** A knock over the family of the address starts by connecting to it.  A knock
    over the other family does nothing and is reported as an error. *)
Theorem C64_knock_to_literal : forall mac T q mode a tr r,
  address_text (kq_addr q) a ->
  cp_udp (kq_port q) = negb (cp_tcp (kq_port q)) ->
  attempt T (knock_sequence mac parse_ip_addr q mode) tr r ->
  (family_ok mode a ->
     exists ok rest, tr = CeConnect (cp_tcp (kq_port q)) a (cp_port (kq_port q)) ok :: rest)
  /\ (~ family_ok mode a -> tr = [] /\ exists e, r = Err e).
Proof.
  intros mac T q mode a tr r D U R. split; intros F.
  - destruct (literal_first_step mac q mode a D F U) as (k & E). red in R. rewrite E in R.
    inversion R as [|? ? ? ? ? S R']; subst. inversion S; subst. eauto.
  - destruct (literal_wrong_family mac q mode a D F) as (e & E). red in R. rewrite E in R.
    apply crun_ret in R. destruct R as [-> [= ->]]. eauto.
Qed.
Print Assumptions C64_knock_to_literal.

(** Without a choice of the family, the family is that of the address.  With both
    families chosen, the command cannot succeed, and for an IPv4 address it does
    nothing at all. *)
Theorem C64_mode_of_literal : forall mac T q a tr r,
  address_text (kq_addr q) a ->
  (attempt T (run_modes mac parse_ip_addr q AmTryBoth) tr r ->
     exists mode, family_ok mode a /\ attempt T (knock_sequence mac parse_ip_addr q mode) tr r)
  /\ (attempt T (run_modes mac parse_ip_addr q AmBoth) tr r ->
        r <> Ok tt /\ ((exists o, a = V4 o) -> tr = [])).
Proof.
  intros mac T q a tr r D. pose proof (proj2 (parse_ip_addr_spec _ _) D) as P. split; unfold run_modes.
  - unfold is_ipv4_addr, is_ipv6_addr. rewrite P. destruct a as [o|o]; cbn [is_ipv4 is_ipv6]; intros R;
      [exists RmIpv4|exists RmIpv6]; (split; [exact I|exact R]).
  - intros R. destruct a as [o|o].
    + destruct (literal_wrong_family mac q RmIpv6 _ D (fun F => F)) as (e & E). red in R. unfold and_then in R. rewrite E in R.
      apply crun_ret in R. destruct R as [-> [= ->]]. split; [discriminate|reflexivity].
    + split; [|intros [o' [=]]]. intros ->. unfold and_then in R.
      destruct (literal_wrong_family mac q RmIpv4 _ D (fun F => F)) as (e & E). rewrite E in R. clear - R.
      red in R. revert R. generalize (knock_sequence mac parse_ip_addr q RmIpv6). intros p R.
      remember (cbind p (fun r => match r with Ok _ => CRet (Err e) | _ => CRet r end)) as x eqn:X.
      remember (CRet (Ok tt)) as y eqn:Y. revert p X Y. induction R as [x|x ev x1 tr y S R IH]; intros p X Y.
      * subst. destruct p as [[]| | | | |]; discriminate.
      * subst. destruct p as [[]|s m k|t b pt k|sz k|m k|k]; cbn [cbind] in S; inversion S; subst;
          (eapply IH; [reflexivity|reflexivity]).
Qed.
Print Assumptions C64_mode_of_literal.

(** The same for the command: without --ipv4 and --ipv6 an address as host means the
    option of its family.  With both options the command cannot succeed, and for an IPv4
    address it sends nothing. *)
Theorem C64_family_options : forall mac T conf host a p tcp udp port user srv crypt tr r,
  address_text host a ->
  let knock ipv4 ipv6 := run_knock mac parse_ip_addr conf host (KnockServer (addr_mode_of ipv4 ipv6) p tcp udp) port user srv crypt in
  let is_v4 := match a with V4 _ => true | V6 _ => false end in
  (attempt T (knock false false) tr r <-> attempt T (knock is_v4 (negb is_v4)) tr r)
  /\ (attempt T (knock true true) tr r -> r <> Ok tt /\ (is_v4 = true -> tr = [])).
Proof.
  intros mac T conf host a p tcp udp port user srv crypt tr r D. cbv zeta. unfold run_knock. cbn [ks_addr_mode].
  set (u := match user with Some u => u | None => c_default_user conf end).
  destruct (conf_key conf u) as [key|].
  2: { split; [reflexivity|]. intros R. apply crun_ret in R. destruct R as [-> [= ->]]. split; [discriminate|reflexivity]. }
  destruct (resource_id_by_port conf port (Some u)) as [resource|].
  2: { split; [reflexivity|]. intros R. apply crun_ret in R. destruct R as [-> [= ->]]. split; [discriminate|reflexivity]. }
  set (q := KnockSeq _ _ _ _ _ _ _). assert (Q : address_text (kq_addr q) a) by exact D. split.
  - pose proof (proj2 (parse_ip_addr_spec _ _) Q) as P. destruct a as [o|o]; cbn [negb addr_mode_of];
      unfold run_modes, is_ipv4_addr, is_ipv6_addr; rewrite P; reflexivity.
  - intros R. destruct (C64_mode_of_literal mac T q a tr r Q) as [_ B]. destruct (B R) as [N Z]. split; [exact N|].
    destruct a as [o|o]; [|discriminate]. intros _. apply Z. exists o. reflexivity.
Qed.
Print Assumptions C64_family_options.

(** *** Cases *)

Example C64_texts :
  address_text (lit "192.0.2.9") (V4 [192; 0; 2; 9])
  /\ address_text (lit "2001:db8::1") (V6 [32; 1; 13; 184; 0; 0; 0; 0; 0; 0; 0; 0; 0; 0; 0; 1])
  /\ address_text (lit "::") (V6 (repeat 0 16))
  /\ address_text (lit "::FFFF:1.2.3.4") (V6 [0; 0; 0; 0; 0; 0; 0; 0; 0; 0; 255; 255; 1; 2; 3; 4])
  /\ address_text (lit "1:2:3:4:5:6:7:8") (V6 [0; 1; 0; 2; 0; 3; 0; 4; 0; 5; 0; 6; 0; 7; 0; 8])
  /\ (forall a, ~ address_text (lit "1.2.3.04") a)
  /\ (forall a, ~ address_text (lit "1.2.3.256") a)
  /\ (forall a, ~ address_text (lit "1.2.3") a)
  /\ (forall a, ~ address_text (lit "1:::2") a)
  /\ (forall a, ~ address_text (lit "1::2::3") a)
  /\ (forall a, ~ address_text (lit "12345::") a)
  /\ (forall a, ~ address_text (lit "[::1]") a)
  /\ (forall a, ~ address_text (lit "fe80::1%eth0") a)
  /\ (forall a, ~ address_text (lit "server.example") a).
Proof.
  repeat split; intros; try intros D;
    first [apply C64_parser_exact; vm_compute; reflexivity|apply C64_parser_exact in D; vm_compute in D; discriminate D].
Qed.

(** The client of the examples, with an address as its host. *)
Definition literal_q : knock_seq :=
  KnockSeq (lit "192.0.2.9") (kq_srv ex_q) (kq_crypt ex_q) (kq_port ex_q) (kq_user ex_q) (kq_resource ex_q) (kq_key ex_q).

Example C64_witness :
  address_text (kq_addr literal_q) (V4 [192; 0; 2; 9])
  /\ cp_udp (kq_port literal_q) = negb (cp_tcp (kq_port literal_q))
  /\ exists tr, attempt 10 (run_modes hmac_sha3_256 parse_ip_addr literal_q AmTryBoth) tr (Err "Connect to server"%string).
Proof.
  split; [apply C64_parser_exact; vm_compute; reflexivity|]. split; [reflexivity|].
  eexists. apply (cdrive_sound 10 [BConnect false]). vm_compute. reflexivity.
Qed.
