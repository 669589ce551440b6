(** Properties of the client: C16, C17, C18, C19. *)

From Coq Require Import String NArith List Lia.
From Verif Require Import M_Base M_Proto M_IpAddr M_FwProto M_ConfTypes M_Server M_Client M_Sha3
  S_Wire S_Session S_Client P_Base P_Sha3 P_Client P_Exec P_CExec.
Import ListNotations.
Local Open Scope N_scope.

(** *** C16 *)

(** A knock that is reported as success consists of name lookups, one
    connection and the full exchange: own knock, challenge, own response to
    that challenge, ComeIn. *)
Theorem C16_success_means_full_handshake :
  forall mac parse_ip T q mode tr,
  (forall x y, length (mac x y) = 32%nat /\ all_bytes (mac x y)) ->
  sane_identity q ->
  attempt T (knock_sequence mac parse_ip q mode) tr (Ok tt) ->
  exists qs a ex,
    tr = map (query_event mode) qs
         ++ CeConnect (cp_tcp (kq_port q)) a (cp_port (kq_port q)) true :: ex
    /\ family_ok mode a
    /\ full_exchange mac (kq_key q) (kq_user q) (kq_resource q) ex.
Proof. exact (fun mac parse_ip T q mode tr MS SI => knock_success mac parse_ip T MS q SI mode tr). Qed.
Print Assumptions C16_success_means_full_handshake.

(** Whatever the client sends is either its authentic knock, before it has
    received anything, or an authentic response, for its own user and resource,
    to the challenge it has just received. *)
Theorem C16_only_own_messages :
  forall mac parse_ip T q mode tr p,
  (forall x y, length (mac x y) = 32%nat /\ all_bytes (mac x y)) ->
  sane_identity q ->
  crun T (knock_sequence mac parse_ip q mode) tr p ->
  forall pre d m r post, tr = pre ++ CeSend d m r :: post ->
  (exists b, wire m b /\ valid_knock mac (kq_key q) (kq_user q) (kq_resource q) b
             /\ (forall d' r', ~ In (CeRecv d' r') pre))
  \/ (exists b pre' d' cb u res cs nonce os, wire m b
        /\ pre = pre' ++ [CeRecv d' (RxBuf cb); CeRand 8 os]
        /\ wire_layout cb Challenge u res cs nonce
        /\ valid_response mac (kq_key q) (kq_user q) (kq_resource q) nonce b).
Proof.
  exact (fun mac parse_ip T q mode tr p MS SI => knock_sends mac parse_ip T MS q SI mode tr p).
Qed.
Print Assumptions C16_only_own_messages.

(** Anything but the expected message (GoAway, another operation, garbage, a
    disconnect, a timeout) ends the knock with an error at once. *)
Theorem C16_unexpected_is_an_error :
  forall mac parse_ip T q mode tr p,
  (forall x y, length (mac x y) = 32%nat /\ all_bytes (mac x y)) ->
  sane_identity q ->
  crun T (knock_sequence mac parse_ip q mode) tr p ->
  forall pre d r post, tr = pre ++ CeRecv d r :: post ->
  received (expected pre) r \/ (post = [] /\ exists e, p = CRet (Err e)).
Proof.
  exact (fun mac parse_ip T q mode tr p MS SI => knock_receives mac parse_ip T MS q SI mode tr p).
Qed.
Print Assumptions C16_unexpected_is_an_error.

(** No panic. *)
Theorem C16_never_panics :
  forall mac parse_ip T q mode tr p,
  (forall x y, length (mac x y) = 32%nat /\ all_bytes (mac x y)) ->
  sane_identity q ->
  crun T (knock_sequence mac parse_ip q mode) tr p ->
  one_transport (kq_port q) -> Forall c_good_random tr -> p <> CRet Panic.
Proof.
  exact (fun mac parse_ip T q mode tr p MS SI => knock_no_panic mac parse_ip T MS q SI mode tr p).
Qed.
Print Assumptions C16_never_panics.

Definition ex_q : knock_seq :=
  KnockSeq ex_host ex_srv ex_crypt (ControlPort 5800 true false) 7 3 ex_key.

Example C16_nonvacuous :
  (forall x y, length (hmac_sha3_256 x y) = 32%nat /\ all_bytes (hmac_sha3_256 x y))
  /\ sane_identity ex_q /\ one_transport (kq_port ex_q)
  /\ exists tr, attempt 10 (knock_sequence hmac_sha3_256 ex_parse_ip ex_q RmIpv4) tr (Ok tt)
                /\ Forall c_good_random tr.
Proof.
  split; [intros; apply hmac_ok|].
  split; [repeat split; vm_compute; reflexivity|]. split; [reflexivity|].
  eexists. split.
  - apply (cdrive_sound 10 (BLookup (Some [RA [192; 0; 2; 9]]) :: ex_exchange)).
    vm_compute. reflexivity.
  - repeat constructor; intros c H; vm_compute in H; injection H; intros; congruence.
Qed.

Example C16_goaway_is_an_error : exists tr e,
  attempt 10 (knock_sequence hmac_sha3_256 ex_parse_ip ex_q RmIpv4) tr (Err e).
Proof.
  eexists _, _. apply (cdrive_sound 10 (BLookup (Some [RA [192; 0; 2; 9]]) :: ex_refused)).
  vm_compute. reflexivity.
Qed.

(** *** C17 *)

(** With a loaded configuration (at least one transport) exactly one transport
    is selected, explicit options win (TCP over UDP), TCP is preferred if the
    configuration has it, and the port option replaces the configured port. *)
Theorem C17_one_transport : forall s conf,
  cp_tcp (c_port conf) = true \/ cp_udp (c_port conf) = true ->
  let cp := to_control_port s conf in
  one_transport cp
  /\ cp_port cp = match ks_port s with Some p => p | None => cp_port (c_port conf) end
  /\ (ks_tcp s = true -> cp_tcp cp = true)
  /\ (ks_tcp s = false -> ks_udp s = true -> cp_udp cp = true)
  /\ (ks_tcp s = false -> ks_udp s = false -> cp_tcp cp = cp_tcp (c_port conf)).
Proof. exact control_port_choice. Qed.
Print Assumptions C17_one_transport.

(** Every connection the client makes uses the selected transport and port. *)
Theorem C17_connects_as_selected :
  forall mac parse_ip T q mode tr p,
  (forall x y, length (mac x y) = 32%nat /\ all_bytes (mac x y)) ->
  sane_identity q ->
  crun T (knock_sequence mac parse_ip q mode) tr p ->
  forall tcp a port ok, In (CeConnect tcp a port ok) tr ->
  tcp = cp_tcp (kq_port q) /\ port = cp_port (kq_port q) /\ family_ok mode a
  /\ one_transport (kq_port q).
Proof.
  exact (fun mac parse_ip T q mode tr p MS SI => knock_connects mac parse_ip T MS q SI mode tr p).
Qed.
Print Assumptions C17_connects_as_selected.

Example C17_nonvacuous :
  to_control_port (KnockServer AmTryBoth None false false) (ex_conf PolAlways)
    = ControlPort 5800 true false
  /\ to_control_port (KnockServer AmTryBoth (Some 99) false true) (ex_conf PolAlways)
    = ControlPort 99 false true
  /\ to_control_port (KnockServer AmTryBoth None true true) (ex_conf PolAlways)
    = ControlPort 5800 true false.
Proof. repeat split. Qed.

(** *** C18 *)

(** The knock command either stops before any communication, because the user
    has no key or no resource with this port, or its outcome follows from the
    outcomes of the knocks per address family as [outcome] says. *)
Theorem C18_address_modes :
  forall mac parse_ip T conf host port ipv4 ipv6 tcp udp knock_port user srv crypt tr r,
  r <> Panic ->
  attempt T (run_knock mac parse_ip conf host
               (KnockServer (addr_mode_of ipv4 ipv6) port tcp udp) knock_port user srv crypt) tr r ->
  (tr = [] /\ (exists e, r = Err e)
   /\ let u := match user with Some u => u | None => c_default_user conf end in
      ((forall key, ~ In (u, key) (c_keys conf))
       \/ (forall id rs, In (id, rs) (c_resources conf) -> rs_port rs = knock_port ->
             ~ (rs_users rs = [] \/ In u (rs_users rs)))))
  \/ exists q, knock_for conf host knock_port user srv crypt q
      /\ kq_port q = to_control_port (KnockServer (addr_mode_of ipv4 ipv6) port tcp udp) conf
      /\ outcome T (knock_sequence mac parse_ip q RmIpv6) (knock_sequence mac parse_ip q RmIpv4)
           (parse_ip host) ipv4 ipv6 tr r.
Proof. exact run_knock_outcome. Qed.
Print Assumptions C18_address_modes.

(** A host name without options: IPv6 fails, IPv4 succeeds, success is
    reported; with both options the same is an error. *)
Example C18_one_family_suffices : exists tr,
  attempt 10 (ex_knock_prog ex_host false false) tr (Ok tt).
Proof.
  eexists. apply (cdrive_sound 10 (BLookup (Some [RA [192; 0; 2; 9]])
    :: BLookup (Some [RA [192; 0; 2; 9]]) :: ex_exchange)).
  vm_compute. reflexivity.
Qed.

Example C18_both_required : exists tr e,
  attempt 10 (ex_knock_prog ex_host true true) tr (Err e).
Proof.
  eexists _, _. apply (cdrive_sound 10 [BLookup (Some [RA [192; 0; 2; 9]])]).
  vm_compute. reflexivity.
Qed.

(** A literal IPv4 address is knocked only via IPv4. *)
Example C18_literal : exists tr,
  attempt 10 (ex_knock_prog ex_literal false false) tr (Ok tt) /\ length tr = 7%nat.
Proof.
  eexists. split; [apply (cdrive_sound 10 ex_exchange); vm_compute; reflexivity|reflexivity].
Qed.

(** *** C19 *)

(** Name resolution, whatever follows it ([k]): the services asked are a prefix
    of the preference list restricted to the enabled services; all but the last
    one failed; a literal address is never looked up; a delivered address has
    the requested family and is the literal, or the first matching record of the
    first successful lookup; an error means that the literal has the wrong
    family, or that the first successful lookup had no matching record, or that
    every enabled service failed. *)
Theorem C19_resolution : forall parse_ip T host cfg k tr p,
  crun T (resolve parse_ip host cfg k) tr p ->
  exists qs tr2, tr = map (query_event (rc_mode cfg)) qs ++ tr2
    /\ (forall a, parse_ip host = Some a -> qs = [])
    /\ (exists n, map fst qs = firstn n (filter (enabled (rc_srv cfg) (rc_crypt cfg)) preference))
    /\ (forall pre s r post, qs = pre ++ (s, r) :: post -> post <> [] -> r = None)
    /\ ((tr2 = [] /\ (exists s m k', p = CLookup s m k'))
        \/ exists r, crun T (k r) tr2 p /\ r <> Panic
           /\ (forall a, r = Ok a ->
                 family_ok (rc_mode cfg) a
                 /\ (parse_ip host = Some a
                     \/ (parse_ip host = None
                         /\ exists pre s x, qs = pre ++ [(s, Some x)]
                                            /\ first_record (rc_mode cfg) x a)))
           /\ (forall e, r = Err e ->
                 (exists a, parse_ip host = Some a /\ ~ family_ok (rc_mode cfg) a)
                 \/ (parse_ip host = None
                     /\ (exists pre s x, qs = pre ++ [(s, Some x)]
                                      /\ (forall a, ~ first_record (rc_mode cfg) x a)))
                 \/ (parse_ip host = None
                     /\ map fst qs = filter (enabled (rc_srv cfg) (rc_crypt cfg)) preference
                     /\ (forall q, In q qs -> snd q = None)))).
Proof. exact resolve_runs. Qed.
Print Assumptions C19_resolution.

(** An unencrypted public service is asked only if it is enabled, and only
    after every enabled service that is not unencrypted has been asked and has
    failed. *)
Theorem C19_unencrypted_last : forall parse_ip T host cfg k tr p,
  crun T (resolve parse_ip host cfg k) tr p ->
  exists qs tr2, tr = map (query_event (rc_mode cfg)) qs ++ tr2
    /\ (tr2 = [] \/ exists r, crun T (k r) tr2 p)
    /\ forall pre prov r post, qs = pre ++ (DnsPublic prov Unencrypted, r) :: post ->
         enabled (rc_srv cfg) (rc_crypt cfg) (DnsPublic prov Unencrypted) = true
         /\ forall s, enabled (rc_srv cfg) (rc_crypt cfg) s = true ->
              (forall prov', s <> DnsPublic prov' Unencrypted) -> In (s, None) pre.
Proof. exact unencrypted_last. Qed.
Print Assumptions C19_unencrypted_last.

Example C19_nonvacuous : exists tr r,
  attempt 10 (knock_sequence hmac_sha3_256 ex_parse_ip ex_q RmIpv4) tr r
  /\ nth_error tr 9 = Some (CeLookup (DnsPublic Cloudflare Unencrypted) RmIpv4 None)
  /\ length tr = 10%nat.
Proof.
  eexists _, _. split.
  - apply (cdrive_sound 10 (repeat (BLookup None) 10)). vm_compute. reflexivity.
  - split; reflexivity.
Qed.
