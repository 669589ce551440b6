(** What the success of a knock means: C95. *)

From Coq Require Import String NArith List Lia.
From Verif Require Import M_Base M_Proto M_IpAddr M_FwProto M_ConfTypes M_Server M_Client M_Firewall
  M_IpParse M_Sha3 S_Wire S_Ip S_Session S_Client S_System S_Firewall S_Whole S_Truth
  P_Base P_Sha3 P_IpParse P_Exec P_CExec P_Relay P_Whole P_Truth
  Prop_System Prop_Firewall Prop_Whole.
Import ListNotations.
Local Open Scope N_scope.

(** *** C95 *)

(** The full claim: when a client has reported success, what it knocked for has been
    opened for its address.  It is false, although nobody can forge messages of key
    holders: ComeIn is not authenticated, so anybody who sits between client and
    server can send it. *)
Theorem C95_success_means_open_refuted :
  ~ (forall mac parse_ip conf_s conf_f T w c,
     keys_sized conf_s -> (forall sid, ip_address (w_peer w sid)) ->
     forall tr d, whole mac parse_ip conf_s conf_f T w c tr d ->
     clock_monotone (fw_events tr) -> serving d ->
     unforgeable mac conf_s w (net_events tr) -> unrelayed w (net_events tr) ->
     distinct_nonces (net_events tr) -> unpredictable (net_events tr) ->
     forall cid, sane_identity (w_client w cid) ->
     client_succeeded mac parse_ip T w cid (net_events tr) ->
     exists rs before conn ev after t pt,
       tr = before ++ WFw conn ev (Some fw_new_ack) :: after
       /\ acked (ev, Some fw_new_ack) t (w_home w cid) pt (rs_port rs)
       /\ grants conf_s (kq_user (w_client w cid)) (kq_resource (w_client w cid)) rs).
Proof.
  intros CLAIM.
  assert (ip_address relay_addr) as IA by (split; [reflexivity|apply bytes_ok_spec; reflexivity]).
  assert (forall sid l, server_events sid (map (GClient 0) l) = []) as NSS by (induction l; auto).
  assert (forall sid ev pre post l, map (GClient 0) l <> pre ++ GServer sid ev :: post) as NE.
  { intros sid ev pre post l E. assert (In (GServer sid ev) (map (GClient 0) l)) as I
      by (rewrite E; apply in_or_app; right; left; reflexivity).
    apply in_map_iff in I. destruct I as (x & X & _). discriminate X. }
  assert (forall l, net_events (map WNet l) = l) as NN by (induction l; simpl; congruence).
  assert (forall l, fw_events (map WNet l) = []) as FF by (induction l; auto).
  assert (client_events 0 (map (GClient 0) relay_cl) = relay_cl) as CC by reflexivity.
  destruct (CLAIM hmac_sha3_256 ex_parse_ip (P_Exec.ex_conf PolAlways) Prop_Firewall.ex_conf 10
              ex_world ex_chain (proj1 (proj2 (proj2 (proj2 (proj2 C47_witness))))) (fun _ => IA)
              (map WNet (map (GClient 0) relay_cl)) ex_start)
    with (cid := 0%nat) as (rs & before & conn & ev & after & t & pt & E & _).
  - constructor.
    + rewrite NN. split.
      * intro sid. rewrite NSS. eexists. apply sr_nil.
      * intros [|cid].
        -- rewrite CC. eexists. apply (cdrive_sound 10 ex_exchange). vm_compute. reflexivity.
        -- assert (client_events (S cid) (map (GClient 0) relay_cl) = []) as -> by reflexivity.
           eexists. apply cr_nil.
    + rewrite FF. exact ex_history0.
    + split; intros; exfalso.
      * assert (In (WFw conn (FwMessage (FwRxBuf b) t ok send_ok) reply) (map WNet (map (GClient 0) relay_cl)))
          as I by (rewrite H; apply in_or_app; right; left; reflexivity).
        apply in_map_iff in I. destruct I as (x & X & _). discriminate X.
      * apply (f_equal net_events) in H. rewrite NN, net_events_app in H. exact (NE _ _ _ _ _ H).
  - rewrite FF. intros p x q y r t u E. destruct p; discriminate E.
  - left. reflexivity.
  - rewrite NN. intros pre sid d b post user key resource nonce salt text E. destruct (NE _ _ _ _ _ E).
  - rewrite NN. intros pre sid d b post user resource salt auth nonce text cid n E. destruct (NE _ _ _ _ _ E).
  - rewrite NN. intros s1 s2 nonce I. unfold session_nonce in I. rewrite NSS in I. destruct I.
  - rewrite NN. intros pre sid nonce post E. destruct (NE _ _ _ _ _ E).
  - repeat split; reflexivity.
  - rewrite NN. unfold client_succeeded. rewrite CC.
    apply (cdrive_sound 10 ex_exchange). vm_compute. reflexivity.
  - assert (In (WFw conn ev (Some fw_new_ack)) (map WNet (map (GClient 0) relay_cl)))
      as I by (rewrite E; apply in_or_app; right; left; reflexivity).
    apply in_map_iff in I. destruct I as (x & X & _). discriminate X.
Qed.
Print Assumptions C95_success_means_open_refuted.

(** What is true: if the client and a session talk to each other undisturbed, then the
    client's success means that the firewall daemon has acknowledged, to this session,
    the opening of a resource that the server's configuration grants for the user and
    resource numbers the client knocked with, for the client's own address, and the
    packets from there are accepted until the lease expires.  Missing: the case of
    somebody in between, for whom the claim is false. *)
Theorem C95_success_means_open_partial :
  forall mac parse_ip conf_s conf_f T w c,
  (forall x y, length (mac x y) = 32%nat /\ all_bytes (mac x y)) ->
  keys_sized conf_s -> (forall sid, ip_address (w_peer w sid)) ->
  forall tr d, whole mac parse_ip conf_s conf_f T w c tr d ->
  clock_monotone (fw_events tr) -> serving d ->
  forall cid sid, sane_identity (w_client w cid) ->
  connected w cid sid (net_events tr) -> client_succeeded mac parse_ip T w cid (net_events tr) ->
  exists rs before ev after t pt,
    tr = before ++ WFw (Some sid) ev (Some fw_new_ack) :: after
    /\ acked (ev, Some fw_new_ack) t (w_home w cid) pt (rs_port rs)
    /\ grants conf_s (kq_user (w_client w cid)) (kq_resource (w_client w cid)) rs
    /\ (not_expired conf_f t (fw_events after) ->
        forall pk, same_host (w_home w cid) (pk_src pk) -> ip_address (pk_src pk) ->
        resource_covers rs pk -> chain_accepts (d_kernel d) c pk).
Proof. exact success_open. Qed.
Print Assumptions C95_success_means_open_partial.

(** The execution of Prop_Whole.v: client and session at the same address. *)
Example C95_witness : connected ex_world 0 0 (net_events whole_tr)
  /\ client_succeeded hmac_sha3_256 ex_parse_ip 10 ex_world 0 (net_events whole_tr)
  /\ serving whole_end /\ sane_identity (w_client ex_world 0).
Proof.
  split; [|split; [|split; [left; vm_compute; reflexivity|repeat split; reflexivity]]].
  - split; [reflexivity|]. split.
    + intros pre d b post E. apply split_nth in E. destruct E as (n & N & ->).
      change (net_events whole_tr) with relay_tr in *.
      do 7 (destruct n as [|n]; [discriminate N|]).
      destruct n as [|n].
      { cbn in N. injection N as <- <-. eexists _, _, _. split; [cbn; do 6 right; left; reflexivity|].
        vm_compute. reflexivity. }
      do 8 (destruct n as [|n]; [discriminate N|]).
      destruct n as [|n].
      { cbn in N. injection N as <- <-. eexists _, _, _. split; [cbn; do 15 right; left; reflexivity|].
        vm_compute. reflexivity. }
      do 3 (destruct n as [|n]; [discriminate N|]). destruct n; discriminate N.
    + intros pre d b post E. apply split_nth in E. destruct E as (n & N & ->).
      change (net_events whole_tr) with relay_tr in *.
      do 3 (destruct n as [|n]; [discriminate N|]).
      destruct n as [|n].
      { cbn in N. injection N as <- <-. eexists _, _, _. split; [cbn; do 2 right; left; reflexivity|].
        vm_compute. reflexivity. }
      do 6 (destruct n as [|n]; [discriminate N|]).
      destruct n as [|n].
      { cbn in N. injection N as <- <-. eexists _, _, _. split; [cbn; do 9 right; left; reflexivity|].
        vm_compute. reflexivity. }
      do 9 (destruct n as [|n]; [discriminate N|]). destruct n; discriminate N.
  - unfold client_succeeded. change (net_events whole_tr) with relay_tr. rewrite relay_proj_c.
    apply (cdrive_sound 10 ex_exchange). vm_compute. reflexivity.
Qed.
