(** One client, one server session and the firewall daemon with its kernel chain,
    connected by channels that lose nothing (S_Pair.v) and by the unix socket
    between the daemons.  The firewall daemon may have any history; maintenance,
    requests of other sessions and changes that other programs make to other
    chains happen at any time in between. *)

From Coq Require Import NArith List.
From Verif Require Import M_Base M_Proto M_IpAddr M_FwProto M_ConfTypes M_Server M_Client M_Firewall
  S_Wire S_Session S_Client S_Pair S_Firewall.
Import ListNotations.
Local Open Scope N_scope.

Record full := Full {
  fu_pair : pair;
  fu_daemon : daemon;
  fu_hist : hist;                 (* what the firewall daemon has done so far *)
  fu_request : list (list N);     (* on the way to letmeinfwd *)
  fu_reply : list (list N)        (* on the way to letmeind *)
}.

(** Client and server go on, but the server not at the firewall socket. *)
Definition away_from_socket (p p' : pair) : Prop :=
  match pr_server p with
  | SFwSend _ _ | SFwRecv _ => pr_server p' = pr_server p /\ pr_opened p' = pr_opened p
  | _ => True
  end.

(** Events that neither end the firewall daemon nor take its chain away: no
    shutdown, a rebuild that nft does not refuse, other programs do not delete
    the chain. *)
Definition undisturbed (c : chain_name) (ev : fw_event) : Prop :=
  match ev with
  | FwShutdown _ => False
  | FwMaintain _ _ _ _ _ rebuild_ok => rebuild_ok = true
  | FwExternal k => has_chain k c = true
  | FwMessage _ _ _ _ => True
  end.

(** One step; the number is 0 for what others do and 1 for this knock. *)
Inductive full_step (conf : config) (c : chain_name) : nat -> full -> full -> Prop :=
| fs_pair : forall p p' d h rq rp,
    pair_step p p' -> away_from_socket p p' ->
    full_step conf c 1 (Full p d h rq rp) (Full p' d h rq rp)
| fs_send : forall cl m k up dn op d h rq rp b,
    fw_serialize m = Ok b ->
    full_step conf c 1 (Full (Pair cl (SFwSend m k) up dn op) d h rq rp)
                       (Full (Pair cl (k true) up dn (op ++ [m])) d h (rq ++ [b]) rp)
| fs_handle : forall p d h b rq rp now d' m mb,
    fw_step conf d (FwMessage (FwRxBuf b) now true true) = Some (d', Some m) ->
    fw_serialize m = Ok mb ->
    full_step conf c 1 (Full p d h (b :: rq) rp)
              (Full p d' (h ++ [(FwMessage (FwRxBuf b) now true true, Some m)]) rq (rp ++ [mb]))
| fs_receive : forall cl k up dn op d h rq b rp,
    full_step conf c 1 (Full (Pair cl (SFwRecv k) up dn op) d h rq (b :: rp))
                       (Full (Pair cl (k (FwRxBuf b)) up dn op) d h rq rp)
| fs_other : forall p d h rq rp ev d' reply,
    event_ok c d ev -> undisturbed c ev -> fw_step conf d ev = Some (d', reply) ->
    full_step conf c 0 (Full p d h rq rp) (Full p d' (h ++ [(ev, reply)]) rq rp).

(** An execution with [n] steps of this knock. *)
Inductive full_steps (conf : config) (c : chain_name) : nat -> full -> full -> Prop :=
| fss_0 : forall s, full_steps conf c 0 s s
| fss_S : forall n i s s1 s2,
    full_steps conf c n s s1 -> full_step conf c i s1 s2 -> full_steps conf c (n + i) s s2.

(** The resource's port is open for the peer: after [h0], the firewall daemon has
    acknowledged a request, and unless a maintenance run has happened since at or
    after that time plus the lease time, packets of the peer to this port by a
    transport of the resource are accepted. *)
Definition port_open (conf : config) (c : chain_name) (h0 : hist) (peer : ip) (rs : resource)
           (s : full) : Prop :=
  exists pt t pre x post,
    fu_hist s = h0 ++ pre ++ x :: post /\ acked x t peer pt (rs_port rs)
    /\ ((forall now o1 o2 b1 b2 b3 reply,
           In (FwMaintain now o1 o2 b1 b2 b3, reply) post -> now < t + c_nft_timeout conf) ->
        forall pk, same_host peer (pk_src pk) -> ip_address (pk_src pk) ->
        pk_dport pk = rs_port rs ->
        match pk_transport pk with Tcp => rs_tcp rs | Udp => rs_udp rs end = true ->
        chain_accepts (d_kernel (fu_daemon s)) c pk).

(** The knock is over and was successful. *)
Definition finished (conf : config) (c : chain_name) (h0 : hist) (peer : ip) (rs : resource)
           (s : full) : Prop :=
  pr_client (fu_pair s) = CRet (Ok tt) /\ pr_server (fu_pair s) = SRet (Ok tt)
  /\ port_open conf c h0 peer rs s.
