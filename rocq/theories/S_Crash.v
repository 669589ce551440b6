(** The life of a host: the firewall daemon is started, serves, ends or is killed at
    any point, and is started again, perhaps with a changed configuration.  The
    kernel's ruleset outlives the daemon. *)

From Coq Require Import String NArith List Bool Permutation.
From Verif Require Import M_Base M_IpAddr M_FwProto M_ConfTypes M_Server M_Text M_Firewall M_Listing
  S_Wire S_Ip S_Firewall S_Loss S_Listing.
Import ListNotations.
Local Open Scope N_scope.

(** No firewall daemon, or one that was started with [conf] and had the history [h]. *)
Inductive host :=
| Off (k : kernel)
| On (conf : config) (d : daemon) (h : hist).

(** A daemon that is gone: its configuration, what happened to it, and its phase at
    the end ([PhRun] unless a maintenance run had failed or it was shut down). *)
Record past := Past { ps_conf : config; ps_hist : hist; ps_phase : fw_phase }.

(** [c] is the chain of all configurations.  The list has the daemons that are gone,
    the newest first.  nft changes the ruleset in one piece or not at all, so a daemon
    that is killed while it handles an event has either not changed the ruleset yet
    ([hh_kill], nothing of the event is in its history) or has done all of it but told
    nobody ([hh_kill_amid], the history has no reply). *)
Inductive host_history (c : chain_name) : host -> list past -> Prop :=
| hh_boot : forall k, host_history c (Off k) []
| hh_others : forall k k' ps,
    host_history c (Off k) ps -> removes_only c k k' -> host_history c (Off k') ps
| hh_start : forall k ps conf exe_ok ok k' d,
    host_history c (Off k) ps -> configured_chain conf c ->
    fw_start conf k exe_ok ok = (k', Ok d) -> host_history c (On conf d []) ps
| hh_start_fails : forall k ps conf exe_ok ok k' e,
    host_history c (Off k) ps -> configured_chain conf c ->
    fw_start conf k exe_ok ok = (k', Err e) -> host_history c (Off k') ps
| hh_step : forall conf d h ps ev d' reply,
    host_history c (On conf d h) ps -> lossy_event c d ev -> fw_step conf d ev = Some (d', reply) ->
    host_history c (On conf d' (h ++ [(ev, reply)])) ps
| hh_maintain : forall conf d h ps listing k k2 now o1 o2 dok rok k' fw' r,
    host_history c (On conf d h) ps -> d_phase d = PhRun ->
    listing_of listing (d_kernel d) -> removes_only c (d_kernel d) k -> removes_only c k k2 ->
    (forall l, Permutation (o1 l) l) -> (forall l, Permutation (o2 l) l) ->
    maintain_listed conf listing k k2 (d_fw d) now o1 o2 dok rok = (k', fw', r) ->
    host_history c (On conf (Daemon k' fw' (next_phase r PhRun PhFatal))
                       (h ++ [(FwMaintain now o1 o2 (listed_ok listing) dok rok, None)])) ps
| hh_kill : forall conf d h ps,
    host_history c (On conf d h) ps ->
    host_history c (Off (d_kernel d)) (Past conf h (d_phase d) :: ps)
| hh_kill_amid : forall conf d h ps ev d' reply,
    host_history c (On conf d h) ps -> lossy_event c d ev -> fw_step conf d ev = Some (d', reply) ->
    host_history c (Off (d_kernel d')) (Past conf (h ++ [(ev, None)]) (d_phase d') :: ps).

(** A request that reached the daemon, acknowledged or not. *)
Definition requested (h : hist) (a : ip) (pt : port_type) (port : N) : Prop :=
  exists b t ok send_ok reply, In (FwMessage (FwRxBuf b) t ok send_ok, reply) h /\ asks b a pt port.

(** The same, with a lease time that was not over at any later maintenance run. *)
Definition live_request (conf : config) (h : hist) (a : ip) (pt : port_type) (port : N) : Prop :=
  exists pre b t ok send_ok reply post,
    h = pre ++ (FwMessage (FwRxBuf b) t ok send_ok, reply) :: post /\ asks b a pt port
    /\ forall now o1 o2 b1 b2 b3 reply',
       In (FwMaintain now o1 o2 b1 b2 b3, reply') post -> now < t + c_nft_timeout conf.
