(** One client and one server session connected by channels that lose nothing,
    with working name resolution, random generator, timers and firewall daemon. *)

From Coq Require Import NArith List.
From Verif Require Import M_Base M_Proto M_IpAddr M_FwProto M_ConfTypes M_Server M_Client
  S_Wire S_Session S_Client.
Import ListNotations.
Local Open Scope N_scope.

Record pair := Pair {
  pr_client : cprog;
  pr_server : sprog;
  pr_up : list (list N);          (* on the way to the server *)
  pr_down : list (list N);        (* on the way to the client *)
  pr_opened : list fw_message     (* requests the firewall daemon received *)
}.

(** Output of a working generator. *)
Definition good_bytes (sz : nat) (b : list N) : Prop :=
  length b = sz /\ all_bytes b /\ forall c, b <> repeat c sz.

Inductive pair_step : pair -> pair -> Prop :=
| ps_lookup : forall s mode k p up dn op l a,
    lookup_typed (Some l) -> first_record mode l a ->
    pair_step (Pair (CLookup s mode k) p up dn op) (Pair (k (Some l)) p up dn op)
| ps_connect : forall tcp a port k p up dn op,
    pair_step (Pair (CConnect tcp a port k) p up dn op) (Pair (k true) p up dn op)
| ps_crand : forall sz k p up dn op b, good_bytes sz b ->
    pair_step (Pair (CRand sz k) p up dn op) (Pair (k (Some b)) p up dn op)
| ps_csend : forall m k p up dn op b, wire m b ->
    pair_step (Pair (CSend m k) p up dn op) (Pair (k TxOk) p (up ++ [b]) dn op)
| ps_crecv : forall k p up b dn op,
    pair_step (Pair (CRecv k) p up (b :: dn) op) (Pair (k (RxBuf b)) p up dn op)
| ps_srecv : forall c k b up dn op,
    pair_step (Pair c (SRecv k) (b :: up) dn op) (Pair c (k (RxBuf b)) up dn op)
| ps_ssend : forall c m k up dn op b, wire m b ->
    pair_step (Pair c (SSend m k) up dn op) (Pair c (k TxOk) up (dn ++ [b]) op)
| ps_srand : forall c sz k up dn op b, good_bytes sz b ->
    pair_step (Pair c (SRand sz k) up dn op) (Pair c (k (Some b)) up dn op)
| ps_fwconnect : forall c k up dn op,
    pair_step (Pair c (SFwConnect k) up dn op) (Pair c (k true) up dn op)
| ps_fwsend : forall c m k up dn op,
    pair_step (Pair c (SFwSend m k) up dn op) (Pair c (k true) up dn (op ++ [m]))
| ps_fwack : forall c k up dn op b,
    fw_serialize fw_new_ack = Ok b ->
    pair_step (Pair c (SFwRecv k) up dn op) (Pair c (k (FwRxBuf b)) up dn op).

(** [n] steps. *)
Inductive pair_steps : nat -> pair -> pair -> Prop :=
| pss_0 : forall s, pair_steps 0 s s
| pss_S : forall n s s1 s2, pair_step s s1 -> pair_steps n s1 s2 -> pair_steps (S n) s s2.

(** Client and server agree about this knock: user, key, resource, port. *)
Record agree (cc sc : config) (host : list N) (parse_ip : list N -> option ip)
       (mode : res_mode) (srv : res_srv) (crypt : res_crypt)
       (user : N) (key : list N) (res_id : N) (port : N) (rs : resource) : Prop := {
  ag_ids : user < 2 ^ 32 /\ res_id < 2 ^ 32;
  ag_key : length key = 32%nat /\ all_bytes key;
  (* the client's configuration *)
  ag_ckey : In (user, key) (c_keys cc);
  ag_ckeys : NoDup (map fst (c_keys cc));
  ag_cres : exists crs, In (res_id, crs) (c_resources cc) /\ rs_port crs = port
                        /\ (rs_users crs = [] \/ In user (rs_users crs));
  ag_cports : NoDup (map (fun x => rs_port (snd x)) (c_resources cc));
  ag_ctransport : cp_tcp (c_port cc) = true \/ cp_udp (c_port cc) = true;
  (* the server's configuration *)
  ag_skey : In (user, key) (c_keys sc);
  ag_skeys : NoDup (map fst (c_keys sc));
  ag_sres : In (res_id, rs) (c_resources sc);
  ag_sress : NoDup (map fst (c_resources sc));
  ag_sport : rs_port rs = port;
  ag_suser : rs_users rs = [] \/ In user (rs_users rs);
  ag_scontrol : port <> cp_port (c_port sc);
  ag_stransport : rs_tcp rs = true \/ rs_udp rs = true;
  (* the host can be resolved *)
  ag_host : (exists a, parse_ip host = Some a /\ family_ok mode a)
            \/ (parse_ip host = None /\ exists s, enabled srv crypt s = true)
}.
