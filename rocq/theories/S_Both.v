(** One client command and the sessions that letmeind opens for it, in a network
    where IPv6 and IPv4 each work or not.  As in S_Pair.v, what works loses
    nothing, and random generator, timers and firewall daemon work. *)

From Coq Require Import NArith List Bool.
From Verif Require Import M_Base M_Proto M_IpAddr M_FwProto M_ConfTypes M_Server M_Client
  S_Wire S_Session S_Client S_Pair.
Import ListNotations.
Local Open Scope N_scope.

(** For each family: the address from which the server sees the client, or [None]
    if the server cannot be found or connected over this family. *)
Definition network := res_mode -> option ip.

Record world := World {
  wd_client : cprog;
  wd_session : option sprog;       (* the session of the current connection *)
  wd_up : list (list N);
  wd_down : list (list N);
  wd_opened : list fw_message;     (* requests the firewall daemon received *)
  wd_past : list sprog             (* the sessions of earlier connections *)
}.

Definition olist {A : Type} (o : option A) : list A := match o with Some x => [x] | None => [] end.

Section Steps.
Variable mac : list N -> list N -> list N.
Variable sc : config.
Variable net : network.

Inductive world_step : world -> world -> Prop :=
| ws_lookup : forall s mode k se up dn op pa l a peer,
    net mode = Some peer -> lookup_typed (Some l) -> first_record mode l a ->
    world_step (World (CLookup s mode k) se up dn op pa) (World (k (Some l)) se up dn op pa)
| ws_lookup_other : forall s mode k se up dn op pa r,
    net mode = None -> lookup_typed r ->
    world_step (World (CLookup s mode k) se up dn op pa) (World (k r) se up dn op pa)
| ws_connect : forall tcp a port k se up dn op pa mode peer,
    family_ok mode a -> net mode = Some peer ->
    world_step (World (CConnect tcp a port k) se up dn op pa)
               (World (k true) (Some (server_run mac sc peer)) [] [] op (pa ++ olist se))
| ws_connect_fails : forall tcp a port k se up dn op pa mode,
    family_ok mode a -> net mode = None ->
    world_step (World (CConnect tcp a port k) se up dn op pa) (World (k false) se up dn op pa)
| ws_crand : forall sz k se up dn op pa b, good_bytes sz b ->
    world_step (World (CRand sz k) se up dn op pa) (World (k (Some b)) se up dn op pa)
| ws_csend : forall m k se up dn op pa b, wire m b ->
    world_step (World (CSend m k) se up dn op pa) (World (k TxOk) se (up ++ [b]) dn op pa)
| ws_crecv : forall k se up b dn op pa,
    world_step (World (CRecv k) se up (b :: dn) op pa) (World (k (RxBuf b)) se up dn op pa)
| ws_srecv : forall c k b up dn op pa,
    world_step (World c (Some (SRecv k)) (b :: up) dn op pa) (World c (Some (k (RxBuf b))) up dn op pa)
| ws_ssend : forall c m k up dn op pa b, wire m b ->
    world_step (World c (Some (SSend m k)) up dn op pa) (World c (Some (k TxOk)) up (dn ++ [b]) op pa)
| ws_srand : forall c sz k up dn op pa b, good_bytes sz b ->
    world_step (World c (Some (SRand sz k)) up dn op pa) (World c (Some (k (Some b))) up dn op pa)
| ws_fwconnect : forall c k up dn op pa,
    world_step (World c (Some (SFwConnect k)) up dn op pa) (World c (Some (k true)) up dn op pa)
| ws_fwsend : forall c m k up dn op pa,
    world_step (World c (Some (SFwSend m k)) up dn op pa) (World c (Some (k true)) up dn (op ++ [m]) pa)
| ws_fwack : forall c k up dn op pa b,
    fw_serialize fw_new_ack = Ok b ->
    world_step (World c (Some (SFwRecv k)) up dn op pa) (World c (Some (k (FwRxBuf b))) up dn op pa).

Inductive world_steps : nat -> world -> world -> Prop :=
| wss_0 : forall s, world_steps 0 s s
| wss_S : forall n s s1 s2, world_step s s1 -> world_steps n s1 s2 -> world_steps (S n) s s2.

End Steps.

(** The families the command line and the host ask for, in order. *)
Definition families (ipv4 ipv6 : bool) (literal : option ip) : list res_mode :=
  match ipv4, ipv6, literal with
  | true, false, _ => [RmIpv4]
  | false, true, _ => [RmIpv6]
  | true, true, _ => [RmIpv6; RmIpv4]
  | false, false, Some (V4 _) => [RmIpv4]
  | false, false, Some (V6 _) => [RmIpv6]
  | false, false, None => [RmIpv6; RmIpv4]
  end.

(** Families that were asked for must all work; without a request one is enough. *)
Definition enough (ipv4 ipv6 : bool) (net : network) (l : list res_mode) : Prop :=
  if ipv4 || ipv6 then forall m, In m l -> net m <> None else exists m, In m l /\ net m <> None.

(** The addresses that get access: those of all working families, but if families
    were asked for, none after the first one that does not work. *)
Fixpoint granted (strict : bool) (net : network) (l : list res_mode) : list ip :=
  match l with
  | [] => []
  | m :: r => match net m with
              | Some p => p :: granted strict net r
              | None => if strict then [] else granted strict net r
              end
  end.

(** The command is over: it reports success exactly if enough families work, all
    sessions ended well, and the firewall daemon was asked to open the resource's
    port, with the resource's transports, for exactly the granted addresses. *)
Record world_done (ipv4 ipv6 : bool) (net : network) (l : list res_mode) (port : N) (rs : resource)
       (s : world) : Prop := {
  wo_result : exists r, wd_client s = CRet r /\ r <> Panic /\ (r = Ok tt <-> enough ipv4 ipv6 net l);
  wo_sessions : Forall (fun p => p = SRet (Ok tt)) (wd_past s ++ olist (wd_session s));
  wo_opened : Forall2 (fun a m => exists t, m = fw_new_open a t port
                                  /\ covers_tcp t = rs_tcp rs /\ covers_udp t = rs_udp rs)
                      (granted (ipv4 || ipv6) net l) (wd_opened s)
}.
