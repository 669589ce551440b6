(** Two histories of the firewall daemon that differ in what others than one host do. *)

From Coq Require Import NArith List.
From Verif Require Import M_Base M_IpAddr M_FwProto M_ConfTypes M_Server M_Firewall S_Wire S_Firewall.
Import ListNotations.
Local Open Scope N_scope.

(** The event has nothing to do with host [src]: a request for another host, a message
    that is no request, or a change of other chains by other programs. *)
Definition elsewhere (c : chain_name) (src : ip) (ev : fw_event) : Prop :=
  match ev with
  | FwMessage (FwRxBuf b) _ _ _ => forall a pt port, asks b a pt port -> ~ same_host a src
  | FwMessage _ _ _ _ => True
  | FwExternal k => has_chain k c = true
  | _ => False
  end.

(** The same messages for [src] in the same order, with the same success of nft for
    them, and maintenance runs at the same times; anything for other hosts in between.
    The replies, the way in which the maintenance runs go and the orders of hash maps
    may differ. *)
Inductive differ_elsewhere (c : chain_name) (src : ip) : hist -> hist -> Prop :=
| de_nil : differ_elsewhere c src [] []
| de_left : forall h1 h2 ev r, differ_elsewhere c src h1 h2 -> elsewhere c src ev ->
    differ_elsewhere c src (h1 ++ [(ev, r)]) h2
| de_right : forall h1 h2 ev r, differ_elsewhere c src h1 h2 -> elsewhere c src ev ->
    differ_elsewhere c src h1 (h2 ++ [(ev, r)])
| de_message : forall h1 h2 rx t ok send1 send2 r1 r2, differ_elsewhere c src h1 h2 ->
    differ_elsewhere c src (h1 ++ [(FwMessage rx t ok send1, r1)]) (h2 ++ [(FwMessage rx t ok send2, r2)])
| de_maintain : forall h1 h2 now o1 o2 a1 a2 a3 p1 p2 b1 b2 b3 r1 r2, differ_elsewhere c src h1 h2 ->
    differ_elsewhere c src (h1 ++ [(FwMaintain now o1 o2 a1 a2 a3, r1)])
                           (h2 ++ [(FwMaintain now p1 p2 b1 b2 b3, r2)]).
