(** The time that a knock command takes. *)

From Coq Require Import NArith List.
From Verif Require Import M_Base M_Proto M_IpAddr M_ConfTypes M_Server M_Client.
Import ListNotations.
Local Open Scope N_scope.

(** The time the client spends sending to and waiting for the server. *)
Fixpoint server_time (tr : list cevent) : N :=
  match tr with
  | [] => 0
  | CeSend d _ _ :: r => d + server_time r
  | CeRecv d _ :: r => d + server_time r
  | _ :: r => server_time r
  end.

Definition is_lookup (ev : cevent) : bool := match ev with CeLookup _ _ _ => true | _ => false end.
Definition is_connect (ev : cevent) : bool := match ev with CeConnect _ _ _ _ => true | _ => false end.
Definition lookups (tr : list cevent) : nat := length (filter is_lookup tr).
Definition connects (tr : list cevent) : nat := length (filter is_connect tr).
