(** The number of rules that a set of grants needs. *)

From Coq Require Import NArith List Bool.
From Verif Require Import M_Base M_IpAddr M_FwProto M_ConfTypes M_Server M_Firewall S_Firewall.
Import ListNotations.

(** One rule per transport of the control port. *)
Definition control_rule_count (conf : config) : nat :=
  (if cp_tcp (c_port conf) then 1 else 0) + (if cp_udp (c_port conf) then 1 else 0).

(** A grant: an address, the transport(s) and the port. *)
Definition grant : Type := ip * port_type * N.

(** One rule per transport. *)
Definition grant_rule_count (g : grant) : nat :=
  match g with
  | (_, PtTcp, _) | (_, PtUdp, _) => 1
  | (_, PtTcpUdp, _) => 2
  end.
