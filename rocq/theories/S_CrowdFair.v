(** Infinite executions of letmeind among others over UDP (S_Crowd.v) in which
    nobody who can go on is passed over for ever. *)

From Coq Require Import NArith List Bool.
From Verif Require Import M_Base M_Proto M_IpAddr M_FwProto M_ConfTypes M_Server M_Client M_Firewall M_Udp M_Accept
  S_Wire S_Session S_Client S_Pair S_Firewall S_E2e S_Accept S_Dgram S_Crowd.
Import ListNotations.

Section Fair.
Variable step : nat -> crowd -> crowd -> Prop.   (* 1 for steps of the knock, 0 for all others *)
Variable at_ : nat -> crowd.                     (* the state at each time *)

(** A kind of step, by its effect. *)
Definition kind := crowd -> crowd -> Prop.
Definition taken (P : kind) (k : nat) : Prop := P (at_ k) (at_ (k + 1)).
Definition enabled (P : kind) (k : nat) : Prop := exists i s', step i (at_ k) s' /\ P (at_ k) s'.

(** Weak fairness: not possible without a break and never done. *)
Definition weak (P : kind) : Prop := forall t, exists k, t <= k /\ (taken P k \/ ~ enabled P k).

(** Strong fairness: not possible again and again and never done. *)
Definition strong (P : kind) : Prop :=
  forall t, (exists k, t <= k /\ taken P k) \/ (exists t', t <= t' /\ forall k, t' <= k -> ~ enabled P k).
End Fair.

Section Kinds.
Variable has_tcp : bool.
Variable here : sockaddr.

(** A datagram of the client arrives in letmeind's socket. *)
Definition arrives : kind := fun s s' => length (cw_up s') < length (cw_up s).

(** The oldest datagram in the socket is read, by whichever task. *)
Definition reads_socket : kind := fun s s' => exists x, cw_buf s = x :: cw_buf s'.

(** The accept task picks the client. *)
Definition picks_client : kind := fun s s' => us_sess (cw_udp s') = us_sess (cw_udp s) ++ [(here, false)].

(** The select takes the UDP handle. *)
Definition selects_udp : kind := fun s s' => astep has_tcp true (cw_acc s) (AeSelect false true) = Some (cw_acc s').

(** The socket handler task makes another step. *)
Definition handles : kind := fun s s' => astep has_tcp true (cw_acc s) AeTask = Some (cw_acc s').

(** The network does not hold back a datagram for ever, and the socket handler task
    runs if it can.  A datagram in the socket is read some time if again and again
    there is a task to read it.  The walk through the map of connections does not
    find somebody else before the client every time, and the select does not take
    the TCP handle every time. *)
Record serves_fairly (step : nat -> crowd -> crowd -> Prop) (at_ : nat -> crowd) : Prop := {
  sf_network : weak step at_ arrives;
  sf_task : weak step at_ handles;
  sf_socket : strong step at_ reads_socket;
  sf_pick : strong step at_ picks_client;
  sf_select : strong step at_ selects_udp
}.
End Kinds.

(** The steps of S_Crowd.v by number: 1 for the knock, 0 for letmeind, the network and
    anybody else. *)
Definition crowd_one (mac : list N -> list N -> list N) (sc conf : config) (c : chain_name) (has_tcp : bool) (max : N)
           (here : sockaddr) (i : nat) (s s' : crowd) : Prop :=
  exists a, crowd_step mac sc conf c has_tcp max here any_order a s s' /\ i = match a with Knock => 1 | _ => 0 end.
