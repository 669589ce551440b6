(** Any number of clients that knock at the same time: each has its own session of
    letmeind and its own connection to letmeinfwd (S_E2e.v), and all of them share
    the one firewall daemon with its kernel chain. *)

From Coq Require Import NArith List.
From Verif Require Import M_Base M_Proto M_IpAddr M_FwProto M_ConfTypes M_Server M_Client M_Firewall
  S_Wire S_Session S_Client S_Pair S_Firewall S_E2e.
Import ListNotations.
Local Open Scope N_scope.

(** One client with its session and the messages between the daemons. *)
Record knock := Knocking {
  kn_pair : pair;
  kn_request : list (list N);
  kn_reply : list (list N)
}.

Record many := Many {
  my_knocks : list knock;
  my_daemon : daemon;
  my_hist : hist
}.

(** The system as one of the clients sees it. *)
Definition seen_by (q : knock) (s : many) : full :=
  Full (kn_pair q) (my_daemon s) (my_hist s) (kn_request q) (kn_reply q).

Definition alone (f : full) : knock := Knocking (fu_pair f) (fu_request f) (fu_reply f).

(** One step: of the [i]-th knock, or [None] for what others do to the firewall. *)
Inductive many_step (conf : config) (c : chain_name) : option nat -> many -> many -> Prop :=
| my_knock : forall l1 q l2 d h f',
    full_step conf c 1 (seen_by q (Many (l1 ++ q :: l2) d h)) f' ->
    many_step conf c (Some (length l1)) (Many (l1 ++ q :: l2) d h)
              (Many (l1 ++ alone f' :: l2) (fu_daemon f') (fu_hist f'))
| my_other : forall l d h ev d' reply,
    event_ok c d ev -> undisturbed c ev -> fw_step conf d ev = Some (d', reply) ->
    many_step conf c None (Many l d h) (Many l d' (h ++ [(ev, reply)])).

(** An execution; the list names whose steps were taken. *)
Inductive many_steps (conf : config) (c : chain_name) : list (option nat) -> many -> many -> Prop :=
| mys_nil : forall s, many_steps conf c [] s s
| mys_snoc : forall tr i s s1 s2,
    many_steps conf c tr s s1 -> many_step conf c i s1 s2 -> many_steps conf c (tr ++ [i]) s s2.

(** How many steps of knocks there were. *)
Fixpoint knock_steps (tr : list (option nat)) : nat :=
  match tr with
  | [] => 0
  | Some _ :: r => S (knock_steps r)
  | None :: r => knock_steps r
  end.

(** A client command and a session that agree about the knock and whose peer and
    port letmeinfwd may open; nothing has happened yet.  [sc], [fc]: what letmeind
    and letmeinfwd have read; the client has its own configuration, host, options. *)
Inductive legitimate (mac : list N -> list N -> list N) (parse_ip : list N -> option ip)
          (sc fc : config) (c : chain_name) : knock -> ip -> resource -> Prop :=
| legitimate_intro : forall cc host (ipv4 : bool) srv crypt user key res_id port rs peer kport tcp udp,
    agree cc sc host parse_ip (if ipv4 then RmIpv4 else RmIpv6) srv crypt user key res_id port rs ->
    plausible_address peer -> ip_address peer -> permitted_port fc port -> port < 2 ^ 16 ->
    family_fits c peer ->
    legitimate mac parse_ip sc fc c
      (Knocking (Pair (run_knock mac parse_ip cc host
                         (KnockServer (addr_mode_of ipv4 (negb ipv4)) kport tcp udp) port (Some user) srv crypt)
                      (server_run mac sc peer) [] [] []) [] [])
      peer rs.
