(** C12: a legitimate knock succeeds. *)

From Coq Require Import String NArith List Lia.
From Verif Require Import M_Base M_Proto M_IpAddr M_FwProto M_ConfTypes M_Server M_Client M_Sha3
  S_Wire S_Session S_Client S_Pair P_Base P_Sha3 P_Pair P_Exec P_CExec.
Import ListNotations.
Local Open Scope N_scope.

(** Client command and server session run concurrently over loss-free channels
    ([pair_step]).  If both configurations agree about the knock, every execution
    ends after at most 18 steps, and in every state either the execution can go on,
    or the client has reported success, the server session has ended well, and exactly one request
    has been sent to the firewall daemon: to open the resource's port, for the
    resource's transports, for the client's address. *)
Theorem C12_legitimate_knock_succeeds :
  forall mac parse_ip cc sc host (ipv4 : bool) srv crypt user key res_id port rs peer
         kport tcp udp n s,
  (forall x y, length (mac x y) = 32%nat /\ all_bytes (mac x y)) ->
  agree cc sc host parse_ip (if ipv4 then RmIpv4 else RmIpv6) srv crypt user key res_id port rs ->
  pair_steps n
    (Pair (run_knock mac parse_ip cc host
             (KnockServer (addr_mode_of ipv4 (negb ipv4)) kport tcp udp) port (Some user) srv crypt)
          (server_run mac sc peer) [] [] []) s ->
  (n <= 18)%nat
  /\ ((pr_client s = CRet (Ok tt) /\ pr_server s = SRet (Ok tt)
       /\ exists t, pr_opened s = [fw_new_open peer t port]
                    /\ covers_tcp t = rs_tcp rs /\ covers_udp t = rs_udp rs)
      \/ exists s', pair_step s s').
Proof. exact legit_knock. Qed.
Print Assumptions C12_legitimate_knock_succeeds.

(** The hypotheses hold for the example configuration on both sides. *)
Example C12_nonvacuous : forall pol,
  agree (ex_conf pol) (ex_conf pol) ex_host ex_parse_ip RmIpv4 ex_srv ex_crypt
        7 ex_key 3 22 (ResPort 22 true false [7]).
Proof.
  intro pol. constructor.
  - split; reflexivity.
  - split; [reflexivity|]. apply bytes_ok_spec. vm_compute. reflexivity.
  - simpl. auto.
  - repeat constructor; simpl; intuition discriminate.
  - exists (ResPort 22 true false [7]). simpl. auto.
  - repeat constructor; simpl; intuition discriminate.
  - simpl. auto.
  - simpl. auto.
  - repeat constructor; simpl; intuition discriminate.
  - simpl. auto.
  - repeat constructor; simpl; intuition discriminate.
  - reflexivity.
  - simpl. auto.
  - discriminate.
  - simpl. auto.
  - right. split; [reflexivity|]. exists DnsSystem. reflexivity.
Qed.
