(** C88: the comments of letmein's rules. *)

From Coq Require Import String NArith List Bool Lia.
From Verif Require Import M_Base M_IpAddr M_FwProto M_ConfTypes M_Server M_Text M_Firewall M_Listing
  S_Wire S_Ip S_Firewall S_Loss S_Listing P_Base P_Text P_Firewall P_Fwd P_FwdProps P_Loss P_Listing P_Comment
  Prop_Firewall Prop_Loss Prop_Listing.
Import ListNotations.
Local Open Scope N_scope.

(** Ports of a configuration are 16-bit numbers (they have this type in the program;
    see also C36 and C49). *)
Definition ports_in_range (conf : config) : Prop :=
  cp_port (c_port conf) < 65536 /\ forall id r, In (id, r) (c_resources conf) -> rs_port r < 65536.

(** Letters, digits, dots, colons and slashes. *)
Definition plain (c : N) : Prop :=
  48 <= c <= 57 \/ 65 <= c <= 90 \/ 97 <= c <= 122 \/ c = 46 \/ c = 47 \/ c = 58.

(** In every history every rule in letmein's chain has a comment of at most 74 of
    these characters.  nft refuses comments of more than 128 bytes, and a quotation
    mark or a control character in a comment would break nft's own output. *)
Theorem C88_comments_are_short_and_plain :
  forall conf c d h, racy_history conf c d h -> ports_in_range conf ->
  forall r, In r (rules_of c (d_kernel d)) ->
  exists t, r_comment r = Some t /\ (length t <= 74)%nat /\ forall ch, In ch t -> plain ch.
Proof.
  intros conf c d h H [RC RR] r J.
  pose proof (racy_inv conf c (racy_configured conf c d h H) d h H) as I.
  assert (exists a p, content r = want a p /\ match a with Some a => ip_address a | None => True end
          /\ match p with SpTcp p | SpUdp p => p < 65536 end) as (a & p & E & HA & HP).
  { destruct (li_only _ _ _ _ I (content r)) as [K|(a & pt & port & p & _ & IA & _ & (_ & id & rs & K1 & K2) & K3 & E)].
    - unfold contents. apply in_map. exact J.
    - rewrite control_contents_want in K. apply in_map_iff in K. destruct K as (p & E & K).
      exists None, p. split; [auto|]. split; [exact Logic.I|]. unfold ctrl_ports in K.
      apply in_app_or in K. destruct K as [K|K]; [destruct (cp_tcp _)|destruct (cp_udp _)]; simpl in K; intuition (subst; exact RC).
    - exists (Some a), p. split; [exact E|]. split; [exact IA|]. apply RR in K1. rewrite K2 in K1.
      destruct pt; simpl in K3; repeat destruct K3 as [<-|K3]; try contradiction; exact K1. }
  exists (rule_comment a p). split; [|split].
  - unfold content, want in E. injection E as E _. exact E.
  - apply comment_length; assumption.
  - intros ch K. exact (comment_chars a p ch K).
Qed.
Print Assumptions C88_comments_are_short_and_plain.

(** The bound is reached. *)
Example C88_longest :
  length (rule_comment (Some (V6 (repeat 255 16))) (SpTcp 65535)) = 74%nat
  /\ ip_address (V6 (repeat 255 16)).
Proof. split; [vm_compute; reflexivity|]. split; [reflexivity|]. apply bytes_ok_spec. vm_compute. reflexivity. Qed.

Example C88_witness :
  racy_history ex_conf ex_chain (fst (ex_run 2)) (ex_hist 2) /\ ports_in_range ex_conf
  /\ map r_comment (rules_of ex_chain (d_kernel (fst (ex_run 2)))) =
     map Some [lit "any/5800/TCP/accept/letmein/GENERATED"; lit "any/5800/UDP/accept/letmein/GENERATED";
               lit "192.168.0.7/22/TCP/accept/letmein/GENERATED";
               lit "2001:db8::1/53/TCP/accept/letmein/GENERATED"; lit "2001:db8::1/53/UDP/accept/letmein/GENERATED"].
Proof.
  split; [apply C86_witness|]. split; [|vm_compute; reflexivity]. split; [reflexivity|].
  intros id r [[= <- <-]|[[= <- <-]|[]]]; reflexivity.
Qed.
