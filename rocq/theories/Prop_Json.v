(** C81: nft is given exactly the commands that letmeinfwd means, whatever the
    configured names contain. *)

From Coq Require Import String NArith List Bool Permutation.
From Verif Require Import M_Base M_IpAddr M_ConfTypes M_Text M_Conf M_Firewall M_Json S_Text S_Json P_Json.
Import ListNotations.
Local Open Scope N_scope.

(** C81: a program that follows RFC 8259 (JSON) and libnftables-json(5) reads the
    document as these commands, and in no other way. *)
Theorem C81_nft_reads_the_commands : forall cmds,
  Forall unicode_cmd cmds -> read_as (document cmds) cmds.
Proof. exact document_read. Qed.
Print Assumptions C81_nft_reads_the_commands.

(** A JSON text has one value: no two readings of it that both follow the RFC. *)
Theorem C81_json_has_one_reading : forall t v v', json_text t v -> json_text t v' -> v = v'.
Proof. exact json_text_fun. Qed.
Print Assumptions C81_json_has_one_reading.

(** What a program that does this makes of the kernel ruleset: it carries out all the
    commands, or none if one cannot be carried out. [nft bytes k r]: with this standard
    input it may turn the ruleset [k] into [r], or reject. *)
Definition follows (nft : list byte -> kernel -> option kernel -> Prop) : Prop :=
  forall bytes cmds k r, read_as bytes cmds -> (nft bytes k r <-> r = run_cmds k cmds).

(** C81: whatever the configuration file contains, when one of the three operations that
    change the ruleset (add a lease, remove leases, rebuild) succeeds, the ruleset is what
    such a program makes of it with a document of letmeinfwd; otherwise it is unchanged. *)
Theorem C81_ruleset_changes_are_documents : forall nft fraction order v path file conf k,
  follows nft ->
  conf_load fraction order (conf_new v) path file = (conf, Ok tt) ->
  let by_nft (out : kernel * res unit) :=
    match snd out with
    | Ok _ => exists cmds, read_as (document cmds) cmds /\ nft (document cmds) k (Some (fst out))
    | _ => fst out = k
    end in
  (forall l ok, by_nft (add_lease conf k l ok))
  /\ (forall ls list_ok ok, by_nft (remove_leases conf k ls list_ok ok))
  /\ (forall fw ord ok, by_nft (full_rebuild conf k fw ord ok)).
Proof.
  intros nft fraction order v path file conf k R L by_nft. pose proof (loaded_names _ _ _ _ _ _ L) as U.
  assert (G : forall ok out, by_document k ok out -> by_nft out).
  { intros ok out [[E F]|[->|(cmds & RD & ->)]].
    - unfold by_nft. rewrite E. destruct (snd out) as [[]| |]; [|reflexivity|reflexivity]. contradiction F. reflexivity.
    - cbn. exists []. assert (RD : read_as (document []) []) by (apply document_read; constructor).
      split; [exact RD|]. apply (R _ _ k _ RD). reflexivity.
    - unfold by_nft, apply_batch. destruct ok; [|reflexivity].
      destruct (run_cmds k cmds) as [k'|] eqn:E; [|reflexivity]. cbn [fst snd]. exists cmds. split; [exact RD|].
      apply (R _ _ k _ RD). symmetry. exact E. }
  split; [|split].
  - intros l ok. apply (G ok). apply add_by_document. exact U.
  - intros ls list_ok ok. apply (G ok). apply remove_by_document. exact U.
  - intros fw ord ok. apply (G ok). apply rebuild_by_document. exact U.
Qed.
Print Assumptions C81_ruleset_changes_are_documents.

(** C81: the document for a lease has the effect of its commands, and letmeinfwd is told
    whether it had. *)
Theorem C81_lease_document : forall nft fraction order v path file conf k l cmds r,
  follows nft ->
  conf_load fraction order (conf_new v) path file = (conf, Ok tt) ->
  gen_add_cmds conf l = Ok cmds ->
  nft (document cmds) k r ->
  r = run_cmds k cmds
  /\ match r with
     | Some k' => add_lease conf k l true = (k', Ok tt)
     | None => fst (add_lease conf k l true) = k /\ exists e, snd (add_lease conf k l true) = Err e
     end.
Proof.
  intros nft fraction order v path file conf k l cmds r R L G N. pose proof (loaded_names _ _ _ _ _ _ L) as U.
  assert (E : r = run_cmds k cmds).
  { apply (R (document cmds) cmds k r); [|exact N]. apply document_read. exact (lease_cmds_unicode _ _ _ U G). }
  split; [exact E|]. subst r. unfold add_lease. rewrite G. unfold apply_batch.
  destruct (run_cmds k cmds); [reflexivity|]. split; [reflexivity|]. eexists. reflexivity.
Qed.
Print Assumptions C81_lease_document.

(** Such a program is possible. *)
Example C81_follows_witness :
  follows (fun bytes k r => exists cmds, read_as bytes cmds /\ r = run_cmds k cmds).
Proof.
  intros bytes cmds k r R. split; [|intros ->; exists cmds; auto].
  intros (cmds' & ((t & v & B & J & A) & _) & ->). f_equal. exact (proj2 R t v cmds' B J A).
Qed.

(** *** A table name that looks like JSON *)

Definition hostile : chain_name := ChainName INet (lit "a""}}},{""flush"":{""ruleset"":null" ++ [10; 1; 8364]) (lit "in\put").
Definition hostile_cmds : list nf_cmd :=
  [CmdAdd hostile (rule_comment (Some (V4 [192; 0; 2; 7])) (SpTcp 22)) [MatchSaddr false (fmt_ip (V4 [192; 0; 2; 7])); MatchDport (SpTcp 22); Accept];
   CmdDelete hostile 17].
Example C81_hostile_names_witness :
  read_as (document hostile_cmds) hostile_cmds
  /\ document [CmdFlush hostile]
     = (lit "{""nftables"":[{""flush"":{""chain"":{""family"":""inet"",""table"":""a\""}}},{\""flush\"":{\""ruleset\"":null\n\u0001" ++ [226; 130; 172]
        ++ lit """,""name"":""in\\put""}}}]}")%list.
Proof.
  split; [|vm_compute; reflexivity]. apply C81_nft_reads_the_commands.
  assert (S : forall t, forallb (fun c => c <? 10000) t = true -> Forall scalar t).
  { intros t H. apply Forall_forall. intros c C. rewrite forallb_forall in H. specialize (H c C). left.
    apply N.ltb_lt in H. eapply N.lt_trans; [exact H|reflexivity]. }
  repeat constructor; cbn [fst snd cn_table cn_chain hostile unicode_stmt]; apply S; vm_compute; reflexivity.
Qed.

(** A document in full. *)
Example C81_plain_document :
  document [CmdAdd (ChainName FIp (lit "t") (lit "c")) (lit "x") [MatchSaddr false (lit "192.0.2.7"); MatchDport (SpUdp 53); Accept]]
  = lit ("{""nftables"":[{""add"":{""rule"":{""family"":""ip"",""table"":""t"",""chain"":""c"",""expr"":["
         ++ "{""match"":{""left"":{""payload"":{""protocol"":""ip"",""field"":""saddr""}},""right"":""192.0.2.7"",""op"":""==""}},"
         ++ "{""match"":{""left"":{""payload"":{""protocol"":""udp"",""field"":""dport""}},""right"":53,""op"":""==""}},"
         ++ "{""accept"":null}],""comment"":""x""}}}]}")%string.
Proof. vm_compute. reflexivity. Qed.
