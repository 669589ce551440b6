(** From configuration files to the hypotheses of the system theorems. *)

From Coq Require Import String ZArith NArith List Bool Lia Permutation.
From Verif Require Import M_Base M_Proto M_IpAddr M_FwProto M_ConfTypes M_Text M_Conf M_Server M_Client
  S_Wire S_Session S_Client S_Pair S_Text S_Conf S_Files
  P_Base P_Session P_Conf P_ConfLoad Prop_Conf S_Firewall.
Import ListNotations.
Local Open Scope N_scope.

Section Loaded.
Variable fraction : text -> option N.
Variables (v : conf_variant) (file : option (list N)) (ls : list text) (conf : config).
Hypothesis ST : started_from fraction v file ls conf.

Lemma started_configures : configures (duration_text fraction) ls conf /\ c_variant conf = v.
Proof.
  destruct ST as (order & path & OP & FL & W & L).
  destruct (load_ok _ _ OP _ _ _ _ _ FL W L) as (A & B & _). split; [exact A|]. rewrite B. destruct v; reflexivity.
Qed.

Lemma started_nodup : NoDup (map fst (c_keys conf)) /\ NoDup (map fst (c_resources conf))
  /\ NoDup (map (fun x => rs_port (snd x)) (c_resources conf)).
Proof.
  destruct ST as (order & path & OP & FL & W & L). eapply load_nodup; eauto.
Qed.

Lemma started_keys : forall id k, In (id, k) (c_keys conf) <-> entry ls "KEYS" key_text id k.
Proof.
  intros id k. destruct started_configures as [CF _]. destruct started_nodup as (ND & _).
  rewrite <- (proj2 (proj2 (cf_keys _ _ _ CF)) id k : _ <-> entry ls "KEYS" key_text id k). unfold conf_key. split.
  - apply In_nlookup. exact ND.
  - apply nlookup_In.
Qed.

Lemma started_resources : forall id r, In (id, r) (c_resources conf) <-> entry ls "RESOURCES" resource_text id r.
Proof.
  intros id r. destruct started_configures as [CF _]. destruct started_nodup as (_ & ND & _).
  rewrite <- (proj2 (proj2 (cf_resources _ _ _ CF)) id r : _ <-> entry ls "RESOURCES" resource_text id r).
  unfold conf_resource. split.
  - apply In_nlookup. exact ND.
  - apply nlookup_In.
Qed.

Lemma started_control : control_port_is ls (c_port conf).
Proof. destruct started_configures as [CF _]. exact (cf_port _ _ _ CF). Qed.

Lemma control_has_transport : forall cp, control_port_is ls cp -> cp_tcp cp = true \/ cp_udp cp = true.
Proof.
  intros cp [(t & _ & ts & ps & _ & _ & _ & T & U)|(_ & ->)]; [|left; reflexivity].
  destruct (pp_transports ps) as [|[|] l] eqn:E.
  - left. apply T. right. reflexivity.
  - left. apply T. left. left. reflexivity.
  - right. apply U. left. reflexivity.
Qed.

Lemma key_text_sized : forall t k, key_text t k -> length k = 32%nat /\ all_bytes k.
Proof.
  intros t k (body & _ & HB & L & _). split; [exact L|]. clear - HB.
  induction HB as [|a b h l t k DA DB HB IH]; [intros x []|]. intros x [<- | I]; [|auto].
  apply digit_16 in DA, DB. lia.
Qed.

Lemma started_keys_sized : keys_sized conf.
Proof.
  intros u k I. apply started_keys in I. destruct I as (o & t & _ & _ & K). eapply key_text_sized. exact K.
Qed.
End Loaded.

Lemma entry_id : forall A ls s (means : text -> A -> Prop) id x, entry ls s means id x -> id < 2 ^ 32.
Proof. intros A ls s means id x (o & t & _ & (body & _ & _ & L) & _). exact L. Qed.

Lemma resource_text_sane : forall t r, resource_text t r -> rs_port r < 2 ^ 16 /\ (rs_tcp r = true \/ rs_udp r = true).
Proof. intros t r R. destruct (C36_resource_sane t r _ R (proj1 (P_Str.split_on_separated _ _ _) eq_refl)) as (_ & P & T & _). split; [exact P|exact T]. Qed.

(** The agreement of the files is the agreement of the configurations. *)
Lemma files_to_agree : forall fraction cfile cls cc sfile sls sc parse_ip host mode srv crypt user port rs,
  started_from fraction VarClient cfile cls cc -> started_from fraction VarServer sfile sls sc ->
  files_agree cls sls user port rs -> resolvable parse_ip host mode srv crypt ->
  exists key id, agree cc sc host parse_ip mode srv crypt user key id port rs.
Proof.
  intros fraction cfile cls cc sfile sls sc parse_ip host mode srv crypt user port rs CL SL
    [(key & K1 & K2) (id & crs & R1 & P1 & O1 & R2 & P2 & O2) CP] HOST.
  destruct (started_nodup _ _ _ _ _ CL) as (N1 & N2 & N3). destruct (started_nodup _ _ _ _ _ SL) as (N4 & N5 & N6).
  exists key, id. constructor.
  - split; [eapply entry_id; exact K1|eapply entry_id; exact R1].
  - destruct K1 as (o & t & _ & _ & K). eapply key_text_sized. exact K.
  - apply (started_keys _ _ _ _ _ CL). exact K1.
  - exact N1.
  - exists crs. split; [apply (started_resources _ _ _ _ _ CL); exact R1|]. split; [exact P1|exact O1].
  - exact N3.
  - eapply control_has_transport. apply (started_control _ _ _ _ _ CL).
  - apply (started_keys _ _ _ _ _ SL). exact K2.
  - exact N4.
  - apply (started_resources _ _ _ _ _ SL). exact R2.
  - exact N5.
  - exact P2.
  - exact O2.
  - intros E. apply (CP _ (started_control _ _ _ _ _ SL)). symmetry. exact E.
  - destruct R2 as (o & t & _ & _ & R). eapply resource_text_sane. exact R.
  - exact HOST.
Qed.

(** The firewall daemon permits the port. *)
Lemma files_permit : forall fraction sfile sls fc cls user port rs,
  started_from fraction VarServer sfile sls fc -> files_agree cls sls user port rs -> permitted_port fc port.
Proof.
  intros fraction sfile sls fc cls user port rs SL [_ (id & crs & _ & _ & _ & R2 & P2 & _) CP]. split.
  - intros E. apply (CP _ (started_control _ _ _ _ _ SL)). symmetry. exact E.
  - exists id, rs. split; [apply (started_resources _ _ _ _ _ SL); exact R2|exact P2].
Qed.

Lemma default_user_of : forall fraction cfile cls cc u, started_from fraction VarClient cfile cls cc ->
  setting cls "CLIENT" "default-user" id_text 0 u -> c_default_user cc = u.
Proof.
  intros fraction cfile cls cc u CL S. destruct (started_configures _ _ _ _ _ CL) as [CF V].
  pose proof (cf_client _ _ _ CF V) as D. destruct CL as (_ & _ & _ & _ & W & _).
  destruct S as [(t & H & M)|(N & ->)], D as [(t' & H' & M')|(N' & ->)]; try reflexivity.
  - pose proof (C40_one_value _ _ _ _ _ W H H') as <-.
    apply (proj1 (C33_parser_exact t)) in M. apply (proj1 (C33_parser_exact t)) in M'. congruence.
  - exfalso. eapply N'; eauto.
  - exfalso. eapply N; eauto.
Qed.
