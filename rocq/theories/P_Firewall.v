(** Proofs about the firewall daemon. *)

From Coq Require Import String ZArith NArith List Bool Lia ZifyBool ZifyNat ZifyN Permutation.
From Verif Require Import M_Base M_IpAddr M_FwProto M_ConfTypes M_Server M_Text M_Firewall
  S_Wire S_Firewall P_Base P_FwProto P_Text.
Import ListNotations.
Local Open Scope N_scope.

(** ** Decidable equalities *)

Lemma family_eqb_spec : forall a b, family_eqb a b = true <-> a = b.
Proof. intros [] []; simpl; split; intros; congruence. Qed.

Lemma chain_eqb_spec : forall a b, chain_eqb a b = true <-> a = b.
Proof.
  intros [f1 t1 c1] [f2 t2 c2]. unfold chain_eqb. simpl.
  rewrite !andb_true_iff, family_eqb_spec, !list_eqb_spec. split.
  - intros [[-> ->] ->]. reflexivity.
  - intros [= -> -> ->]. auto.
Qed.

Lemma chain_eqb_refl : forall a, chain_eqb a a = true.
Proof. intros. apply chain_eqb_spec. reflexivity. Qed.

Lemma ip_eqb_spec' : forall a b, ip_eqb a b = true <-> a = b.
Proof.
  intros [a|a] [b|b]; simpl; try rewrite list_eqb_spec; split; intros; congruence.
Qed.

Lemma lease_port_eqb_spec : forall a b, lease_port_eqb a b = true <-> a = b.
Proof.
  intros [p|p|p] [q|q|q]; simpl; try rewrite N.eqb_eq; split; intros; congruence.
Qed.

Lemma id_eqb_spec : forall a b, id_eqb a b = true <-> a = b.
Proof.
  intros [a p] [b q]. unfold id_eqb. simpl.
  rewrite andb_true_iff, ip_eqb_spec', lease_port_eqb_spec. split.
  - intros [-> ->]. reflexivity.
  - intros [= -> ->]. auto.
Qed.

(** ** Comments *)

Lemma app_sep_inj : forall (sep : N) a b x y, ~ In sep a -> ~ In sep b ->
  a ++ sep :: x = b ++ sep :: y -> a = b /\ x = y.
Proof.
  induction a as [|c a IH]; intros [|d b] x y HA HB E; simpl in E.
  - injection E as E. auto.
  - exfalso. injection E as E _. apply HB. left. auto.
  - exfalso. injection E as E _. apply HA. left. auto.
  - injection E as E1 E2. subst d.
    destruct (IH b x y) as [A B]; auto.
    + intros X. apply HA. right. exact X.
    + intros X. apply HB. right. exact X.
    + subst. auto.
Qed.

Definition host_text (a : option ip) : text :=
  match a with Some a => fmt_ip a | None => lit "any" end.

Lemma host_text_no_slash : forall a, ~ In 47 (host_text a).
Proof.
  intros [a|] H; simpl in H.
  - apply fmt_ip_chars in H. lia.
  - repeat destruct H as [H|H]; try discriminate. contradiction.
Qed.

Lemma host_text_inj : forall a b,
  (forall x, a = Some x -> ip_address x) -> (forall x, b = Some x -> ip_address x) ->
  host_text a = host_text b -> a = b.
Proof.
  assert (forall x, fmt_ip x <> lit "any") as NE.
  { intros x E. assert (In 110 (fmt_ip x)) as I by (rewrite E; right; left; reflexivity).
    apply fmt_ip_chars in I. lia. }
  intros [a|] [b|] HA HB E; simpl in E; auto.
  - f_equal. apply fmt_ip_inj; auto.
  - exfalso. apply (NE a). exact E.
  - exfalso. apply (NE b). symmetry. exact E.
Qed.

Lemma rule_comment_shape : forall a p, rule_comment a p =
  host_text a ++ 47 :: fmt_single_port p ++ lit "/accept/letmein/GENERATED".
Proof. reflexivity. Qed.

Lemma single_port_inj : forall p q s, fmt_single_port p ++ s = fmt_single_port q ++ s -> p = q.
Proof.
  intros p q s E. apply app_inv_tail in E.
  assert (forall n, ~ In 47 (fmt_dec n)) as NS by (intros n I; apply fmt_dec_chars in I; lia).
  destruct p as [p|p], q as [q|q]; simpl in E;
    change (lit "/TCP") with (47 :: lit "TCP") in E;
    change (lit "/UDP") with (47 :: lit "UDP") in E;
    apply app_sep_inj in E; auto; destruct E as [E1 E2]; try discriminate;
    apply fmt_dec_inj in E1; congruence.
Qed.

Lemma rule_comment_inj : forall a b p q,
  (forall x, a = Some x -> ip_address x) -> (forall x, b = Some x -> ip_address x) ->
  rule_comment a p = rule_comment b q -> a = b /\ p = q.
Proof.
  intros a b p q HA HB E. rewrite !rule_comment_shape in E.
  apply app_sep_inj in E; try apply host_text_no_slash. destruct E as [E1 E2].
  apply host_text_inj in E1; auto. apply single_port_inj in E2. auto.
Qed.

(** ** Contents *)

Definition want (a : option ip) (p : single_port) : option text * list stmt :=
  (Some (rule_comment a p),
   match a with Some a => [source_match a; MatchDport p; Accept] | None => [MatchDport p; Accept] end).

Lemma control_contents_want : forall conf, control_contents conf = map (want None) (ctrl_ports conf).
Proof.
  intros conf. unfold control_contents, ctrl_ports, want, rule_comment. rewrite map_app.
  f_equal.
  - destruct (cp_tcp (c_port conf)); [|reflexivity]. cbn [map fmt_single_port].
    rewrite <- app_assoc. reflexivity.
  - destruct (cp_udp (c_port conf)); [|reflexivity]. cbn [map fmt_single_port].
    rewrite <- app_assoc. reflexivity.
Qed.

Lemma lease_contents_want : forall l,
  lease_contents l = map (want (Some (l_addr l))) (single_ports (l_port l)).
Proof.
  intros [a [p|p|p] t]; unfold lease_contents, want, rule_comment;
    cbn [l_addr l_port single_ports map fmt_single_port]; rewrite <- !app_assoc; reflexivity.
Qed.

(** ** The kernel *)

Definition handles_ok (c : chain_name) (k : kernel) : Prop :=
  NoDup (map r_handle (rules_of c k)) /\ forall r, In r (rules_of c k) -> r_handle r < k_next k.

Definition contents (c : chain_name) (k : kernel) := map content (rules_of c k).

Definition add_cmd (c : chain_name) (w : option text * list stmt) : nf_cmd :=
  CmdAdd c (match fst w with Some t => t | None => [] end) (snd w).

Lemma rules_of_app : forall c ch l l' n n',
  rules_of c (Kernel ch (l ++ l') n) = rules_of c (Kernel ch l n') ++ rules_of c (Kernel ch l' n').
Proof. intros. unfold rules_of. simpl. apply filter_app. Qed.

Lemma NoDup_snoc : forall (A : Type) (l : list A) x, NoDup l -> ~ In x l -> NoDup (l ++ [x]).
Proof.
  intros A l x H NI. apply NoDup_rev in H.
  rewrite <- (rev_involutive (l ++ [x])). apply NoDup_rev. rewrite rev_app_distr. simpl.
  constructor; [|exact H]. rewrite <- in_rev. exact NI.
Qed.

Lemma run_add : forall c k t e k', run_cmd k (CmdAdd c t e) = Some k' ->
  handles_ok c k ->
  handles_ok c k' /\ contents c k' = contents c k ++ [(Some t, e)]
  /\ rules_elsewhere c k' = rules_elsewhere c k /\ k_next k <= k_next k'
  /\ k_chains k' = k_chains k.
Proof.
  intros c k t e k' H [ND LT]. simpl in H. destruct (has_chain k c); [|discriminate].
  injection H as <-.
  assert (rules_of c (Kernel (k_chains k) (k_rules k ++ [Rule c (k_next k) (Some t) e]) (k_next k + 1))
          = rules_of c k ++ [Rule c (k_next k) (Some t) e]) as ER.
  { unfold rules_of. simpl. rewrite filter_app. simpl. rewrite chain_eqb_refl. reflexivity. }
  split; [|split; [|split; [|split]]].
  - split; rewrite ER.
    + rewrite map_app. simpl. apply NoDup_snoc; [exact ND|].
      intros I. apply in_map_iff in I. destruct I as (r & E & I). apply LT in I. lia.
    + intros r I. simpl. apply in_app_or in I. destruct I as [I|[<-|[]]]; simpl; [|lia].
      apply LT in I. lia.
  - unfold contents. rewrite ER, map_app. reflexivity.
  - unfold rules_elsewhere. simpl. rewrite filter_app. simpl. rewrite chain_eqb_refl. simpl.
    apply app_nil_r.
  - simpl. lia.
  - reflexivity.
Qed.

Lemma run_adds : forall c ws k k',
  (forall w, In w ws -> exists t, fst w = Some t) ->
  run_cmds k (map (add_cmd c) ws) = Some k' -> handles_ok c k ->
  handles_ok c k' /\ contents c k' = contents c k ++ ws
  /\ rules_elsewhere c k' = rules_elsewhere c k /\ k_next k <= k_next k'
  /\ k_chains k' = k_chains k.
Proof.
  induction ws as [|w ws IH]; intros k k' HW H HK; simpl in H.
  - injection H as <-. rewrite app_nil_r. split; [exact HK|]. split; [reflexivity|].
    split; [reflexivity|]. split; [lia|reflexivity].
  - destruct (HW w (or_introl eq_refl)) as [t Et].
    destruct (has_chain k c) eqn:EH; [|discriminate].
    match type of H with run_cmds ?x _ = _ => set (k1 := x) in * end.
    assert (run_cmd k (CmdAdd c t (snd w)) = Some k1) as R1.
    { simpl. rewrite EH. unfold k1. rewrite Et. reflexivity. }
    destruct (run_add _ _ _ _ _ R1 HK) as (A1 & A2 & A3 & A4 & A5).
    destruct (IH k1 k') as (B1 & B2 & B3 & B4 & B5); auto.
    { intros x X. apply HW. right. exact X. }
    split; [exact B1|]. split; [|split; [|split; [lia|congruence]]].
    + rewrite B2, A2, <- app_assoc. simpl. rewrite <- Et. destruct w; reflexivity.
    + congruence.
Qed.

Lemma run_adds_ok : forall c ws k, has_chain k c = true ->
  exists k', run_cmds k (map (add_cmd c) ws) = Some k'.
Proof.
  induction ws as [|w ws IH]; intros k H; simpl.
  - eauto.
  - rewrite H. apply IH. exact H.
Qed.

Lemma run_flush : forall c k k', run_cmd k (CmdFlush c) = Some k' ->
  rules_of c k' = [] /\ rules_elsewhere c k' = rules_elsewhere c k /\ k_next k' = k_next k
  /\ k_chains k' = k_chains k /\ has_chain k c = true.
Proof.
  intros c k k' H. simpl in H. destruct (has_chain k c) eqn:EH; [|discriminate]. injection H as <-.
  unfold rules_of, rules_elsewhere. simpl. split; [|split; [|auto]].
  - induction (k_rules k) as [|r l IH]; [reflexivity|]. simpl.
    destruct (chain_eqb (r_chain r) c) eqn:E; simpl; [exact IH|]. rewrite E. exact IH.
  - induction (k_rules k) as [|r l IH]; [reflexivity|]. simpl.
    destruct (chain_eqb (r_chain r) c) eqn:E; simpl; [exact IH|]. rewrite E. simpl. f_equal. exact IH.
Qed.

Lemma filter_filter_comm : forall (A : Type) (f g : A -> bool) l,
  filter f (filter g l) = filter (fun x => f x && g x) l.
Proof.
  intros A f g. induction l as [|x l IH]; [reflexivity|]. simpl.
  destruct (g x) eqn:G; simpl.
  - destruct (f x); simpl; [f_equal|]; exact IH.
  - rewrite andb_false_r. exact IH.
Qed.

Lemma run_delete : forall c h k k', run_cmd k (CmdDelete c h) = Some k' ->
  rules_of c k' = filter (fun r => negb (r_handle r =? h)) (rules_of c k)
  /\ (exists r, In r (rules_of c k) /\ r_handle r = h)
  /\ rules_elsewhere c k' = rules_elsewhere c k /\ k_next k' = k_next k
  /\ k_chains k' = k_chains k.
Proof.
  intros c h k k' H. simpl in H.
  destruct (existsb _ (k_rules k)) eqn:EX; [|discriminate]. injection H as <-.
  unfold rules_of, rules_elsewhere. simpl. split; [|split; [|split; [|auto]]].
  - rewrite !filter_filter_comm. apply filter_ext. intros r.
    destruct (chain_eqb (r_chain r) c), (r_handle r =? h); reflexivity.
  - apply existsb_exists in EX. destruct EX as (r & I & E). apply andb_true_iff in E.
    destruct E as [E1 E2]. exists r. split; [|lia]. apply filter_In. auto.
  - rewrite filter_filter_comm. apply filter_ext. intros r.
    destruct (chain_eqb (r_chain r) c), (r_handle r =? h); reflexivity.
Qed.

Lemma NoDup_filter_map : forall (A B : Type) (g : A -> B) (f : A -> bool) l,
  NoDup (map g l) -> NoDup (map g (filter f l)).
Proof.
  intros A B g f. induction l as [|x l IH]; intros H; [constructor|].
  simpl in H. inversion H; subst. simpl. destruct (f x); [|auto].
  simpl. constructor; [|auto]. intros I. apply H2. apply in_map_iff in I.
  destruct I as (y & E & I). apply filter_In in I. apply in_map_iff. exists y. tauto.
Qed.

Lemma filter_handle_perm : forall l r, NoDup (map r_handle l) -> In r l ->
  Permutation l (r :: filter (fun x => negb (r_handle x =? r_handle r)) l).
Proof.
  induction l as [|x l IH]; intros r ND I; [contradiction|].
  simpl in ND. inversion ND; subst. simpl. destruct I as [->|I].
  - rewrite N.eqb_refl. simpl. constructor.
    replace (filter (fun x => negb (r_handle x =? r_handle r)) l) with l; [reflexivity|].
    symmetry. clear - H1. induction l as [|y l IH]; [reflexivity|]. simpl.
    destruct (r_handle y =? r_handle r) eqn:E.
    + exfalso. apply H1. left. lia.
    + simpl. f_equal. apply IH. intros I. apply H1. right. exact I.
  - destruct (r_handle x =? r_handle r) eqn:E.
    + exfalso. apply H1. apply in_map_iff. exists r. split; [lia|exact I].
    + simpl. rewrite perm_swap. constructor. apply IH; auto.
Qed.

Lemma same_handle : forall l r s, NoDup (map r_handle l) -> In r l -> In s l ->
  r_handle r = r_handle s -> r = s.
Proof.
  induction l as [|x l IH]; intros r s ND I J E; [contradiction|].
  simpl in ND. inversion ND; subst. destruct I as [->|I], J as [->|J]; auto.
  - exfalso. apply H1. apply in_map_iff. exists s. auto.
  - exfalso. apply H1. apply in_map_iff. exists r. auto.
Qed.

(** Deleting handles that were looked up before. *)
Lemma run_deletes : forall c k0 (hw : list (N * (option text * list stmt))) k k',
  NoDup (map r_handle (rules_of c k0)) ->
  (forall h w, In (h, w) hw -> exists r, In r (rules_of c k0) /\ r_handle r = h /\ content r = w) ->
  (forall r, In r (rules_of c k) -> In r (rules_of c k0)) ->
  handles_ok c k ->
  run_cmds k (map (fun x => CmdDelete c (fst x)) hw) = Some k' ->
  handles_ok c k' /\ Permutation (contents c k) (map snd hw ++ contents c k')
  /\ rules_elsewhere c k' = rules_elsewhere c k /\ k_next k' = k_next k
  /\ k_chains k' = k_chains k.
Proof.
  induction hw as [|[h w] hw IH]; intros k k' ND0 HW SUB HK H.
  - simpl in H. injection H as <-. simpl. auto.
  - cbn [map run_cmds fst] in H.
    destruct (run_cmd k (CmdDelete c h)) as [k1|] eqn:R1; [|discriminate].
    apply run_delete in R1. destruct R1 as (A1 & (r & I & E) & A3 & A4 & A5).
    destruct HK as [ND LT].
    assert (content r = w) as EC.
    { destruct (HW h w (or_introl eq_refl)) as (r0 & I0 & E0 & C0).
      rewrite <- C0. f_equal. apply (same_handle (rules_of c k0)); auto. congruence. }
    destruct (IH k1 k') as (B1 & B2 & B3 & B4 & B5); auto.
    + intros h' w' I'. apply HW. right. exact I'.
    + intros r' I'. apply SUB. rewrite A1 in I'. apply filter_In in I'. apply I'.
    + split; rewrite A1.
      * apply NoDup_filter_map. exact ND.
      * intros r' I'. apply filter_In in I'. rewrite A4. apply LT. apply I'.
    + split; [exact B1|]. split; [|split; [congruence|split; congruence]].
      unfold contents at 1. rewrite (filter_handle_perm _ r ND I), E. cbn [map snd app].
      rewrite EC. constructor. unfold contents in B2 at 1. rewrite A1 in B2. exact B2.
Qed.

(** ** Commands of the daemon *)

Lemma match_saddr_source : forall f a s, match_saddr f a = Ok s -> s = source_match a.
Proof.
  intros f [o|o] s H; simpl in *.
  - destruct f; congruence.
  - destruct (to_ipv4_mapped o); destruct f; congruence.
Qed.

Lemma match_saddr_no_panic : forall f a, match_saddr f a <> Panic.
Proof.
  intros f [o|o]; simpl; [destruct f; discriminate|].
  destruct (to_ipv4_mapped o); destruct f; discriminate.
Qed.

Section Daemon.
Variable conf : config.
Variable c : chain_name.
Hypothesis CC : configured_chain conf c.

Lemma names_ok : nft_names conf = Ok c.
Proof.
  destruct CC as (E1 & N1 & E2 & N2 & E3). unfold nft_names. rewrite <- E1, <- E2, E3.
  destruct c as [f t n]. simpl in *. destruct f; simpl; destruct t, n; congruence.
Qed.

Definition supported (a : ip) : Prop := match_saddr (cn_family c) a = Ok (source_match a).

Lemma gen_add_cmd_some : forall a p,
  (supported a /\ gen_add_cmd conf (Some a) p = Ok (add_cmd c (want (Some a) p)))
  \/ (exists e, gen_add_cmd conf (Some a) p = Err e) /\ ~ supported a.
Proof.
  intros a p. unfold gen_add_cmd. rewrite names_ok. unfold supported. simpl bind.
  destruct (match_saddr (cn_family c) a) as [s|e|] eqn:E; simpl.
  - left. pose proof (match_saddr_source _ _ _ E) as ->. auto.
  - right. split; [eauto|discriminate].
  - exfalso. eapply match_saddr_no_panic. exact E.
Qed.

Lemma gen_add_cmd_none : forall p, gen_add_cmd conf None p = Ok (add_cmd c (want None p)).
Proof. intros p. unfold gen_add_cmd. rewrite names_ok. reflexivity. Qed.

Lemma gen_add_cmds_some : forall l,
  (supported (l_addr l) /\ gen_add_cmds conf l = Ok (map (add_cmd c) (lease_contents l)))
  \/ (exists e, gen_add_cmds conf l = Err e) /\ ~ supported (l_addr l).
Proof.
  intros l. unfold gen_add_cmds. rewrite lease_contents_want.
  assert (forall ps, ps <> [] ->
    (supported (l_addr l) /\ collect (fun p => gen_add_cmd conf (Some (l_addr l)) p) ps
                             = Ok (map (add_cmd c) (map (want (Some (l_addr l))) ps)))
    \/ (exists e, collect (fun p => gen_add_cmd conf (Some (l_addr l)) p) ps = Err e)
       /\ ~ supported (l_addr l)) as H.
  { induction ps as [|p ps IH]; intros NE; [congruence|].
    simpl. destruct (gen_add_cmd_some (l_addr l) p) as [[S ->]|[[e ->] S]].
    - simpl. left. split; [exact S|]. destruct ps as [|q ps]; [reflexivity|].
      destruct IH as [[_ E]|[_ NS]]; [discriminate| |tauto]. rewrite E. reflexivity.
    - simpl. right. split; [eauto|exact S]. }
  apply H. destruct (l_port l); discriminate.
Qed.

Lemma collect_adds : forall ls, (forall l, In l ls -> supported (l_addr l)) ->
  collect (gen_add_cmds conf) ls = Ok (map (fun l => map (add_cmd c) (lease_contents l)) ls).
Proof.
  induction ls as [|l ls IH]; intros H; [reflexivity|].
  simpl. destruct (gen_add_cmds_some l) as [[_ ->]|[_ NS]].
  - simpl. rewrite IH; [reflexivity|]. intros x X. apply H. right. exact X.
  - exfalso. apply NS. apply H. left. reflexivity.
Qed.

Lemma collect_ctrl : forall ps,
  collect (gen_add_cmd conf None) ps = Ok (map (add_cmd c) (map (want None) ps)).
Proof.
  induction ps as [|p ps IH]; [reflexivity|]. cbn [collect]. rewrite gen_add_cmd_none.
  simpl. rewrite IH. reflexivity.
Qed.

Lemma concat_map_map : forall (A B C : Type) (f : B -> C) (g : A -> list B) l,
  concat (map (fun x => map f (g x)) l) = map f (flat_map g l).
Proof.
  intros A B C f g. induction l as [|x l IH]; [reflexivity|]. simpl. rewrite map_app, IH. reflexivity.
Qed.

Lemma control_some : forall w, In w (control_contents conf) -> exists t, fst w = Some t.
Proof.
  intros w H. rewrite control_contents_want in H. apply in_map_iff in H.
  destruct H as (p & <- & _). simpl. eauto.
Qed.

Lemma leases_some : forall ls w, In w (flat_map lease_contents ls) -> exists t, fst w = Some t.
Proof.
  intros ls w H. apply in_flat_map in H. destruct H as (l & _ & H).
  rewrite lease_contents_want in H. apply in_map_iff in H. destruct H as (p & <- & _). simpl. eauto.
Qed.

Lemma handles_ok_empty : forall k, rules_of c k = [] -> handles_ok c k.
Proof. intros k H. split; rewrite H; [constructor|contradiction]. Qed.

Lemma apply_batch_cases : forall k cmds ok k' r, apply_batch k cmds ok = (k', r) ->
  (r = Ok tt /\ run_cmds k cmds = Some k' /\ ok = true)
  \/ (k' = k /\ (exists e, r = Err e) /\ (ok = false \/ run_cmds k cmds = None)).
Proof.
  intros k cmds ok k' r H. unfold apply_batch in H. destruct ok.
  - destruct (run_cmds k cmds) as [k1|].
    + injection H as <- <-. left. auto.
    + injection H as <- <-. right. eauto.
  - injection H as <- <-. right. eauto.
Qed.

(** Rebuild of a running firewall. *)
Lemma rebuild_running : forall k m order ok k' r,
  (forall l, In l (map snd m) -> supported (l_addr l)) ->
  (forall l, Permutation (order l) l) ->
  full_rebuild conf k (Firewall m false) order ok = (k', r) ->
  (r = Ok tt /\ handles_ok c k'
   /\ Permutation (contents c k')
                  (control_contents conf ++ flat_map lease_contents (map snd m))
   /\ rules_elsewhere c k' = rules_elsewhere c k /\ k_chains k' = k_chains k)
  \/ (k' = k /\ (exists e, r = Err e) /\ (ok = false \/ has_chain k c = false)).
Proof.
  intros k m order ok k' r SUP ORD H. unfold full_rebuild in H. rewrite names_ok in H.
  cbn [bind fw_shutdown fw_leases] in H. rewrite collect_ctrl in H. cbn [bind] in H.
  rewrite collect_adds in H.
  2:{ intros l I. apply SUP. apply (Permutation_in l (ORD (map snd m))). exact I. }
  cbn [bind] in H. rewrite concat_map_map, <- control_contents_want, <- map_app in H.
  apply apply_batch_cases in H. destruct H as [(-> & R & ->)|(-> & E & W)].
  - left. split; [reflexivity|]. cbn [run_cmds] in R.
    destruct (run_cmd k (CmdFlush c)) as [k1|] eqn:F; [|discriminate].
    apply run_flush in F. destruct F as (F1 & F2 & F3 & F4 & _).
    apply run_adds in R.
    + destruct R as (A1 & A2 & A3 & A4 & A5). split; [exact A1|]. split; [|split; congruence].
      rewrite A2. unfold contents at 1. rewrite F1. simpl.
      apply Permutation_app_head. apply Permutation_flat_map. apply ORD.
    + intros w I. apply in_app_or in I. destruct I as [I|I]; [apply control_some|eapply leases_some];
        eassumption.
    + apply handles_ok_empty. exact F1.
  - right. split; [reflexivity|]. split; [exact E|]. destruct W as [->|W]; [auto|right].
    cbn [run_cmds] in W. unfold run_cmd in W at 1.
    destruct (has_chain k c) eqn:HC; [|reflexivity]. exfalso.
    match type of W with run_cmds ?x (map _ ?ws) = _ =>
      destruct (run_adds_ok c ws x) as [k1 E1]; [exact HC|congruence] end.
Qed.

(** Rebuild after the shutdown flag is set. *)
Lemma rebuild_shutdown : forall k m order ok k' r,
  full_rebuild conf k (Firewall m true) order ok = (k', r) ->
  (r = Ok tt /\ rules_of c k' = [] /\ rules_elsewhere c k' = rules_elsewhere c k
   /\ k_chains k' = k_chains k)
  \/ (k' = k /\ (exists e, r = Err e) /\ (ok = false \/ has_chain k c = false)).
Proof.
  intros k m order ok k' r H. unfold full_rebuild in H. rewrite names_ok in H.
  cbn [bind fw_shutdown] in H. apply apply_batch_cases in H.
  destruct H as [(-> & R & ->)|(-> & E & W)].
  - left. cbn [run_cmds] in R. destruct (run_cmd k (CmdFlush c)) as [k1|] eqn:F; [|discriminate].
    injection R as <-. apply run_flush in F. tauto.
  - right. split; [reflexivity|]. split; [exact E|]. destruct W as [->|W]; [auto|right].
    cbn [run_cmds] in W. unfold run_cmd in W.
    destruct (has_chain k c); [discriminate|reflexivity].
Qed.

(** Adding a lease. *)
Lemma add_lease_cases : forall k l ok k' r, handles_ok c k -> add_lease conf k l ok = (k', r) ->
  (r = Ok tt /\ supported (l_addr l) /\ handles_ok c k'
   /\ contents c k' = contents c k ++ lease_contents l
   /\ rules_elsewhere c k' = rules_elsewhere c k /\ k_chains k' = k_chains k)
  \/ (k' = k /\ (exists e, r = Err e)
      /\ (ok = false \/ has_chain k c = false \/ ~ supported (l_addr l))).
Proof.
  intros k l ok k' r HK H. unfold add_lease in H.
  destruct (gen_add_cmds_some l) as [[S E]|[[e E] NS]]; rewrite E in H.
  - apply apply_batch_cases in H. destruct H as [(-> & R & ->)|(-> & X & W)].
    + left. split; [reflexivity|]. split; [exact S|]. apply run_adds in R; [tauto| |exact HK].
      intros w I. apply (leases_some [l]). simpl. rewrite app_nil_r. exact I.
    + right. split; [reflexivity|]. split; [exact X|]. destruct W as [->|W]; [auto|].
      right. left. destruct (has_chain k c) eqn:HC; [|reflexivity].
      destruct (run_adds_ok c (lease_contents l) k HC) as [k1 E1]. congruence.
  - injection H as <- <-. right. eauto 6.
Qed.

(** ** Lookup of handles *)

(** Every rule in the chain is one of letmein's. *)
Definition known (ws : list (option text * list stmt)) : Prop :=
  forall w, In w ws -> exists a p, w = want a p /\ (forall x, a = Some x -> ip_address x).

Lemma find_handle_ok : forall k a p h, known (contents c k) -> ip_address a ->
  find_handle k c a p = Ok h ->
  exists r, In r (rules_of c k) /\ r_handle r = h /\ content r = want (Some a) p.
Proof.
  intros k a p h KN HA H. unfold find_handle in H.
  destruct (find _ (k_rules k)) as [r|] eqn:F; [|discriminate]. injection H as <-.
  apply find_some in F. destruct F as [I F]. apply andb_true_iff in F. destruct F as [F1 F2].
  exists r. assert (In r (rules_of c k)) as IR by (apply filter_In; auto).
  split; [exact IR|]. split; [reflexivity|].
  destruct (KN (content r)) as (b & q & E & HB).
  { unfold contents. apply in_map. exact IR. }
  rewrite E. unfold content, want in E. injection E as E1 E2. rewrite E1 in F2.
  apply list_eqb_spec in F2. apply rule_comment_inj in F2; auto.
  - destruct F2 as [-> ->]. reflexivity.
  - intros x [= <-]. exact HA.
Qed.

Lemma find_handle_no_panic : forall k a p, find_handle k c a p <> Panic.
Proof. intros. unfold find_handle. destruct (find _ _); discriminate. Qed.

Lemma collect_deletes : forall k ls cmds, known (contents c k) ->
  (forall l, In l ls -> ip_address (l_addr l)) ->
  collect (gen_delete_cmds k conf) ls = Ok cmds ->
  exists hw, concat cmds = map (fun x => CmdDelete c (fst x)) hw
    /\ map snd hw = flat_map lease_contents ls
    /\ forall h w, In (h, w) hw -> exists r, In r (rules_of c k) /\ r_handle r = h /\ content r = w.
Proof.
  intros k ls cmds KN. revert cmds. induction ls as [|l ls IH]; intros cmds HA H.
  - simpl in H. injection H as <-. exists []. split; [reflexivity|]. split; [reflexivity|]. contradiction.
  - cbn [collect] in H. unfold gen_delete_cmds in H at 1. rewrite names_ok in H. cbn [bind] in H.
    assert (forall ps xs,
      collect (fun p => (do h <- find_handle k c (l_addr l) p; Ok (CmdDelete c h))%res) ps = Ok xs ->
      exists hw, xs = map (fun x => CmdDelete c (fst x)) hw
        /\ map snd hw = map (want (Some (l_addr l))) ps
        /\ forall h w, In (h, w) hw ->
           exists r, In r (rules_of c k) /\ r_handle r = h /\ content r = w) as L.
    { induction ps as [|p ps IHp]; intros xs X.
      - simpl in X. injection X as <-. exists []. split; [reflexivity|]. split; [reflexivity|]. contradiction.
      - cbn [collect] in X. destruct (find_handle k c (l_addr l) p) as [h| |] eqn:FH;
          cbn [bind] in X; try discriminate.
        destruct (collect _ ps) as [ys| |] eqn:CL; cbn [bind] in X; try discriminate.
        injection X as <-. destruct (IHp ys eq_refl) as (hw & E1 & E2 & E3).
        exists ((h, want (Some (l_addr l)) p) :: hw). simpl. rewrite E1, E2.
        split; [reflexivity|]. split; [reflexivity|].
        intros h' w' [[= <- <-]|I]; [|apply E3; exact I].
        apply find_handle_ok; auto. apply HA. left. reflexivity. }
    destruct (collect _ (single_ports (l_port l))) as [xs| |] eqn:C1; cbn [bind] in H; try discriminate.
    destruct (collect (gen_delete_cmds k conf) ls) as [ys| |] eqn:C2; cbn [bind] in H; try discriminate.
    injection H as <-.
    destruct (L _ _ C1) as (hw1 & A1 & A2 & A3).
    destruct (IH ys) as (hw2 & B1 & B2 & B3); auto.
    { intros x X. apply HA. right. exact X. }
    exists (hw1 ++ hw2). simpl. rewrite A1, B1, !map_app, A2, B2, lease_contents_want.
    split; [reflexivity|]. split; [reflexivity|].
    intros h w I. apply in_app_or in I. destruct I as [I|I]; auto.
Qed.

Lemma collect_deletes_no_panic : forall k ls, collect (gen_delete_cmds k conf) ls <> Panic.
Proof.
  intros k. induction ls as [|l ls IH]; [discriminate|].
  cbn [collect]. unfold gen_delete_cmds at 1. rewrite names_ok. cbn [bind].
  assert (forall ps,
    collect (fun p => (do h <- find_handle k c (l_addr l) p; Ok (CmdDelete c h))%res) ps <> Panic) as L.
  { induction ps as [|p ps IHp]; [discriminate|]. cbn [collect].
    pose proof (find_handle_no_panic k (l_addr l) p) as NP.
    destruct (find_handle k c (l_addr l) p); cbn [bind]; try discriminate; [|congruence].
    destruct (collect _ ps); cbn [bind]; try discriminate. congruence. }
  specialize (L (single_ports (l_port l))).
  destruct (collect _ (single_ports (l_port l))); cbn [bind]; try discriminate; [|congruence].
  destruct (collect _ ls); cbn [bind]; try discriminate. congruence.
Qed.

Lemma remove_leases_cases : forall k ls list_ok ok k' r,
  known (contents c k) -> handles_ok c k -> (forall l, In l ls -> ip_address (l_addr l)) ->
  remove_leases conf k ls list_ok ok = (k', r) ->
  (r = Ok tt /\ handles_ok c k'
   /\ Permutation (contents c k) (flat_map lease_contents ls ++ contents c k')
   /\ rules_elsewhere c k' = rules_elsewhere c k /\ k_chains k' = k_chains k)
  \/ (k' = k /\ exists e, r = Err e).
Proof.
  intros k ls lok ok k' r KN HK HA H. unfold remove_leases in H.
  destruct ls as [|l ls].
  { injection H as <- <-. left. simpl. auto. }
  set (ls' := l :: ls) in *. destruct lok; [|injection H as <- <-; right; eauto].
  destruct (collect (gen_delete_cmds k conf) ls') as [cmds|e|] eqn:C.
  - apply collect_deletes in C; auto. destruct C as (hw & E1 & E2 & E3).
    rewrite E1 in H. apply apply_batch_cases in H. destruct H as [(-> & R & _)|(-> & X & _)].
    + left. split; [reflexivity|].
      apply (run_deletes c k hw k k') in R; auto.
      * rewrite E2 in R. tauto.
      * apply HK.
    + right. auto.
  - injection H as <- <-. right. eauto.
  - exfalso. eapply collect_deletes_no_panic. exact C.
Qed.

(** *** Deleting the rules of leases succeeds *)

Lemma find_handle_complete : forall k a p, In (want (Some a) p) (contents c k) ->
  exists h, find_handle k c a p = Ok h.
Proof.
  intros k a p I. unfold contents in I. apply in_map_iff in I. destruct I as (r & E & I).
  apply filter_In in I. destruct I as [I C]. unfold find_handle.
  destruct (find _ (k_rules k)) as [x|] eqn:F; [eauto|]. exfalso.
  pose proof (find_none _ _ F r I) as N. cbv beta in N. rewrite C in N. cbn [andb] in N.
  unfold content, want in E. injection E as E1 E2. rewrite E1 in N.
  assert (list_eqb (rule_comment (Some a) p) (rule_comment (Some a) p) = true) as X by (apply list_eqb_spec; reflexivity).
  congruence.
Qed.

Lemma collect_deletes_complete : forall k ls,
  (forall l w, In l ls -> In w (lease_contents l) -> In w (contents c k)) ->
  exists cmds, collect (gen_delete_cmds k conf) ls = Ok cmds.
Proof.
  intros k. induction ls as [|l ls IH]; intros A; [exists []; reflexivity|].
  cbn [collect]. unfold gen_delete_cmds at 1. rewrite names_ok. cbn [bind].
  assert (forall ps, (forall p, In p ps -> In (want (Some (l_addr l)) p) (contents c k)) ->
    exists xs, collect (fun p => (do h <- find_handle k c (l_addr l) p; Ok (CmdDelete c h))%res) ps = Ok xs) as L.
  { induction ps as [|p ps IHp]; intros B; [exists []; reflexivity|]. cbn [collect].
    destruct (find_handle_complete k (l_addr l) p) as (h & ->); [apply B; left; reflexivity|]. cbn [bind].
    destruct IHp as (xs & ->); [intros q J; apply B; right; exact J|]. cbn [bind]. eauto. }
  destruct (L (single_ports (l_port l))) as (xs & ->).
  { intros p J. apply (A l); [left; reflexivity|]. rewrite lease_contents_want. apply in_map. exact J. }
  cbn [bind]. destruct IH as (ys & ->); [intros x w J; apply A; right; exact J|]. cbn [bind]. eauto.
Qed.

Lemma run_deletes_complete : forall (hs : list N) k, NoDup hs ->
  (forall h, In h hs -> exists r, In r (rules_of c k) /\ r_handle r = h) ->
  exists k', run_cmds k (map (CmdDelete c) hs) = Some k'.
Proof.
  induction hs as [|h hs IH]; intros k ND A; [exists k; reflexivity|]. cbn [map run_cmds run_cmd].
  inversion ND as [|? ? NI ND']; subst.
  destruct (A h (or_introl eq_refl)) as (r & I & E). apply filter_In in I. destruct I as [I C].
  replace (existsb _ (k_rules k)) with true.
  - apply IH; [exact ND'|]. intros h' J. destruct (A h' (or_intror J)) as (r' & I' & E').
    exists r'. split; [|exact E']. apply filter_In in I'. destruct I' as [I' C'].
    apply filter_In. split; [|exact C']. cbn [k_rules]. apply filter_In. split; [exact I'|].
    apply negb_true_iff, andb_false_iff. right. apply N.eqb_neq. intros X. apply NI. congruence.
  - symmetry. apply existsb_exists. exists r. split; [exact I|]. rewrite C. apply N.eqb_eq. exact E.
Qed.

Lemma nodup_fst_of_snd : forall {A B} (l : list (A * B)), NoDup (map snd l) ->
  (forall a b b', In (a, b) l -> In (a, b') l -> b = b') -> NoDup (map fst l).
Proof.
  intros A B. induction l as [|[a b] l IH]; intros ND F; [constructor|].
  cbn [map fst snd] in *. inversion ND as [|? ? NI ND']; subst. constructor.
  - intros I. apply in_map_iff in I. destruct I as ([a' b'] & E & I). cbn in E. subst a'.
    apply NI. rewrite (F a b b' (or_introl eq_refl) (or_intror I)).
    change b' with (snd (a, b')). apply in_map. exact I.
  - apply IH; [exact ND'|]. intros x y y' I J. eapply F; right; eassumption.
Qed.

Lemma remove_leases_complete : forall k ls,
  known (contents c k) -> handles_ok c k -> (forall l, In l ls -> ip_address (l_addr l)) ->
  (forall l w, In l ls -> In w (lease_contents l) -> In w (contents c k)) ->
  NoDup (flat_map lease_contents ls) ->
  exists k', remove_leases conf k ls true true = (k', Ok tt).
Proof.
  intros k ls KN HK HA IN ND. unfold remove_leases. destruct ls as [|l0 ls0]; [eauto|].
  set (ls := l0 :: ls0) in *. destruct (collect_deletes_complete k ls IN) as (cmds & C). rewrite C.
  apply collect_deletes in C; auto. destruct C as (hw & E1 & E2 & E3).
  rewrite E1. unfold apply_batch.
  replace (map (fun x => CmdDelete c (fst x)) hw) with (map (CmdDelete c) (map fst hw)) by (rewrite map_map; reflexivity).
  destruct (run_deletes_complete (map fst hw) k) as (k' & ->); [| |eauto].
  - apply nodup_fst_of_snd; [rewrite E2; exact ND|]. intros a b b' I J.
    destruct (E3 _ _ I) as (r & R1 & R2 & R3). destruct (E3 _ _ J) as (r' & Q1 & Q2 & Q3).
    rewrite <- R3, <- Q3. f_equal. apply (same_handle (rules_of c k)); auto; [apply HK|congruence].
  - intros h I. apply in_map_iff in I. destruct I as ([h' w] & E & I). cbn in E. subst h'.
    destruct (E3 _ _ I) as (r & R1 & R2 & _). eauto.
Qed.

End Daemon.
