(** Properties of the configuration: C33-C40, C49, C52. *)

From Coq Require Import Ascii String ZArith NArith List Bool Lia ZifyBool ZifyNat ZifyN Permutation.
From Verif Require Import M_Base M_IpAddr M_ConfTypes M_Text M_Str M_Utf8 M_Conf S_Wire S_Text S_Conf
  P_Base P_Text P_Str P_Ini P_Conf P_Load P_Utf8 P_Gen P_ConfLoad.
Import ListNotations.
Local Open Scope N_scope.

(** An iteration order of the hash maps. *)
Definition some_order (order : omap -> omap) : Prop := forall m, Permutation m (order m).

(** *** C33 *)

(** A printed identifier is eight capital hexadecimal digits of that value, and
    reading it gives the identifier back. *)
Theorem C33_printed_id_parses : forall v, v < 4294967296 ->
  length (fmt_id v) = 8%nat
  /\ (forall c, In c (fmt_id v) -> 48 <= c <= 57 \/ 65 <= c <= 70)
  /\ numeral 16 (fmt_id v) v
  /\ parse_id (fmt_id v) = Ok v.
Proof.
  intros v H. destruct (fmt_id_spec v H) as (A & B & C). split; [exact A|]. split; [exact B|]. split; [exact C|].
  apply parse_id_spec. apply fmt_id_text. exact H.
Qed.
(** The parser accepts exactly the specified texts, with the specified value. *)
Theorem C33_parser_exact : forall t,
  (forall v, parse_id t = Ok v <-> id_text t v) /\ parse_id t <> Panic.
Proof. intros t. split; [intros v; apply parse_id_spec|apply parse_id_no_panic]. Qed.

Example C33_ex1 : parse_id (lit " 00ffABcd ") = Ok 16755661 /\ fmt_id 16755661 = lit "00FFABCD".
Proof. split; vm_compute; reflexivity. Qed.
Example C33_ex2 : (exists e, parse_id (lit "100000000") = Err e) /\ (exists e, parse_id (lit "") = Err e)
  /\ (exists e, parse_id (lit "-1") = Err e).
Proof. split; [|split]; eexists; vm_compute; reflexivity. Qed.
Print Assumptions C33_printed_id_parses.
Print Assumptions C33_parser_exact.

(** *** C40 *)

(** Every text has exactly one division into lines. *)
Theorem C40_lines : forall content, exists ls, lines_of content ls /\ forall ls', lines_of content ls' -> ls' = ls.
Proof.
  intros content. exists (lines content). split; [apply lines_spec|]. intros ls' L. eapply lines_of_fun; [exact L|apply lines_spec].
Qed.
(** The parser succeeds exactly for well-formed files, gives exactly the options
    of the file and never panics. *)
Theorem C40_ini_parser : forall content ls, lines_of content ls ->
  ((exists i, parse_str content = Ok i) <-> well_formed ls)
  /\ (forall i, parse_str content = Ok i -> forall s o v, ini_get i s o = Some v <-> has_option ls s o v)
  /\ parse_str content <> Panic.
Proof.
  intros content ls L. destruct (parse_str_spec content ls L) as [(e & -> & NW)|(i & -> & W & _ & _ & IG)].
  - split; [split; [intros (i & X); discriminate|contradiction]|]. split; [discriminate|discriminate].
  - split; [split; [auto|eauto]|]. split; [|discriminate]. intros i' [= <-]. exact IG.
Qed.
(** The same for files. *)
Theorem C40_ini_file : forall file,
  (forall i, ini_from_file file = Ok i -> exists ls, file_lines file ls /\ well_formed ls
     /\ forall s o v, ini_get i s o = Some v <-> has_option ls s o v)
  /\ ((exists ls, file_lines file ls /\ well_formed ls) -> exists i, ini_from_file file = Ok i)
  /\ ini_from_file file <> Panic.
Proof.
  intros file. destruct (ini_file file) as [(ls & i & FL & W & E & IG & _)|(NW & e & E)]; rewrite E.
  - split; [|split; [eauto|discriminate]]. intros i' [= <-]. eauto.
  - split; [discriminate|]. split; [|discriminate]. intros (ls & FL & W). exfalso. eapply NW; eauto.
Qed.
(** UTF-8 is decoded exactly. *)
Theorem C40_utf8 : forall bytes t, from_utf8 bytes = Some t <-> utf8 bytes t.
Proof. exact from_utf8_spec. Qed.
(** An option has one value. *)
Theorem C40_one_value : forall ls s o v w, well_formed ls -> has_option ls s o v -> has_option ls s o w -> v = w.
Proof. intros. eapply has_option_fun; eauto. Qed.

Definition NL : string := String "010"%char EmptyString.
Local Open Scope string_scope.
Definition sample : text := lit
  ("# comment" ++ NL ++ "[A]" ++ NL ++ " x = 1 " ++ NL ++ "y=a=b" ++ NL ++ NL ++ " [B C] " ++ NL ++ "x = 2" ++ NL ++ "x = 3").
Local Open Scope N_scope.
Example C40_ex1 : exists i, parse_str sample = Ok i
  /\ ini_get i (lit "A") (lit "x") = Some (lit " 1 ") /\ ini_get i (lit "A") (lit "y") = Some (lit "a=b")
  /\ ini_get i (lit "B C") (lit "x") = Some (lit " 3") /\ ini_get i (lit "B C") (lit "y") = None.
Proof. eexists. repeat (split; [vm_compute; reflexivity|]). vm_compute. reflexivity. Qed.
Example C40_ex2 : (exists e, parse_str (lit "x = 1") = Err e) /\ (exists e, parse_str (lit ("[A]" ++ NL ++ "= 1")) = Err e)
  /\ (exists e, parse_str (lit ("[A]" ++ NL ++ "x")) = Err e) /\ (exists e, parse_str (lit ("[A]" ++ NL ++ "[A]")) = Err e).
Proof. repeat split; eexists; vm_compute; reflexivity. Qed.
Example C40_ex3 : well_formed (lines sample) /\ has_option (lines sample) (lit "B C") (lit "x") (lit " 3").
Proof.
  pose proof (C40_ini_parser sample (lines sample) (lines_spec sample)) as (A & B & _).
  destruct C40_ex1 as (i & E & _ & _ & H & _). split; [apply A; eauto|]. apply (B i E). exact H.
Qed.
Print Assumptions C40_lines.
Print Assumptions C40_ini_parser.
Print Assumptions C40_ini_file.
Print Assumptions C40_utf8.
Print Assumptions C40_one_value.

(** *** C52: the loaded configuration is exactly what the file says *)

Theorem C52_load_exact : forall fraction order c path file ls,
  some_order order -> file_lines file ls -> well_formed ls ->
  ((exists c', conf_load fraction order c path file = (c', Ok tt))
     <-> exists c0, configures (duration_text fraction) ls c0 /\ c_variant c0 = c_variant c)
  /\ (forall c', conf_load fraction order c path file = (c', Ok tt) ->
        configures (duration_text fraction) ls c' /\ c_variant c' = c_variant c /\ c_path c' = Some path).
Proof.
  intros fraction order c path file ls OP FL W. split; [split|].
  - intros (c' & H). destruct (load_ok _ _ OP _ _ _ _ _ FL W H) as (A & B & _). eauto.
  - intros (c0 & CF & V). eapply load_possible; eauto.
  - intros c' H. eapply load_ok; eauto.
Qed.
(** A file has at most one meaning. *)
Theorem C52_meaning_unique : forall fraction ls a b, well_formed ls ->
  configures (duration_text fraction) ls a -> configures (duration_text fraction) ls b ->
  c_variant a = c_variant b -> same_config a b.
Proof. exact configures_fun. Qed.

Local Open Scope string_scope.
Definition hex64 (s : string) : string := s ++ s ++ s ++ s ++ s ++ s ++ s ++ s.
Definition sample_file : text := lit
  ("[GENERAL]" ++ NL ++ "debug = yes" ++ NL ++ "port = 1234 / TCP, udp" ++ NL ++ "control-timeout = 7" ++ NL
   ++ "control-error-policy = Full-Auth" ++ NL ++ "seccomp = kill" ++ NL
   ++ "[KEYS]" ++ NL ++ "0000000a = " ++ hex64 "01234567" ++ NL ++ "B = " ++ hex64 "89abCDEF" ++ NL
   ++ "[RESOURCES]" ++ NL ++ "1 = port: 22" ++ NL ++ "2 = udp / users: a, b / port: 0x35" ++ NL
   ++ "[NFTABLES]" ++ NL ++ "family = inet" ++ NL ++ "table = filter" ++ NL ++ "chain-input = LETMEIN" ++ NL).
Local Open Scope N_scope.
Definition no_fraction : text -> option N := fun _ => None.
Definition id_order : omap -> omap := fun m => m.
Lemma id_order_ok : some_order id_order. Proof. intros m. apply Permutation_refl. Qed.
Definition sample_conf : config := Eval vm_compute in fst (conf_load no_fraction id_order (conf_new VarServer) (lit "f") (Some sample_file)).
Lemma sample_loads : conf_load no_fraction id_order (conf_new VarServer) (lit "f") (Some sample_file) = (sample_conf, Ok tt).
Proof. vm_compute. reflexivity. Qed.
Lemma sample_lines : file_lines (Some sample_file) (lines sample_file) /\ well_formed (lines sample_file).
Proof.
  assert (U : from_utf8 sample_file = Some sample_file) by (vm_compute; reflexivity).
  split.
  - exists sample_file, sample_file. split; [reflexivity|]. split; [apply from_utf8_spec; exact U|apply lines_spec].
  - destruct (C40_ini_parser _ _ (lines_spec sample_file)) as (A & _). apply A. eexists. vm_compute. reflexivity.
Qed.
Example C52_ex1 : c_port sample_conf = ControlPort 1234 true true /\ c_debug sample_conf = true
  /\ c_control_timeout sample_conf = 7000000000 /\ c_policy sample_conf = PolFullAuth /\ c_seccomp sample_conf = ScKill
  /\ conf_resource sample_conf 1 = Some (ResPort 22 true false [])
  /\ conf_resource sample_conf 2 = Some (ResPort 53 false true [10; 11])
  /\ conf_resource sample_conf 3 = None
  /\ conf_key sample_conf 11 = Some (concat (repeat [137; 171; 205; 239] 8))
  /\ c_nft_exe sample_conf = lit "nft" /\ c_nft_table sample_conf = lit "filter".
Proof. repeat split; vm_compute; reflexivity. Qed.
Example C52_ex2 : configures (duration_text no_fraction) (lines sample_file) sample_conf.
Proof.
  destruct sample_lines as (FL & W).
  apply (C52_load_exact no_fraction id_order (conf_new VarServer) (lit "f") _ _ id_order_ok FL W). exact sample_loads.
Qed.
Print Assumptions C52_load_exact.
Print Assumptions C52_meaning_unique.

(** *** C35 *)

(** The keys of a loaded configuration are those of the file. *)
Theorem C35_loaded_keys : forall fraction order c path file ls c',
  some_order order -> file_lines file ls -> well_formed ls ->
  conf_load fraction order c path file = (c', Ok tt) ->
  forall id k, conf_key c' id = Some k <->
    exists o v, has_option ls (lit "KEYS") o v /\ id_text o id /\ key_text v k.
Proof.
  intros fraction order c path file ls c' OP FL W H. destruct (load_ok _ _ OP _ _ _ _ _ FL W H) as (CF & _).
  destruct CF as [_ _ _ _ _ (_ & _ & T) _ _ _ _]. exact T.
Qed.
(** They are sane. *)
Theorem C35_keys_sane : forall fraction order c path file ls c',
  some_order order -> file_lines file ls -> well_formed ls ->
  conf_load fraction order c path file = (c', Ok tt) ->
  forall id k, conf_key c' id = Some k ->
    length k = 32%nat /\ (forall b, In b k -> b < 256) /\ (exists b, In b k /\ b <> 0) /\ (exists b, In b k /\ b <> 255).
Proof.
  intros fraction order c path file ls c' OP FL W H id k K.
  apply (C35_loaded_keys _ _ _ _ _ _ _ OP FL W H) in K. destruct K as (o & v & _ & _ & body & _ & HB & L & N0 & N1).
  assert (R : forall x (l : list N), l <> repeat x (length l) -> exists b, In b l /\ b <> x).
  { intros x l. induction l as [|a l IH]; intros NE; [exfalso; apply NE; reflexivity|].
    destruct (N.eq_dec a x) as [->|D]; [|exists a; split; [left; reflexivity|exact D]].
    destruct IH as (b & I & D); [intros E; apply NE; simpl; congruence|]. exists b. split; [right; exact I|exact D]. }
  split; [exact L|]. split.
  - clear - HB. induction HB as [|a b h l t k DA DB HB IH]; [intros ? []|]. intros x [<-|I]; [|auto].
    apply digit_16 in DA, DB. lia.
  - rewrite <- L in N0, N1. auto.
Qed.
(** A configuration with an entry that is not a key is rejected and nothing
    changes. *)
Theorem C35_invalid_key_rejected : forall fraction order c path file ls o v,
  some_order order -> file_lines file ls -> well_formed ls ->
  has_option ls (lit "KEYS") o v -> ((forall id, ~ id_text o id) \/ (forall k, ~ key_text v k)) ->
  exists e, conf_load fraction order c path file = (c, Err e).
Proof.
  intros fraction order c path file ls o v OP FL W H B. eapply load_rejects; eauto.
  intros c0 _ [_ _ _ _ _ (T & _) _ _ _ _]. destruct (T _ _ H) as (id & k & I & K). destruct B as [B|B]; eapply B; eauto.
Qed.

Example C35_ex1 : conf_key sample_conf 10 = Some (concat (repeat [1; 35; 69; 103] 8)).
Proof. vm_compute. reflexivity. Qed.
Definition keys_file (k : string) : option (list N) := Some (lit ("[KEYS]" ++ NL ++ "1 = " ++ k)).
Example C35_ex2 : forall k, In k [hex64 "00000000"; hex64 "ffffffff"; hex64 "0123456"; hex64 "0123456g"; ""%string] ->
  exists e, conf_load no_fraction id_order (conf_new VarServer) [] (keys_file k) = (conf_new VarServer, Err e).
Proof.
  intros k I. cbn [In] in I. destruct I as [<-|[<-|[<-|[<-|[<-|[]]]]]]; eexists; vm_compute; reflexivity.
Qed.
Print Assumptions C35_loaded_keys.
Print Assumptions C35_keys_sane.
Print Assumptions C35_invalid_key_rejected.

(** *** C36 *)

Theorem C36_loaded_resources : forall fraction order c path file ls c',
  some_order order -> file_lines file ls -> well_formed ls ->
  conf_load fraction order c path file = (c', Ok tt) ->
  (forall id r, conf_resource c' id = Some r <->
     exists o v, has_option ls (lit "RESOURCES") o v /\ id_text o id /\ resource_text v r)
  /\ (forall i j r r', conf_resource c' i = Some r -> conf_resource c' j = Some r' -> rs_port r = rs_port r' -> i = j).
Proof.
  intros fraction order c path file ls c' OP FL W H. destruct (load_ok _ _ OP _ _ _ _ _ FL W H) as (CF & _).
  destruct CF as [_ _ _ _ _ _ (_ & _ & T) U _ _]. split; assumption.
Qed.
Lemma resource_sane : forall t r, resource_text t r ->
  (* one port, as written *)
  (exists x v, In x (split_on 47 t) /\ keyed x "port" v /\ int_text 65536 v (rs_port r))
  /\ rs_port r < 65536
  (* some transport; TCP if none is written *)
  /\ (rs_tcp r = true \/ rs_udp r = true)
  /\ ((forall x, In x (split_on 47 t) -> In 58 x) -> rs_tcp r = true /\ rs_udp r = false)
  (* who may use it *)
  /\ ((forall x v, In x (split_on 47 t) -> ~ keyed x "users" v) -> forall u, contains_user r u = true)
  /\ (forall x v, In x (split_on 47 t) -> keyed x "users" v ->
        rs_users r <> []
        /\ forall u, contains_user r u = true <-> exists y, In y (split_on 44 v) /\ id_text y u).
Proof.
  intros t r (ts & ps & S & F & EP & EU & ET & ED). apply split_on_separated in S. subst ts.
  assert (PU : forall x p, part_text x p -> forall v, keyed x "users" v ->
             exists ids, p = PartUsers ids /\ Forall2 id_text (split_on 44 v) ids).
  { intros x p PT v (k & E & NI & P). destruct p as [n|ids|l].
    - exfalso. destruct PT as (v' & (k' & E' & NI' & P') & _).
      assert (k = k' /\ v = v') as (<- & <-) by (eapply first_sep; [rewrite <- E; exact E'|exact NI|exact NI']).
      pose proof (padded_fun _ _ _ P P'). discriminate.
    - destruct PT as (v' & us & (k' & E' & NI' & P') & S & F2).
      assert (k = k' /\ v = v') as (<- & <-) by (eapply first_sep; [rewrite <- E; exact E'|exact NI|exact NI']).
      exists ids. split; [reflexivity|]. apply split_on_separated in S. subst us. exact F2.
    - exfalso. destruct PT as (NI58 & _). apply NI58. rewrite E. apply in_or_app. right. left. reflexivity. }
  assert (P : exists p, In p ps /\ p = PartPort (rs_port r)).
  { assert (I : In (rs_port r) (part_ports ps)) by (rewrite EP; left; reflexivity).
    apply in_flat_map in I. destruct I as (p & I & X). destruct p; cbn in X; try contradiction. destruct X as [->|[]]. eauto. }
  destruct P as (p & IP & ->). destruct (Forall2_in_r _ _ _ _ _ F _ IP) as (x & IX & v & K & IT).
  split; [eauto|]. split; [destruct IT as (b & _ & L & _); exact L|]. split; [|split; [|split]].
  - destruct (part_transports ps) as [|[|] l] eqn:E.
    + left. apply ET. auto.
    + left. apply ET. left. left. reflexivity.
    + right. apply ED. left. reflexivity.
  - intros A. assert (N : part_transports ps = []).
    { destruct (part_transports ps) as [|y l] eqn:E; [reflexivity|]. exfalso.
      assert (I : In y (part_transports ps)) by (rewrite E; left; reflexivity).
      apply in_flat_map in I. destruct I as (q & I & X). destruct q; cbn in X; try contradiction.
      destruct (Forall2_in_r _ _ _ _ _ F _ I) as (z & IZ & NI & _). apply NI. apply A. exact IZ. }
    split; [apply ET; auto|]. destruct (rs_udp r); [|reflexivity]. pose proof (proj1 ED eq_refl) as E.
    rewrite N in E. destruct E.
  - intros N u. assert (part_users ps = []) as E.
    { destruct (part_users ps) as [|y l] eqn:E; [reflexivity|]. exfalso.
      assert (I : In y (part_users ps)) by (rewrite E; left; reflexivity).
      apply in_flat_map in I. destruct I as (q & I & X). destruct q; cbn in X; try contradiction.
      destruct (Forall2_in_r _ _ _ _ _ F _ I) as (z & IZ & w & us & KZ & _). eapply N; eauto. }
    destruct EU as [(_ & E2)|E2]; [|congruence]. unfold contains_user. rewrite E2. reflexivity.
  - intros z w IZ KZ. destruct (Forall2_in_l _ _ _ _ _ F z IZ) as (q & IQ & PT).
    destruct (PU z q PT w KZ) as (ids & -> & F2).
    assert (I : In ids (part_users ps)) by (apply in_flat_map; exists (PartUsers ids); split; [exact IQ|left; reflexivity]).
    destruct EU as [(E & _)|E]; [rewrite E in I; destruct I|]. rewrite E in I. destruct I as [I|[]].
    assert (NE : rs_users r <> []).
    { rewrite I. intros ->. pose proof (split_on_nonempty 44 w). inversion F2; subst. congruence. }
    split; [exact NE|]. intros u. unfold contains_user. destruct (rs_users r) as [|a l] eqn:RU; [congruence|].
    rewrite I. unfold mem_N. rewrite existsb_exists. split.
    + intros (y & IY & EY). apply N.eqb_eq in EY. subst y. destruct (Forall2_in_r _ _ _ _ _ F2 u IY) as (s & IS & TS). eauto.
    + intros (y & IY & TY). destruct (Forall2_in_l _ _ _ _ _ F2 y IY) as (id & II & TI).
      exists id. split; [exact II|]. apply N.eqb_eq. eapply id_text_fun; eauto.
Qed.
(** Who may use a resource: everybody if there is no list of users. *)
Definition may_use (r : resource) (u : N) : Prop := rs_users r = [] \/ In u (rs_users r).
Lemma contains_user_iff : forall r u, contains_user r u = true <-> may_use r u.
Proof.
  intros r u. unfold contains_user, may_use. destruct (rs_users r) as [|a l]; [split; auto|].
  unfold mem_N. rewrite existsb_exists. split.
  - intros (x & I & E). apply N.eqb_eq in E. subst x. auto.
  - intros [E|I]; [discriminate|]. exists u. split; [exact I|]. apply N.eqb_refl.
Qed.

(** What the text of a resource, with these parts between its slashes, determines. *)
Theorem C36_resource_sane : forall t r parts, resource_text t r -> separated 47 t parts ->
  (* one port, as written *)
  (exists x v, In x parts /\ keyed x "port" v /\ int_text 65536 v (rs_port r))
  /\ rs_port r < 65536
  (* some transport; TCP if none is written *)
  /\ (rs_tcp r = true \/ rs_udp r = true)
  /\ ((forall x, In x parts -> In 58 x) -> rs_tcp r = true /\ rs_udp r = false)
  (* who may use it *)
  /\ ((forall x v, In x parts -> ~ keyed x "users" v) -> forall u, may_use r u)
  /\ (forall x v us, In x parts -> keyed x "users" v -> separated 44 v us ->
        rs_users r <> []
        /\ forall u, may_use r u <-> exists y, In y us /\ id_text y u).
Proof.
  intros t r parts R S. apply split_on_separated in S. subst parts.
  destruct (resource_sane t r R) as (A & B & C & D & E & F).
  split; [exact A|]. split; [exact B|]. split; [exact C|]. split; [exact D|]. split.
  - intros N u. apply contains_user_iff. apply E. exact N.
  - intros x v us I K S. apply split_on_separated in S. subst us. destruct (F x v I K) as (G & H). split; [exact G|].
    intros u. rewrite <- contains_user_iff. apply H.
Qed.
(** And letmeind asks exactly this. *)
Theorem C36_who_may_use : forall r u, contains_user r u = true <-> may_use r u.
Proof. exact contains_user_iff. Qed.
Theorem C36_invalid_resource_rejected : forall fraction order c path file ls o v,
  some_order order -> file_lines file ls -> well_formed ls ->
  has_option ls (lit "RESOURCES") o v -> ((forall id, ~ id_text o id) \/ (forall r, ~ resource_text v r)) ->
  exists e, conf_load fraction order c path file = (c, Err e).
Proof.
  intros fraction order c path file ls o v OP FL W H B. eapply load_rejects; eauto.
  intros c0 _ [_ _ _ _ _ _ (T & _) _ _ _]. destruct (T _ _ H) as (id & k & I & K). destruct B as [B|B]; eapply B; eauto.
Qed.
(** Two resources with the same port are rejected. *)
Theorem C36_shared_port_rejected : forall fraction order c path file ls o1 v1 r1 o2 v2 r2,
  some_order order -> file_lines file ls -> well_formed ls ->
  has_option ls (lit "RESOURCES") o1 v1 -> has_option ls (lit "RESOURCES") o2 v2 -> o1 <> o2 ->
  resource_text v1 r1 -> resource_text v2 r2 -> rs_port r1 = rs_port r2 ->
  exists e, conf_load fraction order c path file = (c, Err e).
Proof.
  intros fraction order c path file ls o1 v1 r1 o2 v2 r2 OP FL W H1 H2 NE R1 R2 E. eapply load_rejects; eauto.
  intros c0 _ [_ _ _ _ _ _ (T1 & T2 & T3) U _ _].
  destruct (T1 _ _ H1) as (i1 & x1 & I1 & X1). destruct (T1 _ _ H2) as (i2 & x2 & I2 & X2).
  assert (i1 = i2).
  { apply (U i1 i2 r1 r2); [apply T3; eauto|apply T3; eauto|exact E]. }
  subst i2. apply NE. eapply T2; eauto.
Qed.

Example C36_ex1 : resource_text (lit " udp / users: a, b / port: 0x35") (ResPort 53 false true [10; 11]).
Proof. apply parse_resource_spec. vm_compute. reflexivity. Qed.
Example C36_ex2 : forall t, In t ["port: 22 / users:"; "port: 22 / users: ,"; "users: 1"; "port: 22 / port: 23";
                                  "port: 65536"; "port: 22 / sctp"; "22"; "port: 22 / users: 1 / users: 2"]%string ->
  exists e, parse_resource (lit t) = Err e.
Proof.
  intros t I. cbn [In] in I.
  destruct I as [<-|[<-|[<-|[<-|[<-|[<-|[<-|[<-|[]]]]]]]]]; eexists; vm_compute; reflexivity.
Qed.
Print Assumptions C36_loaded_resources.
Print Assumptions C36_who_may_use.
Print Assumptions C36_resource_sane.
Print Assumptions C36_invalid_resource_rejected.
Print Assumptions C36_shared_port_rejected.

(** *** C37 *)

(** A failed load changes nothing; loading never panics. *)
Theorem C37_failed_load_changes_nothing : forall fraction order c path file c' r,
  some_order order -> conf_load fraction order c path file = (c', r) ->
  (r <> Ok tt -> c' = c) /\ r <> Panic.
Proof.
  intros fraction order c path file c' r OP H. apply (load_cases _ _ OP) in H.
  destruct H as [(ls & c0 & _ & _ & _ & _ & -> & ->)|[(ls & e & _ & _ & _ & -> & ->)|(_ & [(_ & -> & e & ->)|(_ & -> & ->)])]];
    (split; [intros X; first [reflexivity|exfalso; apply X; reflexivity]|discriminate]).
Qed.
(** A server never starts from a file that is missing, unreadable or malformed. *)
Theorem C37_server_rejects_bad_file : forall fraction order c path file,
  some_order order -> c_variant c = VarServer ->
  (forall ls, file_lines file ls -> well_formed ls -> forall c0, c_variant c0 = VarServer -> ~ configures (duration_text fraction) ls c0) ->
  exists e, conf_load fraction order c path file = (c, Err e).
Proof.
  intros fraction order c path file OP V N. destruct (conf_load fraction order c path file) as [c' r] eqn:H.
  apply (load_cases _ _ OP) in H.
  destruct H as [(ls & c0 & FL & W & CF & V0 & _)|[(ls & e & _ & _ & _ & -> & ->)|(_ & [(_ & -> & e & ->)|(V' & _)])]]; eauto.
  - exfalso. rewrite V in V0. exact (N ls FL W c0 V0 CF).
  - congruence.
Qed.
(** A client ignores a file it cannot read or that is not well-formed. *)
Theorem C37_client_ignores_unreadable : forall fraction order c path file,
  some_order order -> c_variant c = VarClient -> (forall ls, file_lines file ls -> ~ well_formed ls) ->
  conf_load fraction order c path file = (with_path c path, Ok tt).
Proof.
  intros fraction order c path file OP V N. destruct (conf_load fraction order c path file) as [c' r] eqn:H.
  apply (load_cases _ _ OP) in H.
  destruct H as [(ls & c0 & FL & W & _)|[(ls & e & FL & W & _)|(_ & [(V' & _)|(_ & -> & ->)])]].
  - exfalso. eapply N; eauto.
  - exfalso. eapply N; eauto.
  - congruence.
  - reflexivity.
Qed.
Example C37_ex1 : exists e, conf_load no_fraction id_order sample_conf [] None = (sample_conf, Err e).
Proof. eexists. vm_compute. reflexivity. Qed.
Example C37_ex2 : exists e, conf_load no_fraction id_order sample_conf [] (Some [91; 65; 200]) = (sample_conf, Err e).
Proof. eexists. vm_compute. reflexivity. Qed.
Example C37_ex3 : snd (conf_load no_fraction id_order (conf_new VarClient) [] (Some (lit "garbage"))) = Ok tt.
Proof. vm_compute. reflexivity. Qed.
Print Assumptions C37_failed_load_changes_nothing.
Print Assumptions C37_server_rejects_bad_file.
Print Assumptions C37_client_ignores_unreadable.

(** *** C38 *)

(** Iteration orders [o1] and [o2] while loading, any order [l1], [l2] of the
    loaded resources afterwards. *)
Theorem C38_order_independent : forall fraction o1 o2 c path file c1 r1 c2 r2,
  some_order o1 -> some_order o2 ->
  conf_load fraction o1 c path file = (c1, r1) -> conf_load fraction o2 c path file = (c2, r2) ->
  (r1 = Ok tt <-> r2 = Ok tt)
  /\ ((exists ls, file_lines file ls /\ well_formed ls) -> r1 = Ok tt ->
      same_config c1 c2
      /\ forall l1 l2 port user, Permutation l1 (c_resources c1) -> Permutation l2 (c_resources c2) ->
           res_id_by_port l1 port user = res_id_by_port l2 port user)
  /\ ((forall ls, file_lines file ls -> ~ well_formed ls) \/ r1 <> Ok tt -> c1 = c2).
Proof.
  intros fraction o1 o2 c path file c1 r1 c2 r2 P1 P2 H1 H2.
  pose proof (load_cases _ _ P1 _ _ _ _ _ H1) as L1. pose proof (load_cases _ _ P2 _ _ _ _ _ H2) as L2.
  destruct L1 as [(ls & c0 & FL & W & CF & V & -> & ->)|[(ls & e & FL & W & N & -> & ->)|(NW & L1)]].
  - destruct L2 as [(ls' & c0' & FL' & W' & CF' & V' & -> & ->)|[(ls' & e & FL' & W' & N & -> & ->)|(NW & _)]].
    + pose proof (file_lines_fun _ _ _ FL FL'). subst ls'.
      assert (SC : same_config (with_path c0 path) (with_path c0' path)).
      { eapply configures_fun; [exact W|apply configures_path; exact CF|apply configures_path; exact CF'|]. cbn. congruence. }
      split; [tauto|]. split; [|intros [X|X]; [exfalso; eapply X; eauto|congruence]].
      intros _ _. split; [exact SC|].
      intros l1 l2 port user Q1 Q2.
      destruct (load_nodup _ _ _ _ _ _ P1 H1) as (_ & A1 & B1); [eauto|].
      destruct (load_nodup _ _ _ _ _ _ P2 H2) as (_ & A2 & B2); [eauto|].
      assert (PN : forall (A B : Type) (f : A -> B) l m, Permutation l m -> NoDup (map f m) -> NoDup (map f l)).
      { intros A B f l m Q. apply Permutation_NoDup. apply Permutation_map. apply Permutation_sym. exact Q. }
      assert (NLK : forall (l m : nmap resource) id, Permutation l m -> NoDup (map fst l) -> NoDup (map fst m) -> nlookup id l = nlookup id m).
      { intros l m id Q N1 N2. destruct (nlookup id l) as [x|] eqn:E.
        - symmetry. apply nlookup_in; [exact N2|]. apply nlookup_in in E; [|exact N1]. eapply Permutation_in; eauto.
        - destruct (nlookup id m) as [x|] eqn:E2; [|reflexivity]. apply nlookup_in in E2; [|exact N2].
          apply Permutation_sym in Q. eapply Permutation_in in E2; [|exact Q]. apply nlookup_in in E2; [|exact N1]. congruence. }
      apply ports_same; try (eapply PN; [exact Q1|assumption]); try (eapply PN; [exact Q2|assumption]).
      intros id. rewrite (NLK _ _ id Q1); [|eapply PN; [exact Q1|assumption]|exact A1].
      rewrite (NLK _ _ id Q2); [|eapply PN; [exact Q2|assumption]|exact A2].
      destruct SC as (_ & _ & _ & _ & _ & _ & _ & X & _). apply X.
    + exfalso. rewrite (file_lines_fun _ _ _ FL FL') in CF. eapply N; eauto.
    + exfalso. eapply NW; eauto.
  - destruct L2 as [(ls' & c0' & FL' & W' & CF' & V' & -> & ->)|[(ls' & e' & FL' & W' & _ & -> & ->)|(NW & _)]].
    + exfalso. rewrite (file_lines_fun _ _ _ FL' FL) in CF'. eapply N; eauto.
    + split; [split; discriminate|]. split; [discriminate|reflexivity].
    + exfalso. eapply NW; eauto.
  - destruct L2 as [(ls' & c0' & FL' & W' & _)|[(ls' & e' & FL' & W' & _)|(_ & L2)]];
      [exfalso; eapply NW; eauto|exfalso; eapply NW; eauto|].
    destruct L1 as [(V & -> & e & ->)|(V & -> & ->)], L2 as [(V' & -> & e' & ->)|(V' & -> & ->)]; try congruence.
    + split; [split; discriminate|]. split; [discriminate|reflexivity].
    + split; [tauto|]. split; [|reflexivity]. intros (ls & FL & W). exfalso. eapply NW; eauto.
Qed.
(** What the lookup by port means. *)
Theorem C38_resource_by_port : forall fraction order c path file ls c',
  some_order order -> file_lines file ls -> well_formed ls ->
  conf_load fraction order c path file = (c', Ok tt) ->
  forall port user id, resource_id_by_port c' port user = Some id <->
    exists r, conf_resource c' id = Some r /\ rs_port r = port
      /\ (forall u, user = Some u -> may_use r u).
Proof.
  intros fraction order c path file ls c' OP FL W H port user id.
  destruct (load_nodup _ _ _ _ _ _ OP H) as (_ & A & B); [eauto|].
  unfold resource_id_by_port. rewrite by_port_spec by assumption. unfold conf_resource.
  split; intros (r & I & P & X); exists r; (split; [apply nlookup_in; assumption|]);
    (split; [exact P|intros u E; apply contains_user_iff; apply X; exact E]).
Qed.
Example C38_ex1 : some_order (@rev (text * text)) /\
  snd (conf_load no_fraction (@rev (text * text)) (conf_new VarServer) (lit "f") (Some sample_file)) = Ok tt
  /\ c_resources (fst (conf_load no_fraction (@rev (text * text)) (conf_new VarServer) (lit "f") (Some sample_file)))
     <> c_resources sample_conf.
Proof. split; [intros m; apply Permutation_rev|]. split; [vm_compute; reflexivity|]. vm_compute. discriminate. Qed.
Example C38_ex2 : resource_id_by_port sample_conf 53 (Some 11) = Some 2 /\ resource_id_by_port sample_conf 53 (Some 12) = None.
Proof. split; vm_compute; reflexivity. Qed.
Print Assumptions C38_order_independent.
Print Assumptions C38_resource_by_port.

(** *** C39 *)

Local Open Scope string_scope.
Definition twice_file : option (list N) := Some (lit
  ("[KEYS]" ++ NL ++ "00000001 = " ++ hex64 "01234567" ++ NL ++ "00000001 = " ++ hex64 "89ABCDEF" ++ NL
   ++ "[RESOURCES]" ++ NL ++ "5 = port: 22" ++ NL ++ "5 = port: 23")).
Local Open Scope N_scope.

(** Refuted: an identifier defined twice with the same spelling is accepted; the
    last definition counts. *)
Theorem C39_duplicates_rejected_refuted : exists file c',
  file = twice_file
  /\ conf_load no_fraction id_order (conf_new VarServer) [] file = (c', Ok tt)
  /\ conf_key c' 1 = Some (concat (repeat [137; 171; 205; 239] 8))
  /\ conf_resource c' 5 = Some (ResPort 23 true false []).
Proof.
  eexists. eexists. split; [reflexivity|]. split; [vm_compute; reflexivity|]. split; vm_compute; reflexivity.
Qed.
(** Proved: definitions of the same identifier with different spellings are
    rejected, and so is a repeated section. *)
Theorem C39_duplicates_rejected_partial : forall fraction order c path file ls s o1 v1 o2 v2 id,
  some_order order -> file_lines file ls -> well_formed ls -> s = "KEYS"%string \/ s = "RESOURCES"%string ->
  has_option ls (lit s) o1 v1 -> has_option ls (lit s) o2 v2 -> o1 <> o2 ->
  id_text o1 id -> id_text o2 id ->
  exists e, conf_load fraction order c path file = (c, Err e).
Proof.
  intros fraction order c path file ls s o1 v1 o2 v2 id OP FL W S H1 H2 NE I1 I2. eapply load_rejects; eauto.
  intros c0 _ [_ _ _ _ _ (_ & K & _) (_ & R & _) _ _ _]. apply NE. destruct S as [-> | ->]; [eapply K|eapply R]; eauto.
Qed.
Theorem C39_repeated_section_rejected_partial : forall fraction order c path file a b d l m n,
  some_order order -> c_variant c = VarServer ->
  file_lines file (a ++ l :: b ++ m :: d) -> header_line l n -> header_line m n ->
  exists e, conf_load fraction order c path file = (c, Err e).
Proof.
  intros fraction order c path file a b d l m n OP V FL HL HM.
  apply C37_server_rejects_bad_file; auto. intros ls FL' (_ & U & _) c0 _ _.
  rewrite (file_lines_fun _ _ _ FL' FL) in U. eapply U; eauto.
Qed.
Local Open Scope string_scope.
Definition spelled_file : text := lit ("[KEYS]" ++ NL ++ "01 = " ++ hex64 "01234567" ++ NL ++ "1 = " ++ hex64 "89ABCDEF").
Local Open Scope N_scope.
Example C39_ex1 : exists e, conf_load no_fraction id_order (conf_new VarServer) [] (Some spelled_file) = (conf_new VarServer, Err e).
Proof.
  assert (P : exists i, parse_str spelled_file = Ok i
    /\ ini_get i (lit "KEYS") (lit "01") <> None /\ ini_get i (lit "KEYS") (lit "1") <> None).
  { eexists. split; [vm_compute; reflexivity|]. split; vm_compute; discriminate. }
  destruct P as (i & P & A & B).
  destruct (ini_get i (lit "KEYS") (lit "01")) as [v1|] eqn:E1; [|congruence].
  destruct (ini_get i (lit "KEYS") (lit "1")) as [v2|] eqn:E2; [|congruence].
  destruct (C40_ini_parser _ _ (lines_spec spelled_file)) as (W & IG & _).
  apply (IG i P) in E1, E2.
  apply (C39_duplicates_rejected_partial no_fraction id_order _ _ _ (lines spelled_file) "KEYS" (lit "01") v1 (lit "1") v2 1 id_order_ok); auto.
  - exists spelled_file, spelled_file. split; [reflexivity|]. split; [apply from_utf8_spec; vm_compute; reflexivity|apply lines_spec].
  - apply W. eauto.
  - discriminate.
  - apply parse_id_spec. vm_compute. reflexivity.
  - apply parse_id_spec. vm_compute. reflexivity.
Qed.
Print Assumptions C39_duplicates_rejected_refuted.
Print Assumptions C39_duplicates_rejected_partial.
Print Assumptions C39_repeated_section_rejected_partial.

(** *** C34 *)

(** The printed line is an option whose name is the user and whose value is the
    key. *)
Theorem C34_genkey_line : forall default_user user u key,
  u = match user with Some x => x | None => default_user end -> u < 4294967296 ->
  all_bytes key -> length key = 32%nat -> key <> repeat 0 32 -> key <> repeat 255 32 ->
  exists o v, option_line (genkey_line default_user user key) o v /\ id_text o u /\ key_text v key.
Proof.
  intros d user u key E HU AB L N0 N1. exists (fmt_id u), (32 :: concat (map fmt_byte key)).
  split; [apply genkey_option; auto|]. split; [apply fmt_id_text; exact HU|apply genkey_value; auto].
Qed.
(** Put into the [KEYS] section of any configuration that loads and has no key
    for this user, it adds exactly this key. *)
Theorem C34_genkey_line_loads : forall fraction order default_user user u key pre post c path file file' c1,
  some_order order ->
  u = match user with Some x => x | None => default_user end -> u < 4294967296 ->
  all_bytes key -> length key = 32%nat -> key <> repeat 0 32 -> key <> repeat 255 32 ->
  file_lines file (pre ++ post)%list -> well_formed (pre ++ post)%list -> in_section pre (lit "KEYS") ->
  conf_load fraction order c path file = (c1, Ok tt) -> conf_key c1 u = None ->
  file_lines file' (pre ++ genkey_line default_user user key :: post)%list ->
  exists c2, conf_load fraction order c path file' = (c2, Ok tt)
    /\ same_config c2 (with_key c1 u key)
    /\ conf_key c2 u = Some key /\ (forall id, id <> u -> conf_key c2 id = conf_key c1 id).
Proof.
  intros fraction order d user u key pre post c path file file' c1 OP E HU AB L N0 N1 FL W IS H NK FL'.
  destruct (load_ok _ _ OP _ _ _ _ _ FL W H) as (CF & V & _).
  set (line := genkey_line d user key) in *.
  assert (OL : option_line line (fmt_id u) (32 :: concat (map fmt_byte key))) by (apply genkey_option; auto).
  assert (W' : well_formed (pre ++ line :: post)%list) by (eapply wf_insert; eauto).
  assert (CF' : configures (duration_text fraction) (pre ++ line :: post)%list (with_key c1 u key)).
  { eapply configures_with_key; eauto. apply genkey_value; auto. }
  destruct (load_possible fraction order OP c path file' _ _ FL' W' CF') as (c2 & H2); [cbn; congruence|].
  exists c2. split; [exact H2|].
  destruct (load_ok _ _ OP _ _ _ _ _ FL' W' H2) as (CF2 & V2 & _).
  assert (SC : same_config c2 (with_key c1 u key)) by (eapply configures_fun; eauto; cbn; congruence).
  split; [exact SC|]. destruct SC as (_ & _ & _ & _ & _ & _ & K & _). split.
  - rewrite K. unfold conf_key. cbn [with_key c_keys nlookup]. rewrite N.eqb_refl. reflexivity.
  - intros id NE. rewrite K. unfold conf_key. cbn [with_key c_keys nlookup]. apply N.eqb_neq in NE. rewrite NE. reflexivity.
Qed.
Definition gk_key : list N := concat (repeat [1; 35; 69; 103] 8).
Example C34_ex1 : genkey_line 0 (Some 171) gk_key = lit ("000000AB = " ++ hex64 "01234567").
Proof. vm_compute. reflexivity. Qed.
Example C34_ex2 :
  let file := Some (lit ("[KEYS]" ++ NL)%string ++ genkey_line 0 (Some 171) gk_key ++ lit (NL ++ "[RESOURCES]" ++ NL)%string)%list in
  let r := conf_load no_fraction id_order (conf_new VarServer) [] file in
  snd r = Ok tt /\ c_keys (fst r) = [(171, gk_key)].
Proof. split; vm_compute; reflexivity. Qed.
Example C34_ex3 :
  let pre := [lit "[KEYS]"; lit ("1 = " ++ hex64 "89ABCDEF")] in
  let post := [lit "[RESOURCES]"] in
  let file := Some (lit ("[KEYS]" ++ NL ++ "1 = " ++ hex64 "89ABCDEF" ++ NL ++ "[RESOURCES]" ++ NL)) in
  file_lines file (pre ++ post)%list /\ well_formed (pre ++ post)%list /\ in_section pre (lit "KEYS")
  /\ exists c1, conf_load no_fraction id_order (conf_new VarServer) [] file = (c1, Ok tt) /\ conf_key c1 171 = None.
Proof.
  intros pre post file.
  assert (FL : file_lines file (pre ++ post)%list).
  { eexists. eexists. split; [reflexivity|]. split; [apply from_utf8_spec; vm_compute; reflexivity|].
    match goal with |- lines_of ?t _ => pose proof (lines_spec t) as LS; vm_compute in LS; exact LS end. }
  split; [exact FL|]. split.
  { destruct FL as (b & t & E & U & LS). destruct (C40_ini_parser _ _ LS) as (W & _). apply W. injection E as <-.
    apply from_utf8_spec in U. vm_compute in U. injection U as <-. eexists. vm_compute. reflexivity. }
  split.
  - exists [], (lit "[KEYS]"), [lit ("1 = " ++ hex64 "89ABCDEF")]. split; [reflexivity|]. split.
    + apply class_head. vm_compute. reflexivity.
    + intros m n [<-|[]] HL. apply class_head in HL. vm_compute in HL. discriminate.
  - eexists. split; [vm_compute; reflexivity|]. vm_compute. reflexivity.
Qed.
Print Assumptions C34_genkey_line.
Print Assumptions C34_genkey_line_loads.

(** *** C49 *)

Theorem C49_option_parsers : forall t,
  (forall b, parse_bool t = Ok b <-> bool_text t b)
  /\ (forall n, parse_u16 t = Ok n <-> int_text 65536 t n)
  /\ (forall n, parse_u32 t = Ok n <-> int_text 4294967296 t n)
  /\ (forall p, parse_policy t = Ok p <-> policy_text t p)
  /\ (forall m, parse_seccomp t = Ok m <-> seccomp_text t m)
  /\ (forall fraction n, parse_duration fraction t = Ok n <-> duration_text fraction t n).
Proof.
  intros t. split; [apply parse_bool_spec|]. split; [intros; apply parse_uint_spec; reflexivity|].
  split; [intros; apply parse_uint_spec; reflexivity|]. split; [apply parse_policy_spec|].
  split; [apply parse_seccomp_spec|]. intros. apply parse_duration_spec.
Qed.
Theorem C49_no_panic : forall t,
  parse_bool t <> Panic /\ parse_u16 t <> Panic /\ parse_u32 t <> Panic /\ parse_policy t <> Panic
  /\ parse_seccomp t <> Panic /\ (forall fraction, parse_duration fraction t <> Panic)
  /\ parse_resource t <> Panic /\ (forall n, parse_hex n t <> Panic).
Proof.
  intros t. split; [apply parse_bool_no_panic|]. split; [apply parse_uint_no_panic|]. split; [apply parse_uint_no_panic|].
  split; [apply parse_policy_no_panic|]. split; [apply parse_seccomp_no_panic|]. split; [intro; apply parse_duration_no_panic|].
  split; [apply parse_resource_no_panic|]. intro. apply parse_hex_no_panic.
Qed.
(** The control port of a configuration file. *)
Theorem C49_control_port : forall i c,
  (get_port i = Ok c <->
     (exists t, ini_get i (lit "GENERAL") (lit "port") = Some t /\ control_port_text t c)
     \/ (ini_get i (lit "GENERAL") (lit "port") = None /\ c = ControlPort 5800 true false))
  /\ (get_port i = Ok c -> cp_port c < 65536 /\ (cp_tcp c = true \/ cp_udp c = true))
  /\ get_port i <> Panic.
Proof.
  intros i c.
  assert (A : get_port i = Ok c <->
     (exists t, ini_get i (lit "GENERAL") (lit "port") = Some t /\ control_port_text t c)
     \/ (ini_get i (lit "GENERAL") (lit "port") = None /\ c = ControlPort 5800 true false)).
  { rewrite get_port_eq. unfold get. destruct (ini_get i (lit "GENERAL") (lit "port")) as [t|].
    - rewrite parse_port_spec. split; [eauto|]. intros [(t' & [= <-] & X)|(X & _)]; [exact X|discriminate].
    - split; [intros [= <-]; auto|]. intros [(t' & X & _)|(_ & ->)]; [discriminate|reflexivity]. }
  split; [exact A|]. split.
  - intros H. apply A in H. destruct H as [(t & _ & ts & ps & S & F & EP & ET & EU)|(_ & ->)]; [|cbn; split; [lia|auto]].
    split.
    + rewrite EP. assert (B : forall l d, d < 65536 -> (forall n, In n l -> n < 65536) -> last l d < 65536).
      { clear. induction l as [|x l IH]; intros d D HI; [exact D|]. rewrite last_cons. apply IH; [apply HI; left; reflexivity|].
        intros n I. apply HI. right. exact I. }
      apply B; [lia|]. intros n I. apply in_flat_map in I. destruct I as (p & I & X). destruct p; cbn in X; try contradiction.
      destruct X as [->|[]]. destruct (Forall2_in_r _ _ _ _ _ F _ I) as (x & _ & _ & _ & b & _ & Lt & _). exact Lt.
    + destruct (pp_transports ps) as [|[|] l].
      * left. apply ET. auto.
      * left. apply ET. left. left. reflexivity.
      * right. apply EU. left. reflexivity.
  - rewrite get_port_eq. destruct (get i "GENERAL" "port"); [apply parse_port_no_panic|discriminate].
Qed.
Example C49_ex1 : parse_bool (lit " YES ") = Ok true /\ parse_bool (lit "Off") = Ok false
  /\ (exists e, parse_bool (lit "2") = Err e).
Proof. split; [vm_compute; reflexivity|]. split; [vm_compute; reflexivity|]. eexists. vm_compute. reflexivity. Qed.
Example C49_ex2 : parse_u16 (lit " 0xFFFF") = Ok 65535 /\ (exists e, parse_u16 (lit "65536") = Err e)
  /\ (exists e, parse_u16 (lit "0X10") = Err e) /\ (exists e, parse_u16 (lit "") = Err e).
Proof. split; [vm_compute; reflexivity|]. repeat split; eexists; vm_compute; reflexivity. Qed.
Example C49_ex3 : bool_text (lit " oN") true /\ int_text 65536 (lit "+0022") 22 /\ policy_text (lit "Basic-Auth") PolBasicAuth
  /\ seccomp_text (lit "KILL") ScKill /\ control_port_text (lit "5801 / udp") (ControlPort 5801 false true).
Proof.
  split; [apply parse_bool_spec; vm_compute; reflexivity|]. split; [apply parse_uint_spec; [reflexivity|vm_compute; reflexivity]|].
  split; [apply parse_policy_spec; vm_compute; reflexivity|]. split; [apply parse_seccomp_spec; vm_compute; reflexivity|].
  apply parse_port_spec. vm_compute. reflexivity.
Qed.
Print Assumptions C49_option_parsers.
Print Assumptions C49_no_panic.
Print Assumptions C49_control_port.
