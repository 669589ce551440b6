(** C78: what the programs say about a configuration file they reject does not
    reveal the keys in it. *)

From Coq Require Import String ZArith NArith List Bool Lia ZifyBool ZifyNat ZifyN Permutation.
From Verif Require Import M_Base M_IpAddr M_ConfTypes M_Text M_Str M_Utf8 M_Conf M_Report S_Wire S_Text S_Conf S_Report
  P_Base P_Text P_Str P_Ini P_Conf P_Load P_Utf8 P_Gen P_ConfLoad P_Report.
Import ListNotations.
Local Open Scope N_scope.

(** Every text that may stand for a key has exactly one flaw (or none). *)
Theorem C78_one_flaw : forall t,
  exists f, key_flaw_of t f /\ forall f', key_flaw_of t f' -> f' = f.
Proof.
  intros t.
  assert (D : exists f, key_flaw_of t f).
  { pose proof (trim_padded t) as P. destruct (is_ascii (trim t)) eqn:A.
    2:{ exists FlawNotAscii. exists (trim t). split; [exact P|]. rewrite ascii_spec. congruence. }
    apply ascii_spec in A. destruct (Nat.eq_dec (length (trim t)) 64) as [L|L].
    2:{ exists (FlawLength (length (trim t))), (trim t). auto. }
    destruct (hex_loop 32 (trim t)) as [k|e|] eqn:H.
    - apply hex_loop_spec in H; [|exact L]. pose proof (hex_bytes_length _ _ H) as HL.
      destruct (list_eqb k (repeat 0 32)) eqn:Z.
      { apply list_eqb_spec in Z. subst k. exists FlawZeros, (trim t). auto. }
      destruct (list_eqb k (repeat 255 32)) eqn:O.
      { apply list_eqb_spec in O. subst k. exists FlawOnes, (trim t). auto. }
      exists FlawNone, k, (trim t). split; [exact P|]. split; [exact H|]. split; [lia|].
      split; intros ->; rewrite list_eqb_refl in *; discriminate.
    - exists FlawDigit, (trim t). split; [exact P|]. split; [exact A|]. split; [exact L|]. intros k K.
      apply hex_loop_spec with (n := 32%nat) in K; [|exact L]. congruence.
    - exfalso. exact (hex_loop_no_panic 32 (trim t) L H). }
  destruct D as (f & F). exists f. split; [exact F|]. intros f' F'.
  assert (HB : forall k, hex_bytes (trim t) k -> ascii (trim t) /\ length (trim t) = (length k * 2)%nat).
  { intros k K. split; [apply ascii_spec; eapply hex_bytes_ascii; exact K|apply hex_bytes_length; exact K]. }
  assert (ZO : repeat 0 32 <> repeat 255 32) by discriminate.
  destruct f, f'; cbn [key_flaw_of] in F, F'; try reflexivity; unfold key_text in *;
    repeat match goal with
    | H : exists _, _ |- _ => destruct H
    | H : _ /\ _ |- _ => destruct H
    | H : padded t _ |- _ => apply padded_trim in H; subst
    end;
    try match goal with
    | H1 : hex_bytes _ ?k, H2 : hex_bytes _ ?l |- _ => pose proof (hex_bytes_fun _ _ _ H1 H2)
    end;
    try match goal with H : hex_bytes _ _ |- _ => pose proof (HB _ H) end;
    rewrite ?repeat_length in *; try congruence; exfalso; intuition (try congruence; try lia; eauto).
Qed.

(** Take two files that differ in one line of the section "KEYS", and there only
    in the text of the key, and let both texts have the same flaw (for example:
    both are keys).  Whatever else is in the files, well-formed or not, the
    program that loads the first ends with the same report as the one that loads
    the second: the report depends on the text of a key only through its flaw.
    This holds for every order in which maps are gone through, and for all
    programs. *)
Theorem C78_report_hides_keys : forall lower res_order fraction order show_path v path,
  (forall m, Permutation m (order m)) -> order_by_names order ->
  forall pre post name l1 l2 t1 t2 flaw file1 file2,
  file_lines file1 (pre ++ l1 :: post) -> file_lines file2 (pre ++ l2 :: post) ->
  in_section pre (lit "KEYS") ->
  option_line l1 name t1 -> option_line l2 name t2 ->
  key_flaw_of t1 flaw -> key_flaw_of t2 flaw ->
  rep_program lower res_order fraction order show_path v path file1
  = rep_program lower res_order fraction order show_path v path file2.
Proof.
  intros lower res_order fraction order show_path v path OP BN pre post name l1 l2 t1 t2 flaw f1 f2 F1 F2 IS O1 O2 K1 K2.
  unfold rep_program. f_equal. eapply report_alike; eauto. right. exists flaw. auto.
Qed.

(** A file that is not well-formed, or cannot be read at all, is reported without
    any of its content: the lines of the file do not matter.  (The client goes on
    with the defaults and says nothing.) *)
Theorem C78_malformed_says_only_the_path : forall lower res_order fraction order show_path path file,
  (forall ls, file_lines file ls -> ~ well_formed ls) ->
  rep_program lower res_order fraction order show_path VarServer path file
  = Some [lit "Configuration file"; lit "Failed to load configuration " ++ show_path path]
  /\ rep_program lower res_order fraction order show_path VarClient path file = None.
Proof.
  intros lower res_order fraction order show_path path file H. unfold rep_program.
  destruct (report_malformed lower res_order fraction order show_path path file H) as (-> & ->). auto.
Qed.

(** There is a report exactly if the file is rejected. *)
Theorem C78_report_iff_rejected : forall lower res_order fraction order show_path c path file,
  (forall m, Permutation m (order m)) -> (forall m, Permutation m (res_order m)) ->
  (rep_program lower res_order fraction order show_path (c_variant c) path file = None
   <-> snd (conf_load fraction order c path file) = Ok tt).
Proof.
  intros lower res_order fraction order show_path c path file OP RP. unfold rep_program.
  pose proof (fits_load lower res_order fraction order show_path c path file OP RP) as F.
  assert (NP : snd (conf_load fraction order c path file) <> Panic).
  { destruct (conf_load fraction order c path file) as [c' r] eqn:E. cbn [snd].
    apply (load_cases fraction order OP) in E.
    destruct E as [(? & ? & _ & _ & _ & _ & _ & ->)|[(? & ? & _ & _ & _ & _ & ->)|(_ & [(_ & _ & ? & ->)|(_ & _ & ->)])]];
      discriminate. }
  destruct (snd (conf_load fraction order c path file)) as [[]|e|]; cbn [fits] in F; [rewrite F|destruct F as (a & b & ->)|contradiction];
    cbn [context option_map]; split; congruence.
Qed.

(** *** A concrete case *)

Definition id_order (m : omap) : omap := m.
Definition id_res_order (m : nmap resource) : nmap resource := m.
Definition no_fraction (t : text) : option N := None.
Definition plain (t : text) : text := t.
Definition NL : string := String (Ascii.ascii_of_nat 10) EmptyString.
Definition D64 (s : string) : string := s ++ s ++ s ++ s ++ s ++ s ++ s ++ s.
Definition file_with (key last : string) : text :=
  lit ("[GENERAL]" ++ NL ++ "port = 5800" ++ NL ++ "[KEYS]" ++ NL ++ "00000001 = " ++ key ++ NL
       ++ "[RESOURCES]" ++ NL ++ last).
Definition says (key last : string) : report :=
  rep_program plain id_res_order no_fraction id_order plain VarServer (lit "f") (Some (file_with key last)).

(** A resource without port is reported, with the number of the resource; a key
    with a wrong digit, of a wrong length or with zeros only is reported as such;
    a line without '=' only as a failure to load the file; and a good file is not
    reported at all. *)
Example C78_ex1 :
  says (D64 "01234567") "00000002 = tcp"
  = Some [lit "Configuration file"; lit "[RESOURCE] '00000002': No 'port' value present"]
  /\ says (D64 "0123456G") "00000002 = port: 22"
  = Some [lit "Configuration file"; lit "[KEYS]"; lit "invalid digit found in string"]
  /\ says "0123" "00000002 = port: 22"
  = Some [lit "Configuration file"; lit "[KEYS]"; lit "Hex string is too short: Expected 64, got 4 chars"]
  /\ says (D64 "00000000") "00000002 = port: 22"
  = Some [lit "Configuration file"; lit "Invalid key 00000001: Key is all zeros (00)"]
  /\ says (D64 "01234567") "00000002"
  = Some [lit "Configuration file"; lit "Failed to load configuration f"]
  /\ says (D64 "01234567") "00000002 = port: 22" = None.
Proof. repeat (split; [vm_compute; reflexivity|]). vm_compute. reflexivity. Qed.

(** The hypotheses are met by two such files with different keys, both rejected
    because of another line. *)
Definition lines_before : list text := [lit "[GENERAL]"; lit "port = 5800"; lit "[KEYS]"].
Definition lines_after : list text := [lit "[RESOURCES]"; lit "00000002 = tcp"].
Definition key_line (key : string) : text := lit ("00000001 = " ++ key).
Lemma file_with_lines : forall key, key = D64 "01234567" \/ key = D64 "89ABCDEF" ->
  file_lines (Some (file_with key "00000002 = tcp")) (lines_before ++ key_line key :: lines_after)
  /\ option_line (key_line key) (lit "00000001") (lit (" " ++ key)) /\ key_flaw_of (lit (" " ++ key)) FlawNone.
Proof.
  intros key K. split; [|split].
  - eexists _, (file_with key "00000002 = tcp"). split; [reflexivity|]. split.
    + apply from_utf8_spec. destruct K as [-> | ->]; vm_compute; reflexivity.
    + replace (lines_before ++ key_line key :: lines_after) with (lines (file_with key "00000002 = tcp")); [apply lines_spec|].
      destruct K as [-> | ->]; vm_compute; reflexivity.
  - apply class_opt. destruct K as [-> | ->]; vm_compute; reflexivity.
  - cbn [key_flaw_of]. destruct (parse_hex 32 (lit (" " ++ key))) as [k| |] eqn:E.
    + exists k. pose proof E as E'. apply parse_hex_spec in E'. destruct E' as (body & P & H & L).
      exists body. split; [exact P|]. split; [exact H|]. split; [exact L|].
      split; intros ->; destruct K as [-> | ->]; vm_compute in E; discriminate.
    + exfalso. destruct K as [-> | ->]; vm_compute in E; discriminate.
    + exfalso. destruct K as [-> | ->]; vm_compute in E; discriminate.
Qed.
Example C78_ex2 :
  says (D64 "01234567") "00000002 = tcp" = says (D64 "89ABCDEF") "00000002 = tcp"
  /\ says (D64 "01234567") "00000002 = tcp" <> None.
Proof.
  split; [|rewrite (proj1 C78_ex1); discriminate].
  destruct (file_with_lines _ (or_introl eq_refl)) as (F1 & O1 & K1).
  destruct (file_with_lines _ (or_intror eq_refl)) as (F2 & O2 & K2).
  eapply (C78_report_hides_keys plain id_res_order no_fraction id_order plain VarServer (lit "f")); eauto.
  - intros m1 m2 E. exact E.
  - exists [lit "[GENERAL]"; lit "port = 5800"], (lit "[KEYS]"), []. split; [reflexivity|]. split.
    + apply class_head. vm_compute. reflexivity.
    + intros ? ? [].
Qed.

Print Assumptions C78_one_flaw.
Print Assumptions C78_report_hides_keys.
Print Assumptions C78_malformed_says_only_the_path.
Print Assumptions C78_report_iff_rejected.
