(** Deleting the line with a user's key: C99. *)

From Coq Require Import String NArith List Lia Permutation.
From Verif Require Import M_Base M_Proto M_IpAddr M_FwProto M_ConfTypes M_Text M_Conf M_Str M_Utf8 M_Server
  S_Wire S_Session S_Text S_Conf
  P_Base P_Str P_Utf8 P_Ini P_Load P_Session P_Files P_Revoked Prop_Conf Prop_Session Prop_Setup
  S_Files S_Revoked.
Import ListNotations.
Local Open Scope N_scope.

(** *** C99 *)

(** The claim that deleting the line of a user's key takes the key away is false: if the
    file has two lines for the user, an older key comes back into force (C39: the second
    line is accepted without a word, and counts). *)
Definition old_key : list N := concat (repeat [1; 35; 69; 103] 8).
Definition new_key : list N := concat (repeat [137; 171; 205; 239] 8).
Local Open Scope string_scope.
Definition rotated_file : text := lit
  ("[KEYS]" ++ NL ++ "00000001 = " ++ hex64 "01234567" ++ NL ++ "00000001 = " ++ hex64 "89ABCDEF" ++ NL
   ++ "[RESOURCES]" ++ NL ++ "5 = port: 22" ++ NL).
Definition rotated_back : text := lit
  ("[KEYS]" ++ NL ++ "00000001 = " ++ hex64 "01234567" ++ NL
   ++ "[RESOURCES]" ++ NL ++ "5 = port: 22" ++ NL).
Local Close Scope string_scope.

Lemma keys_header : header_line (lit "[KEYS]") (lit "KEYS").
Proof. apply class_head. vm_compute. reflexivity. Qed.

Theorem C99_deleting_the_line_revokes_refuted :
  ~ (forall fraction file ls sc file' ls' sc' user,
     started_from fraction VarServer file ls sc -> key_line_deleted user ls ls' ->
     started_from fraction VarServer file' ls' sc' -> conf_key sc' user = None).
Proof.
  intros H.
  assert (started_from no_fraction VarServer (Some rotated_file) (lines rotated_file) (conf_of VarServer rotated_file)) as S1.
  { apply started_text; vm_compute; reflexivity. }
  assert (started_from no_fraction VarServer (Some rotated_back) (lines rotated_back) (conf_of VarServer rotated_back)) as S2.
  { apply started_text; vm_compute; reflexivity. }
  assert (key_line_deleted 1 (lines rotated_file) (lines rotated_back)) as D.
  { exists (firstn 2 (lines rotated_file)), (nth 2 (lines rotated_file) []), (skipn 3 (lines rotated_file)),
      (lit "00000001"), (lit (" " ++ hex64 "89ABCDEF")%string).
    split; [vm_compute; reflexivity|]. split; [vm_compute; reflexivity|]. split; [|split].
    - exists [], (lit "[KEYS]"), [nth 1 (lines rotated_file) []]. split; [vm_compute; reflexivity|].
      split; [exact keys_header|]. intros m n [<-|[]] HL. apply class_head in HL. vm_compute in HL. discriminate HL.
    - apply class_opt. vm_compute. reflexivity.
    - apply parse_id_spec. vm_compute. reflexivity. }
  pose proof (H _ _ _ _ _ _ _ _ S1 D S2) as X. vm_compute in X. discriminate X.
Qed.
Print Assumptions C99_deleting_the_line_revokes_refuted.

(** If no other line of the section KEYS is for the user, then the file without the line
    still loads, whatever the hash order, the user has no key any more, and nothing else has
    changed: with the key the configuration would be the old one; ... *)
Theorem C99_file_loads_without_the_key_partial :
  forall fraction variant file ls c file' ls' user,
  started_from fraction variant file ls c -> key_line_deleted user ls ls' -> no_key_line ls' user ->
  file_lines file' ls' ->
  forall order path, (forall m, Permutation m (order m)) ->
  exists c' key, conf_load fraction order (conf_new variant) path file' = (c', Ok tt)
    /\ started_from fraction variant file' ls' c' /\ conf_key c' user = None
    /\ conf_key c user = Some key /\ same_config c (with_key c' user key).
Proof. intros. eapply loads_without; eauto. Qed.
Print Assumptions C99_file_loads_without_the_key_partial.

(** ... what worked for other users still does (C54 says what that is); ... *)
Theorem C99_other_users_unaffected_partial :
  forall fraction cls sfile sls sc sls' user,
  started_from fraction VarServer sfile sls sc -> key_line_deleted user sls sls' -> no_key_line sls' user ->
  forall user' port rs, user' <> user -> files_agree cls sls user' port rs -> files_agree cls sls' user' port rs.
Proof. intros. eapply agree_left; eauto. Qed.
Print Assumptions C99_other_users_unaffected_partial.

(** ... and no session of a letmeind with the new file asks the firewall daemon for
    anything unless another user has authenticated; in particular not in a session that
    began with a knock of the user. *)
Theorem C99_revoked_user_opens_nothing_partial :
  forall fraction sfile sls sc sfile' sls' sc' user,
  started_from fraction VarServer sfile sls sc -> key_line_deleted user sls sls' -> no_key_line sls' user ->
  started_from fraction VarServer sfile' sls' sc' ->
  forall mac peer T tr p, srun T (server_run mac sc' peer) tr p ->
  forall fm ok, In (EvFwSend fm ok) tr ->
  (exists user' resource pre0 rest, user' <> user /\ authenticated mac sc' user' resource pre0 /\ tr = pre0 ++ rest)
  /\ (forall resource salt auth d b rest, tr = EvRecv d (RxBuf b) :: rest -> ~ wire_layout b Knock user resource salt auth).
Proof.
  intros fraction sfile sls sc sfile' sls' sc' user ST DL NL ST' mac peer T tr p R fm ok I.
  apply in_split in I. destruct I as (pre & post & E).
  destruct (C07_open_only_after_full_authentication mac sc' peer T tr p (started_keys_sized _ _ _ _ _ ST') R pre fm ok post E)
    as (user' & resource & pre0 & A & E').
  assert (user' <> user) as NE.
  { intros ->. destruct A as [key d1 kb salt nonce d2 chal d3 rb K _ _ _ _ _ _].
    apply (started_keys _ _ _ _ _ ST') in K. destruct K as (o & v & (rest & S & _) & J & _). exact (NL _ _ _ J S). }
  split.
  - exists user', resource, pre0, ([EvFwConnect true] ++ EvFwSend fm ok :: post). split; [exact NE|]. split; [exact A|].
    rewrite E, E', <- app_assoc. reflexivity.
  - intros res2 salt2 auth2 d b rest ET WL.
    destruct A as [key d1 kb salt nonce d2 chal d3 rb K VK _ _ _ _ _].
    rewrite E, E' in ET. simpl in ET. injection ET as _ <- _.
    destruct VK as (s & au & t & WL' & _). apply NE. destruct WL, WL'. congruence.
Qed.
Print Assumptions C99_revoked_user_opens_nothing_partial.

(** *** The hypotheses can be met *)

(** The sample file without the line for user b. *)
Definition sample_without : text := Eval vm_compute in
  (concat (map (fun l => l ++ lit NL) (firstn 8 (lines sample_file) ++ skipn 9 (lines sample_file))))%list.

Example C99_witness :
  started_from no_fraction VarServer (Some sample_file) (lines sample_file) sample_conf
  /\ key_line_deleted 11 (lines sample_file) (lines sample_without)
  /\ no_key_line (lines sample_without) 11
  /\ file_lines (Some sample_without) (lines sample_without)
  /\ conf_key (conf_of VarServer sample_without) 10 <> None
  /\ conf_key (conf_of VarServer sample_without) 11 = None.
Proof.
  split; [exact Prop_E2e.C54_server_started|]. split; [|split; [|split; [|split; vm_compute; [discriminate|reflexivity]]]].
  - exists (firstn 8 (lines sample_file)), (nth 8 (lines sample_file) []), (skipn 9 (lines sample_file)),
      (lit "B"), (lit (" " ++ hex64 "89abCDEF")%string).
    split; [vm_compute; reflexivity|]. split; [vm_compute; reflexivity|]. split; [|split].
    + exists (firstn 6 (lines sample_file)), (lit "[KEYS]"), [nth 7 (lines sample_file) []]. split; [vm_compute; reflexivity|].
      split; [exact keys_header|]. intros m n [<-|[]] HL. apply class_head in HL. vm_compute in HL. discriminate HL.
    + apply class_opt. vm_compute. reflexivity.
    + apply parse_id_spec. vm_compute. reflexivity.
  - intros o v rest J (pre & h & mid & l & E & _ & OL & _).
    assert (In l (lines sample_without)) as IN by (rewrite E; apply in_or_app; right; right; apply in_or_app; right; left; reflexivity).
    apply class_opt in OL. apply parse_id_spec in J. clear E. vm_compute in IN.
    repeat (destruct IN as [<-|IN]; [vm_compute in OL; first [discriminate OL|injection OL as <- <-; vm_compute in J; discriminate J]|]).
    destruct IN.
  - exists sample_without, sample_without. split; [reflexivity|]. split; [apply from_utf8_spec; vm_compute; reflexivity|apply lines_spec].
Qed.
