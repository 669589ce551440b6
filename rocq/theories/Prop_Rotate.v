(** Changing a user's key: C101. *)

From Coq Require Import String NArith List Lia Permutation.
From Verif Require Import M_Base M_Proto M_IpAddr M_FwProto M_ConfTypes M_Text M_Conf M_Str M_Utf8 M_Server
  S_Wire S_Session S_Text S_Conf
  P_Base P_Str P_Utf8 P_Ini P_Load P_Session P_Files P_Revoked P_Rotate Prop_Conf Prop_Session Prop_Setup Prop_Revoked
  S_Files S_Revoked S_Rotate.
Import ListNotations.
Local Open Scope N_scope.

(** *** C101 *)

(** The file with the new key loads, whatever the hash order, and nothing but the key of
    this user has changed; ... *)
Theorem C101_file_loads_with_the_new_key :
  forall fraction variant file ls c file' ls' user key,
  started_from fraction variant file ls c -> key_line_changed user key ls ls' -> file_lines file' ls' ->
  forall order path, (forall m, Permutation m (order m)) ->
  exists c', conf_load fraction order (conf_new variant) path file' = (c', Ok tt)
    /\ started_from fraction variant file' ls' c' /\ same_config c' (with_key c user key).
Proof. intros. eapply loads_changed; eauto. Qed.
Print Assumptions C101_file_loads_with_the_new_key.

(** ... what other users can do is what they could before; ... *)
Theorem C101_other_users_unaffected :
  forall fraction cls sfile sls sc sls' user key,
  started_from fraction VarServer sfile sls sc -> key_line_changed user key sls sls' ->
  forall user' port rs, user' <> user -> (files_agree cls sls user' port rs <-> files_agree cls sls' user' port rs).
Proof.
  intros fraction cls sfile sls sc sls' user key (_ & _ & _ & _ & W & _) CH user' port rs NE. eapply agree_other; eauto.
Qed.
Print Assumptions C101_other_users_unaffected.

(** ... once the same is done to the client's file, its user can do what they could before
    (C54 says what that is); ... *)
Theorem C101_user_can_knock_with_the_new_key :
  forall fraction cfile cls cc cls' sfile sls sc sls' user key,
  started_from fraction VarClient cfile cls cc -> key_line_changed user key cls cls' ->
  started_from fraction VarServer sfile sls sc -> key_line_changed user key sls sls' ->
  forall port rs, files_agree cls sls user port rs -> files_agree cls' sls' user port rs.
Proof.
  intros fraction cfile cls cc cls' sfile sls sc sls' user key (_ & _ & _ & _ & WC & _) CC (_ & _ & _ & _ & WS & _) CS port rs FA.
  exact (agree_both user key cls cls' sls sls' port rs CC WC CS WS FA).
Qed.
Print Assumptions C101_user_can_knock_with_the_new_key.

(** ... and a session of letmeind with the new file that began with a knock of the user
    asks the firewall daemon for something only after a knock and a response with
    tokens made with the new key, the only one letmeind has for the user. *)
Theorem C101_only_the_new_key_opens :
  forall fraction sfile sls sc sfile' sls' sc' user key,
  started_from fraction VarServer sfile sls sc -> key_line_changed user key sls sls' ->
  started_from fraction VarServer sfile' sls' sc' ->
  (forall k, In (user, k) (c_keys sc') <-> k = key)
  /\ forall mac peer T tr p, srun T (server_run mac sc' peer) tr p ->
     forall d b rest resource salt auth fm ok,
     tr = EvRecv d (RxBuf b) :: rest -> wire_layout b Knock user resource salt auth -> In (EvFwSend fm ok) tr ->
     valid_knock mac key user resource b
     /\ exists challenge d' rb, In (EvRecv d' (RxBuf rb)) rest /\ valid_response mac key user resource challenge rb.
Proof.
  intros fraction sfile sls sc sfile' sls' sc' user key ST CH ST'.
  assert (KEY : forall k, In (user, k) (c_keys sc') <-> k = key).
  { destruct ST as (_ & _ & _ & _ & W & _). destruct (options_changed _ _ _ _ CH W) as (_ & _ & (o & v & HO & I & KT & UN) & _).
    intros k. rewrite (started_keys _ _ _ _ _ ST'). split.
    - intros (o' & v' & H & J & K). destruct (UN _ _ H J) as (-> & ->). eapply key_text_fun; eauto.
    - intros ->. exists o, v. auto. }
  split; [exact KEY|].
  intros mac peer T tr p R d b rest resource salt auth fm ok ET WL I. apply in_split in I. destruct I as (pre & post & E).
  destruct (C07_open_only_after_full_authentication mac sc' peer T tr p (started_keys_sized _ _ _ _ _ ST') R pre fm ok post E)
    as (user' & resource' & pre0 & A & E').
  destruct A as [key' d1 kb salt' nonce d2 chal d3 rb K VK _ _ _ _ VR].
  rewrite E, E' in ET. simpl in ET. injection ET as -> -> <-.
  assert (user' = user /\ resource' = resource) as (-> & ->).
  { destruct VK as (s & au & t & WL' & _). destruct WL, WL'. split; congruence. }
  apply KEY in K. subst key'. split; [exact VK|]. exists nonce, d3, rb. split; [simpl; auto|exact VR].
Qed.
Print Assumptions C101_only_the_new_key_opens.

(** *** The hypotheses can be met *)

(** The sample file with another key for user b. *)
Definition changed_line : text := Eval vm_compute in (lit ("0000000B=" ++ hex64 "00112233"))%string.
Definition changed_key : list N := concat (repeat [0; 17; 34; 51] 8).
Definition sample_changed : text := Eval vm_compute in
  (concat (map (fun l => l ++ lit NL) (firstn 8 (lines sample_file) ++ changed_line :: skipn 9 (lines sample_file))))%list.

Lemma changed_value : key_text (lit (hex64 "00112233")) changed_key.
Proof.
  apply key_parse. split; [vm_compute; reflexivity|]. split; vm_compute; discriminate.
Qed.

Example C101_witness :
  started_from no_fraction VarServer (Some sample_file) (lines sample_file) sample_conf
  /\ key_line_changed 11 changed_key (lines sample_file) (lines sample_changed)
  /\ started_from no_fraction VarServer (Some sample_changed) (lines sample_changed) (conf_of VarServer sample_changed)
  /\ conf_key sample_conf 11 <> Some changed_key.
Proof.
  split; [exact Prop_E2e.C54_server_started|]. split; [|split; [apply started_text; vm_compute; reflexivity|vm_compute; discriminate]].
  exists (firstn 8 (lines sample_file)), (nth 8 (lines sample_file) []), changed_line, (skipn 9 (lines sample_file)),
      (lit "B"), (lit (" " ++ hex64 "89abCDEF")%string), (lit "0000000B"), (lit (hex64 "00112233")).
  split; [vm_compute; reflexivity|]. split; [vm_compute; reflexivity|]. split; [|split; [|split; [|split; [|split; [|split]]]]].
  - exists (firstn 6 (lines sample_file)), (lit "[KEYS]"), [nth 7 (lines sample_file) []]. split; [vm_compute; reflexivity|].
    split; [exact keys_header|]. intros m n [<-|[]] HL. apply class_head in HL. vm_compute in HL. discriminate HL.
  - apply class_opt. vm_compute. reflexivity.
  - apply parse_id_spec. vm_compute. reflexivity.
  - apply class_opt. vm_compute. reflexivity.
  - apply parse_id_spec. vm_compute. reflexivity.
  - exact changed_value.
  - intros o v rest J (pre & h & mid & l & E & _ & OL & _).
    assert (In l (firstn 8 (lines sample_file) ++ skipn 9 (lines sample_file))) as IN
      by (rewrite E; apply in_or_app; right; right; apply in_or_app; right; left; reflexivity).
    apply class_opt in OL. apply parse_id_spec in J. clear E. vm_compute in IN.
    repeat (destruct IN as [<-|IN]; [vm_compute in OL; first [discriminate OL|injection OL as <- <-; vm_compute in J; discriminate J]|]).
    destruct IN.
Qed.
