(** Properties of the wire protocol: C01-C05, C20, C48. *)

From Coq Require Import String NArith List.
From Verif Require Import M_Base M_Proto M_IpAddr M_FwProto M_Sha3 S_Wire
  P_Base P_Proto P_FwProto P_Sha3.
Import ListNotations.
Local Open Scope N_scope.

(** A concrete message used in the examples: the knock of the unit test
    letmein-proto/src/lib.rs 447-453. *)
Definition ex_knock : message :=
  Msg MAGIC Knock 0xA423DDA7 0xBC5D8077 (repeat 0x4A 8)
    [99; 153; 229; 224; 255; 22; 33; 154; 94; 191; 98; 153; 196; 29; 202; 24;
     154; 47; 118; 25; 189; 10; 178; 234; 95; 129; 184; 174; 249; 254; 6; 0].

Definition ex_challenge : message :=
  Msg MAGIC Challenge 0x280D04F3 0xE2EE7397 (repeat 0x91 8) (repeat 0xB8 32).

Definition ex_response : message :=
  Msg MAGIC Response 0x280D04F3 0xE2EE7397 (repeat 0x62 8)
    [172; 65; 151; 51; 129; 213; 147; 73; 88; 172; 2; 136; 153; 251; 144; 161;
     48; 188; 148; 235; 110; 140; 84; 128; 141; 33; 147; 29; 235; 185; 202; 42].

(** *** C01 *)

Theorem C01_roundtrip : forall m : message, api_message m ->
  exists b, msg_serialize m = Ok b /\ length b = 56%nat /\ try_msg_deserialize b = Ok m.
Proof. exact roundtrip. Qed.
Print Assumptions C01_roundtrip.

Example C01_nonvacuous : api_message ex_knock /\ api_message ex_challenge.
Proof. split; apply msg_ok_spec; reflexivity. Qed.

(** Messages built by the constructor are messages in this sense. *)
Theorem C01_new_is_api : forall o user resource salt m,
  user < 2 ^ 32 -> resource < 2 ^ 32 -> length salt = 8%nat -> all_bytes salt ->
  msg_new o user resource (Some salt) = Ok m -> api_message m.
Proof. exact msg_new_api. Qed.
Print Assumptions C01_new_is_api.

Example C01_new_nonvacuous :
  exists m, msg_new GoAway 0xFFFFFFFF 0 (Some [1; 2; 3; 4; 5; 6; 7; 8]) = Ok m.
Proof. eexists. reflexivity. Qed.

(** *** C02 *)

Theorem C02_accepts_exactly_valid_frames : forall b : list N, all_bytes b ->
  ((exists m, try_msg_deserialize b = Ok m) <-> valid_frame b).
Proof. exact decode_accepts_iff. Qed.
Print Assumptions C02_accepts_exactly_valid_frames.

Theorem C02_canonical : forall (b : list N) (m : message), all_bytes b ->
  try_msg_deserialize b = Ok m -> api_message m /\ msg_serialize m = Ok b.
Proof. exact decode_canonical. Qed.
Print Assumptions C02_canonical.

Theorem C02_no_panic : forall b : list N, all_bytes b -> try_msg_deserialize b <> Panic.
Proof. exact decode_no_panic. Qed.
Print Assumptions C02_no_panic.

Example C02_nonvacuous :
  (exists b, all_bytes b /\ valid_frame b)
  /\ (exists b, all_bytes b /\ length b = 56%nat /\ ~ valid_frame b).
Proof. exact wire_frames_exist. Qed.

(** *** C03 *)

Theorem C03_layout : forall m : message, api_message m ->
  exists b, msg_serialize m = Ok b
            /\ wire_layout b (m_op m) (m_user m) (m_resource m) (m_salt m) (m_auth m).
Proof. exact layout. Qed.
Print Assumptions C03_layout.

(** And the decoder reads the same layout. *)
Theorem C03_decoder_layout : forall (b : list N) (m : message), all_bytes b ->
  try_msg_deserialize b = Ok m ->
  wire_layout b (m_op m) (m_user m) (m_resource m) (m_salt m) (m_auth m).
Proof. exact decode_layout. Qed.
Print Assumptions C03_decoder_layout.

(** The literal of the unit test. *)
Example C03_unit_test :
  msg_serialize ex_knock = Ok
    ([0x3B; 0x1B; 0xB7; 0x19; 0; 0; 0; 0; 0xA4; 0x23; 0xDD; 0xA7;
      0xBC; 0x5D; 0x80; 0x77; 0x4A; 0x4A; 0x4A; 0x4A; 0x4A; 0x4A; 0x4A; 0x4A]
     ++ m_auth ex_knock).
Proof. reflexivity. Qed.

(** *** C04 *)

Theorem C04_knock_token_meaning : forall mac m k,
  api_message m -> m_op m = Knock -> length k = 32%nat ->
  exists text,
    protected_text text Knock (m_user m) (m_resource m) (m_salt m) no_challenge
    /\ ((check_auth_ok_no_challenge mac m k = Ok true <-> m_auth m = mac k text)
        /\ (check_auth_ok_no_challenge mac m k = Ok false <-> m_auth m <> mac k text)).
Proof. exact knock_check_meaning. Qed.
Print Assumptions C04_knock_token_meaning.

Theorem C04_response_token_meaning : forall mac m k ch,
  api_message m -> m_op m = Response -> api_message ch -> m_op ch = Challenge ->
  length k = 32%nat ->
  exists text,
    protected_text text Response (m_user m) (m_resource m) (m_salt m) (m_auth ch)
    /\ ((check_auth_ok mac m k ch = Ok true <-> m_auth m = mac k text)
        /\ (check_auth_ok mac m k ch = Ok false <-> m_auth m <> mac k text)).
Proof. exact response_check_meaning. Qed.
Print Assumptions C04_response_token_meaning.

(** A verdict is only ever given on a response to a challenge, or on a knock:
    a message of another operation is never accepted or rejected by its token. *)
Theorem C04_verdict_only_for_the_right_operation : forall mac m k ch v,
  (check_auth_ok mac m k ch = Ok v -> m_op m = Response /\ m_op ch = Challenge)
  /\ (check_auth_ok_no_challenge mac m k = Ok v -> m_op m = Knock).
Proof.
  intros mac m k ch v. unfold check_auth_ok, check_auth_ok_no_challenge, assert_.
  destruct (m_op m), (m_op ch); simpl; split; intros H; try discriminate; auto.
Qed.
Print Assumptions C04_verdict_only_for_the_right_operation.

Theorem C04_response_token_binds_all_fields : forall mac k m1 c1 m2 c2,
  api_message m1 -> api_message m2 -> api_message c1 -> api_message c2 ->
  m_op m1 = Response -> m_op m2 = Response -> m_op c1 = Challenge -> m_op c2 = Challenge ->
  length k = 32%nat ->
  check_auth_ok mac m1 k c1 = Ok true -> check_auth_ok mac m2 k c2 = Ok true ->
  m_auth m1 = m_auth m2 ->
  (m_user m1 = m_user m2 /\ m_resource m1 = m_resource m2 /\ m_salt m1 = m_salt m2
   /\ m_auth c1 = m_auth c2)
  \/ (exists t1 t2, t1 <> t2 /\ mac k t1 = mac k t2
       /\ protected_text t1 Response (m_user m1) (m_resource m1) (m_salt m1) (m_auth c1)
       /\ protected_text t2 Response (m_user m2) (m_resource m2) (m_salt m2) (m_auth c2)).
Proof. exact response_token_unique. Qed.
Print Assumptions C04_response_token_binds_all_fields.

Theorem C04_knock_token_binds_all_fields : forall mac k m1 m2,
  api_message m1 -> api_message m2 ->
  m_op m1 = Knock -> m_op m2 = Knock -> length k = 32%nat ->
  check_auth_ok_no_challenge mac m1 k = Ok true ->
  check_auth_ok_no_challenge mac m2 k = Ok true ->
  m_auth m1 = m_auth m2 ->
  m1 = m2
  \/ (exists t1 t2, t1 <> t2 /\ mac k t1 = mac k t2
       /\ protected_text t1 Knock (m_user m1) (m_resource m1) (m_salt m1) no_challenge
       /\ protected_text t2 Knock (m_user m2) (m_resource m2) (m_salt m2) no_challenge).
Proof. exact knock_token_unique. Qed.
Print Assumptions C04_knock_token_binds_all_fields.

Theorem C04_knock_token_is_no_response_token : forall mac k m1 m2 c2,
  api_message m1 -> api_message m2 -> api_message c2 ->
  m_op m1 = Knock -> m_op m2 = Response -> m_op c2 = Challenge ->
  length k = 32%nat ->
  check_auth_ok_no_challenge mac m1 k = Ok true -> check_auth_ok mac m2 k c2 = Ok true ->
  m_auth m1 = m_auth m2 ->
  exists t1 t2, t1 <> t2 /\ mac k t1 = mac k t2
       /\ protected_text t1 Knock (m_user m1) (m_resource m1) (m_salt m1) no_challenge
       /\ protected_text t2 Response (m_user m2) (m_resource m2) (m_salt m2) (m_auth c2).
Proof. exact knock_token_no_response. Qed.
Print Assumptions C04_knock_token_is_no_response_token.

(** With the real MAC and the unit test values: accepted, and the same token
    for another user is refused. *)
Example C04_unit_test_knock :
  check_auth_ok_no_challenge hmac_sha3_256 ex_knock (repeat 0x9E 32) = Ok true
  /\ check_auth_ok_no_challenge hmac_sha3_256
       (Msg MAGIC Knock 0xA423DDA8 0xBC5D8077 (repeat 0x4A 8) (m_auth ex_knock))
       (repeat 0x9E 32) = Ok false.
Proof. split; vm_compute; reflexivity. Qed.

Example C04_unit_test_response :
  check_auth_ok hmac_sha3_256 ex_response (repeat 0x6B 32) ex_challenge = Ok true
  /\ api_message ex_response /\ api_message ex_challenge.
Proof. split; [vm_compute; reflexivity|]. split; apply msg_ok_spec; reflexivity. Qed.

(** *** C05 *)

Theorem C05_honest_knock_verifies : forall mac k user resource salt m,
  (forall x y, length (mac x y) = 32%nat /\ all_bytes (mac x y)) ->
  length k = 32%nat -> user < 2 ^ 32 -> resource < 2 ^ 32 ->
  length salt = 8%nat -> all_bytes salt ->
  msg_new Knock user resource (Some salt) = Ok m ->
  exists m' b m'',
    generate_auth_no_challenge mac m k = Ok m'
    /\ msg_serialize m' = Ok b /\ try_msg_deserialize b = Ok m''
    /\ m_op m'' = Knock /\ m_user m'' = user /\ m_resource m'' = resource
    /\ check_auth_ok_no_challenge mac m'' k = Ok true.
Proof. exact honest_knock. Qed.
Print Assumptions C05_honest_knock_verifies.

Theorem C05_honest_response_verifies : forall mac k user resource salt m ch,
  (forall x y, length (mac x y) = 32%nat /\ all_bytes (mac x y)) ->
  length k = 32%nat -> user < 2 ^ 32 -> resource < 2 ^ 32 ->
  length salt = 8%nat -> all_bytes salt ->
  api_message ch -> m_op ch = Challenge ->
  msg_new Response user resource (Some salt) = Ok m ->
  exists m' b m'',
    generate_auth mac m k ch = Ok m'
    /\ msg_serialize m' = Ok b /\ try_msg_deserialize b = Ok m''
    /\ m_op m'' = Response /\ m_user m'' = user /\ m_resource m'' = resource
    /\ check_auth_ok mac m'' k ch = Ok true.
Proof. exact honest_response. Qed.
Print Assumptions C05_honest_response_verifies.

(** The hypothesis about the MAC holds for HMAC-SHA3-256. *)
Theorem C05_hmac_output : forall k d,
  length (hmac_sha3_256 k d) = 32%nat /\ all_bytes (hmac_sha3_256 k d).
Proof. exact hmac_ok. Qed.
Print Assumptions C05_hmac_output.

Example C05_nonvacuous :
  exists m, msg_new Response 1 2 (Some [1; 2; 3; 4; 5; 6; 7; 8]) = Ok m
            /\ api_message ex_challenge.
Proof. eexists. split; [reflexivity|apply msg_ok_spec; reflexivity]. Qed.

(** *** C20 *)

Theorem C20_fw_roundtrip : forall m : fw_message, api_fw_message m ->
  exists b, fw_serialize m = Ok b /\ fw_layout b m /\ fw_deserialize b = Ok m.
Proof. exact fw_roundtrip. Qed.
Print Assumptions C20_fw_roundtrip.

Theorem C20_fw_open_roundtrip : forall a t p, ip_address a -> p < 2 ^ 16 ->
  exists b m, fw_serialize (fw_new_open a t p) = Ok b
              /\ fw_deserialize b = Ok m
              /\ f_op m = FwOpen /\ fw_addr m = Some a /\ fw_port m = Some (t, p).
Proof. exact fw_open_roundtrip. Qed.
Print Assumptions C20_fw_open_roundtrip.

Theorem C20_fw_reply_roundtrip : forall m o,
  (m = fw_new_ack /\ o = FwAck) \/ (m = fw_new_nack /\ o = FwNack) ->
  f_op m = o
  /\ exists b, fw_serialize m = Ok b /\ fw_deserialize b = Ok m
            /\ fw_addr m = None /\ fw_port m = None.
Proof.
  intros m o H. split; [destruct H as [[-> ->]|[-> ->]]; reflexivity|].
  apply fw_reply_roundtrip. destruct H as [[-> _]|[-> _]]; auto.
Qed.
Print Assumptions C20_fw_reply_roundtrip.

(** The replies as bytes: the operation, and zeros in the fields that a reply does
    not use. *)
Theorem C20_fw_reply_bytes :
  fw_serialize fw_new_ack = Ok ([0; 1] ++ repeat 0 22) /\ fw_serialize fw_new_nack = Ok (repeat 0 24).
Proof. split; vm_compute; reflexivity. Qed.
Print Assumptions C20_fw_reply_bytes.

Theorem C20_fw_decode_total : forall b, all_bytes b ->
  (exists m, fw_deserialize b = Ok m /\ valid_fw_frame b /\ api_fw_message m
             /\ fw_serialize m = Ok b)
  \/ (exists e, fw_deserialize b = Err e /\ ~ valid_fw_frame b).
Proof. exact fw_decode_total. Qed.
Print Assumptions C20_fw_decode_total.

Example C20_nonvacuous :
  ip_address (V4 [192; 168; 0; 1]) /\ ip_address (V6 (repeat 254 16))
  /\ fw_new_open (V4 [192; 168; 0; 1]) PtTcpUdp 0x1234
     = FwMsg FwOpen PtTcpUdp 0x1234 AtIpv4 [0;0;0;0;0;0;0;0;0;0;0;0;192;168;0;1].
Proof. repeat split; apply bytes_ok_spec; reflexivity. Qed.

(** *** C48 *)

Theorem C48_random_never_degenerate : forall sz os buf,
  secure_random sz os = Ok buf ->
  os = Some buf /\ (8 <= sz)%nat /\ (forall c, buf <> repeat c (length buf))
  /\ buf <> repeat 0 sz /\ buf <> repeat 255 sz.
Proof. exact secure_random_ok. Qed.
Print Assumptions C48_random_never_degenerate.

Theorem C48_random_passes_good_bytes : forall sz buf, (8 <= sz)%nat -> length buf = sz ->
  (forall c, buf <> repeat c sz) -> secure_random sz (Some buf) = Ok buf.
Proof. exact secure_random_complete. Qed.
Print Assumptions C48_random_passes_good_bytes.

Example C48_nonvacuous :
  secure_random 8 (Some [0; 0; 0; 0; 0; 0; 0; 1]) = Ok [0; 0; 0; 0; 0; 0; 0; 1]
  /\ secure_random 8 (Some (repeat 7 8)) = Panic.
Proof. split; reflexivity. Qed.
