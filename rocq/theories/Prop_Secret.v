(** Properties of secrets: C73, C74. *)

From Coq Require Import String NArith List Lia.
From Verif Require Import M_Base M_Proto M_IpAddr M_FwProto M_ConfTypes M_Server M_Client
  M_Sha3 S_Wire S_Session S_Secret P_Base P_Server P_Session P_Exec P_Secret.
Import ListNotations.
Local Open Scope N_scope.

(** *** C73 *)

(** A peer that cannot produce an authentic knock cannot tell two servers
    apart that have the same error policy: whatever it and the environment do,
    everything that can happen in a session with the one can happen in a
    session with the other, event by event, including every byte sent and
    whether the connection is closed. *)
Theorem C73_strangers_see_no_configuration :
  forall mac conf1 conf2 peer T tr p,
  keys_sized conf1 -> keys_sized conf2 -> c_policy conf1 = c_policy conf2 ->
  stranger mac conf1 tr -> stranger mac conf2 tr ->
  srun T (server_run mac conf1 peer) tr p ->
  exists p', srun T (server_run mac conf2 peer) tr p'
    /\ (over p <-> over p') /\ (panicked p <-> panicked p').
Proof.
  intros mac conf1 conf2 peer T tr p K1 K2 P S1 S2 R.
  destruct (strangers_alike mac conf1 conf2 peer T tr p K1 K2 P S1 S2 R)
    as (p' & R' & [SM|[-> ->]]).
  - exists p'. split; [exact R'|]. exact (ssim_kind_over _ _ SM).
  - exists (server_run mac conf2 peer). split; [exact R'|].
    split; split; intros Q; first [discriminate Q|destruct Q as [r Q]; discriminate Q].
Qed.
Print Assumptions C73_strangers_see_no_configuration.

(** A server with a user and resources, one without any, and a knock with a
    wrong token: the session with the answer is one of both. *)
Definition bare_conf : config :=
  Config VarServer None false (ControlPort 5800 true true) 5000000000 PolAlways ScOff
    [] [] 1 [] [] [] [] 1.
Definition forged : list byte := firstn 55 (ex_knock 7 3) ++ [0].

Example C73_forged_knock : exists tr p p' m,
  stranger hmac_sha3_256 (ex_conf PolAlways) tr /\ stranger hmac_sha3_256 bare_conf tr
  /\ srun 10 (server_run hmac_sha3_256 (ex_conf PolAlways) ex_peer) tr p
  /\ srun 10 (server_run hmac_sha3_256 bare_conf ex_peer) tr p'
  /\ over p /\ over p' /\ sent tr = [m] /\ m_op m = GoAway.
Proof.
  set (tr := [EvRecv 1 (RxBuf forged); EvRand 8 (Some ex_salt);
              EvSend 2 (get no_msg (msg_new GoAway 7 3 (Some ex_salt))) TxOk]).
  exists tr. do 3 eexists. split; [|split; [|split; [|split; [|split; [|split; [|split]]]]]].
  - intros d b rest user resource key E I V. injection E as _ <- _.
    destruct (valid_basic hmac_sha3_256 (ex_conf PolAlways)) with (3 := I) (4 := V)
      as (m & (D & _ & _ & C) & _).
    + intros u k [Q|[]]. inversion Q; subst. split; [reflexivity|].
      apply bytes_ok_spec. reflexivity.
    + repeat constructor; intros [].
    + destruct I as [Q|[]]. inversion Q; subst user key.
      assert (exists m0, try_msg_deserialize forged = Ok m0
              /\ check_auth_ok_no_challenge hmac_sha3_256 m0 ex_key = Ok false)
        as (m0 & D0 & C0).
      { eexists. split; [vm_compute; reflexivity|vm_compute; reflexivity]. }
      rewrite D in D0. inversion D0; subst m0. rewrite C in C0. discriminate.
  - intros d b rest user resource key E [].
  - apply (drive_sound _ [ARecv 1 (RxBuf forged); ARand (Some ex_salt); ASend 2 TxOk]).
    vm_compute. reflexivity.
  - apply (drive_sound _ [ARecv 1 (RxBuf forged); ARand (Some ex_salt); ASend 2 TxOk]).
    vm_compute. reflexivity.
  - eexists; reflexivity.
  - eexists; reflexivity.
  - reflexivity.
  - reflexivity.
Qed.

(** *** C74 *)

(** The server uses the keys for nothing but the tokens: if the bytes of the
    keys are exchanged, but the tokens stay what they are, then nothing that
    the server sends to anybody, no question it asks and no result changes. *)
Theorem C74_server_uses_keys_only_for_tokens :
  forall mac1 conf1 mac2 conf2 peer T tr p,
  keys_sized conf1 -> keys_sized conf2 -> differ_in_keys mac1 conf1 mac2 conf2 ->
  srun T (server_run mac1 conf1 peer) tr p ->
  exists p', srun T (server_run mac2 conf2 peer) tr p'
    /\ (forall r, p = SRet r <-> p' = SRet r).
Proof.
  intros mac1 conf1 mac2 conf2 peer T tr p K1 K2 D R.
  destruct (ssim_run _ _ _ _ _ R _ (server_alike mac1 mac2 conf1 conf2 K1 K2 D peer))
    as (p' & R' & SM).
  exists p'. split; [exact R'|]. intros r. destruct SM as [x y ->| | | | | |];
    split; intros Q; first [discriminate Q|exact Q].
Qed.
Print Assumptions C74_server_uses_keys_only_for_tokens.

(** The same for the client: name lookups, connections, messages and results. *)
Theorem C74_client_uses_keys_only_for_tokens :
  forall mac1 conf1 mac2 conf2 parse_ip host server port user srv crypt T tr p,
  keys_sized conf1 -> keys_sized conf2 -> differ_in_keys mac1 conf1 mac2 conf2 ->
  crun T (run_knock mac1 parse_ip conf1 host server port user srv crypt) tr p ->
  exists p', crun T (run_knock mac2 parse_ip conf2 host server port user srv crypt) tr p'
    /\ (forall r, p = CRet r <-> p' = CRet r).
Proof.
  intros mac1 conf1 mac2 conf2 parse_ip host server port user srv crypt T tr p K1 K2 D R.
  destruct (csim_run _ _ _ _ R _
              (client_alike mac1 mac2 conf1 conf2 K1 K2 D parse_ip host server port user srv crypt))
    as (p' & R' & SM).
  exists p'. split; [exact R'|]. intros r. destruct SM;
    split; intros Q; first [discriminate Q|exact Q].
Qed.
Print Assumptions C74_client_uses_keys_only_for_tokens.

(** Another key whose tokens (under a function of its own) are those of the
    example key. *)
Definition other_key : list byte := map N.of_nat (seq 101 32).
Definition other_mac (key data : list byte) : list byte :=
  hmac_sha3_256 (map (fun x => x - 100) key) data.
Definition other_conf : config :=
  Config VarServer None false (ControlPort 5800 true true) 5000000000 PolAlways ScOff
    [(7, other_key)] [(3, ResPort 22 true false [7]); (4, ResPort 5800 true false []);
                      (5, ResPort 80 true true [])]
    7 [] [] [] [] 600000000000.

Example C74_other_key :
  differ_in_keys hmac_sha3_256 (ex_conf PolAlways) other_mac other_conf
  /\ keys_sized (ex_conf PolAlways) /\ keys_sized other_conf
  /\ ex_key <> other_key
  /\ exists tr, srun 10 (server_run other_mac other_conf ex_peer) tr (SRet (Ok tt))
                /\ fw_requests tr = [fw_new_open ex_peer PtTcp 22].
Proof.
  split; [|split; [|split; [|split]]].
  - constructor; try reflexivity. repeat constructor.
  - intros u k [Q|[]]. inversion Q; subst. split; [reflexivity|]. apply bytes_ok_spec. reflexivity.
  - intros u k [Q|[]]. inversion Q; subst. split; [reflexivity|]. apply bytes_ok_spec. reflexivity.
  - intros Q. vm_compute in Q. discriminate Q.
  - eexists. split; [apply (drive_sound _ (ex_good 3)); vm_compute; reflexivity|reflexivity].
Qed.
