(** Property C70: a decimal number of seconds in a configuration file. *)

From Coq Require Import String ZArith NArith List Bool Lia QArith Qpower Qabs Lqa.
From Verif Require Import M_Base M_ConfTypes M_Text M_Str M_Conf M_Float S_Text S_Conf S_Files S_Float P_Str P_Conf P_Load P_Files
  P_Float P_FloatText P_FloatDur.
Import ListNotations.
Local Open Scope Z_scope.

(** The texts the theorems are about have at most 60000 characters.  (In longer
    ones an exponent above 65535 could be compensated by as many digits.) *)
Definition not_huge (t : text) : Prop := (N.of_nat (length t) <= 60000)%N.

(** *** Lemmas *)

Lemma hex_not_decimal : forall h q, ~ decimal_text (lit "0x" ++ h) q.
Proof.
  intros h q H. apply decimal_parts in H. destruct H as (neg & i & k & e & PA & _).
  destruct (parse_decimal_of _ _ _ _ _ PA) as (e' & PD & _).
  assert (parse_decimal (lit "0x" ++ h) = None) by reflexivity. congruence.
Qed.

(** A whole number is read as itself. *)
Lemma whole : forall body v q, number 10 body v -> decimal_text body q -> not_huge body -> (q == inject_Z (Z.of_N v))%Q.
Proof.
  intros body v q (ds & NE & NU & SH) H SZ. apply decimal_parts in H. destruct H as (neg & i & k & e & PA & V).
  destruct (parse_decimal_of _ _ _ _ _ PA) as (e' & PD & SA). destruct (parts_small _ _ _ _ _ PA SZ) as (LL & LB & IB & KB).
  assert (PB : parts body false (Z.of_N v) 0 0).
  { destruct SH as [-> | ->]; [exists [], ds, [], [], []|exists (lit "+"), ds, [], [], []];
      rewrite !app_nil_r, N2Z.id; (split; [reflexivity|]); (split; [constructor|]);
      (split; [constructor|]); (split; [constructor|]); (split; [exact NE|]); (split; [exact NU|]); (split; [lia|reflexivity]). }
  destruct (parse_decimal_of _ _ _ _ _ PB) as (e2 & PD2 & SB). rewrite PD in PD2. injection PD2 as -> -> EE.
  assert (E0 : e2 = 0) by (unfold saturates in SB; lia). assert (E1 : e - Z.of_nat k = 0) by (unfold saturates in SA; lia).
  rewrite V, E1. cbn [Qpower]. ring.
Qed.

Lemma seconds_ns : forall n, 0 <= n -> (seconds (Z.to_N n) * inject_Z NS == inject_Z n)%Q.
Proof. intros n H. unfold seconds. rewrite Z2N.id by exact H. unfold NS. field. Qed.

Lemma clean_error : forall num den f, 0 <= num -> 0 < den -> to_f64 num den = Some f -> (pw (-32) <= frac num den)%Q ->
  (Qabs (fval f - frac num den) <= frac num den * pw (-53))%Q.
Proof.
  intros num den f N D F L.
  assert (NP : 0 < num). { apply (frac_pos num den D). pose proof (pw_pos (-32)). lra. }
  destruct (to_f64_some _ _ _ N D F) as (_ & _ & [[E _]|(_ & ->)]); [lia|].
  destruct (mant_bounds num den NP D) as (_ & _ & B). destruct (exp_bounds num den NP D) as [U LB].
  eapply Qle_trans; [exact B|]. destruct LB as [E|LB].
  - exfalso. rewrite E in U. pose proof (pw_mono (-1074 + 53) (-32) ltac:(lia)). lra.
  - set (e := exp_of num den) in *. assert (H : ((1 # 2) * pw e == pw (e + 52) * pw (-53))%Q).
    { rewrite <- pw_add. replace (e + 52 + -53) with (e + -1) by lia. rewrite pw_add. change (pw (-1)) with (1 # 2)%Q. ring. }
    rewrite H. apply Qmult_le_compat_r; [exact LB|]. pose proof (pw_pos (-53)). lra.
Qed.

(** The duration of a number: zero below [2^-32], otherwise the rounded f64. *)
Lemma number_duration : forall body q, decimal_text body q -> not_huge body -> (0 <= q)%Q -> (q <= inject_Z 4294967295)%Q ->
  exists n, f64_seconds body = Some (Z.to_N n) /\ 0 <= n
    /\ ((q < pw (-32))%Q /\ n = 0
        \/ (pw (-32) <= q)%Q /\ exists num den f, 0 <= num /\ 0 < den /\ (frac num den == q)%Q /\ to_f64 num den = Some f /\ n = nanos_of f).
Proof.
  intros body q H SZ Q0 QM. apply decimal_parts in H. destruct H as (neg & i & k & e & PA & V).
  fold (p10 (e - Z.of_nat k)) in V. destruct (parts_small _ _ _ _ _ PA SZ) as (LL & LB & IB & KB).
  assert (SG : neg = false \/ i = 0).
  { destruct neg; [right|left; reflexivity]. destruct (Z.eq_dec i 0) as [|NZ]; [assumption|exfalso].
    assert (inject_Z (- i) <= inject_Z (-1))%Q by (rewrite <- Zle_Qle; lia). pose proof (p10_pos (e - Z.of_nat k)).
    change (inject_Z (-1)) with (-(1))%Q in H. nra. }
  assert (VA : (q == amount i k e)%Q).
  { rewrite V. unfold amount. destruct neg; [|reflexivity]. destruct SG as [X| ->]; [discriminate|reflexivity]. }
  destruct (Qlt_le_dec q (pw (-32))) as [T|T].
  - exists 0. unfold f64_seconds. rewrite (tiny_zero _ _ _ _ _ PA SZ); [|rewrite <- VA; exact T|exact SG].
    split; [reflexivity|]. split; [lia|]. left. auto.
  - assert (neg = false) as NG. { destruct SG as [|I0]; [assumption|exfalso]. rewrite VA in T. unfold amount in T. rewrite I0 in T.
      change (inject_Z 0) with 0%Q in T. rewrite Qmult_0_l in T. pose proof (pw_pos (-32)). lra. }
    destruct (middle _ _ _ _ _ PA SZ) as (num & den & f & N & D & FV & F & NO & FD); [rewrite <- VA; exact T|rewrite <- VA; exact QM|exact NG|].
    exists (nanos_of f). unfold f64_seconds. rewrite FD. split; [reflexivity|]. split; [apply nanos_nonneg; exact NO|].
    right. split; [exact T|]. exists num, den, f. rewrite VA. auto.
Qed.

(** Both ways of reading agree on whole numbers. *)
Lemma both_ways : forall t body q, padded t body -> decimal_text body q -> not_huge body -> (0 <= q)%Q -> (q <= inject_Z 4294967295)%Q ->
  exists n, parse_duration f64_seconds t = Ok (Z.to_N n) /\ 0 <= n
    /\ ((q < pw (-32))%Q /\ n = 0
        \/ (pw (-32) <= q)%Q /\ exists num den f, 0 <= num /\ 0 < den /\ (frac num den == q)%Q /\ to_f64 num den = Some f /\ n = nanos_of f).
Proof.
  intros t body q PT DT SZ Q0 QM. unfold parse_duration, parse_u32. destruct (parse_uint U32_BOUND t) as [v|er|] eqn:PU.
  - apply parse_uint_spec in PU; [|reflexivity]. destruct PU as (b & PB & VB & [NU|(h & -> & _)]).
    + rewrite (padded_fun _ _ _ PB PT) in NU. pose proof (whole _ _ _ NU DT SZ) as W. unfold U32_BOUND in VB.
      destruct (to_f64_int (Z.of_N v) ltac:(lia)) as (f & F & NO & FV).
      exists (Z.of_N v * NS). split; [f_equal; unfold NS, SECOND; lia|]. split; [unfold NS; lia|].
      destruct (Qlt_le_dec q (pw (-32))) as [T|T]; [left|right]; (split; [exact T|]).
      * rewrite W in T. assert (C1 : (pw (-32) < inject_Z 1)%Q) by reflexivity. pose proof (Qlt_trans _ _ _ T C1) as X. rewrite <- Zlt_Qlt in X. unfold NS. lia.
      * exists (Z.of_N v), 1, f. split; [lia|]. split; [lia|]. split; [rewrite frac_1, W; reflexivity|]. split; [exact F|].
        rewrite (nanos_frac f (Z.of_N v) 1) by (try lia; rewrite frac_1; exact FV). replace (NS * Z.of_N v) with (1 * (Z.of_N v * NS)) by lia.
        rewrite nearest_exact by lia. reflexivity.
    + exfalso. apply (hex_not_decimal h q). rewrite (padded_fun _ _ _ PB PT). exact DT.
  - apply padded_trim in PT. rewrite PT. destruct (number_duration body q DT SZ Q0 QM) as (n & -> & N0 & C). exists n. auto.
  - exfalso. exact (parse_uint_no_panic _ _ PU).
Qed.

(** *** The property *)

(** A number of seconds from 0 to the greatest u32 is accepted, and the duration is
    the number up to half a nanosecond and a relative error of [2^-53]. *)
Theorem C70_value : forall t body q,
  padded t body -> decimal_text body q -> not_huge body -> (0 <= q)%Q -> (q <= inject_Z 4294967295)%Q ->
  exists ns, parse_duration f64_seconds t = Ok ns
    /\ (Qabs (seconds ns - q) <= (1 # 2000000000) + q * (1 # 9007199254740992))%Q.
Proof.
  intros t body q PT DT SZ Q0 QM. destruct (both_ways t body q PT DT SZ Q0 QM) as (n & P & N0 & C).
  exists (Z.to_N n). split; [exact P|]. pose proof (seconds_ns n N0) as SN. apply Qabs_Qle_condition.
  assert (NSV : (inject_Z NS == 1000000000)%Q) by reflexivity. rewrite NSV in SN.
  destruct C as [[T ->]|[T (num & den & f & N & D & FV & F & ->)]].
  - change (inject_Z 0) with 0%Q in SN. assert (C1 : (pw (-32) < 1 # 2000000000)%Q) by reflexivity. lra.
  - pose proof (nanos_error f) as NE. apply Qabs_Qle_condition in NE. rewrite NSV, <- SN in NE.
    pose proof (clean_error num den f N D F ltac:(rewrite FV; exact T)) as CE. apply Qabs_Qle_condition in CE. rewrite FV in CE.
    assert (P53 : (pw (-53) == 1 # 9007199254740992)%Q) by reflexivity. rewrite P53 in CE. lra.
Qed.
Print Assumptions C70_value.

(** Up to 52 days, a whole number of nanoseconds is exactly itself. *)
Theorem C70_exact : forall t body q ns,
  padded t body -> decimal_text body q -> not_huge body -> (q == seconds ns)%Q -> (q <= inject_Z 4500000)%Q ->
  parse_duration f64_seconds t = Ok ns.
Proof.
  intros t body q ns PT DT SZ QE QM.
  assert (SNS : (seconds ns * 1000000000 == inject_Z (Z.of_N ns))%Q) by (unfold seconds; field).
  assert (Q0 : (0 <= inject_Z (Z.of_N ns))%Q) by (change 0%Q with (inject_Z 0); rewrite <- Zle_Qle; lia).
  assert (C1 : (inject_Z 4500000 < inject_Z 4294967295)%Q) by reflexivity.
  destruct (C70_value t body q PT DT SZ) as (n & P & E); [lra|lra|]. rewrite P. f_equal.
  assert (SN : (seconds n * 1000000000 == inject_Z (Z.of_N n))%Q) by (unfold seconds; field).
  apply Qabs_Qle_condition in E. change (inject_Z 4500000) with 4500000%Q in QM.
  assert (L1 : (inject_Z (Z.of_N n) < inject_Z (Z.of_N ns) + inject_Z 1)%Q) by (change (inject_Z 1) with 1%Q; lra).
  assert (L2 : (inject_Z (Z.of_N ns) < inject_Z (Z.of_N n) + inject_Z 1)%Q) by (change (inject_Z 1) with 1%Q; lra).
  rewrite <- inject_Z_plus, <- Zlt_Qlt in L1, L2. lia.
Qed.
Print Assumptions C70_exact.

(** A larger number is never a shorter time. *)
Theorem C70_monotone : forall t1 body1 q1 ns1 t2 body2 q2 ns2,
  padded t1 body1 -> decimal_text body1 q1 -> not_huge body1 -> padded t2 body2 -> decimal_text body2 q2 -> not_huge body2 ->
  (0 <= q1)%Q -> (q1 <= q2)%Q -> (q2 <= inject_Z 4294967295)%Q ->
  parse_duration f64_seconds t1 = Ok ns1 -> parse_duration f64_seconds t2 = Ok ns2 -> (ns1 <= ns2)%N.
Proof.
  intros t1 body1 q1 ns1 t2 body2 q2 ns2 P1 D1 S1 P2 D2 S2 Q0 L QM R1 R2.
  destruct (both_ways t1 body1 q1 P1 D1 S1 Q0 ltac:(lra)) as (n1 & E1 & A1 & C1).
  destruct (both_ways t2 body2 q2 P2 D2 S2 ltac:(lra) QM) as (n2 & E2 & A2 & C2).
  rewrite E1 in R1. rewrite E2 in R2. injection R1 as <-. injection R2 as <-.
  cut (n1 <= n2); [lia|]. destruct C1 as [[_ ->]|[T1 (nu1 & de1 & f1 & N1 & DE1 & V1 & F1 & ->)]]; [exact A2|].
  destruct C2 as [[T2 _]|[T2 (nu2 & de2 & f2 & N2 & DE2 & V2 & F2 & ->)]]; [lra|].
  apply nanos_mono. apply (to_f64_mono nu1 de1 f1 nu2 de2 f2); auto. rewrite V1, V2. exact L.
Qed.
Print Assumptions C70_monotone.

(** Too large and negative numbers are rejected.  The bound is the least [f64] above
    the greatest u32; it is 4294967295 + 2^-21. *)
Theorem C70_out_of_range : forall t body q,
  padded t body -> decimal_text body q -> not_huge body ->
  ((9007199252643841 # 2097152) <= q \/ q <= - Qpower (inject_Z 10) (-300))%Q ->
  exists e, parse_duration f64_seconds t = Err e.
Proof.
  intros t body q PT DT SZ R. assert (F : f64_seconds body = None).
  { pose proof DT as H. apply decimal_parts in H. destruct H as (neg & i & k & e & PA & V). fold (p10 (e - Z.of_nat k)) in V.
    destruct (parts_small _ _ _ _ _ PA SZ) as (LL & LB & IB & KB). fold (p10 (-300)) in R.
    assert (AP : (0 <= amount i k e)%Q).
    { unfold amount. pose proof (p10_pos (e - Z.of_nat k)). assert (0 <= inject_Z i)%Q by (change 0%Q with (inject_Z 0); rewrite <- Zle_Qle; lia). nra. }
    assert (VA : (q == if neg then - amount i k e else amount i k e)%Q).
    { rewrite V. unfold amount. destruct neg; [rewrite inject_Z_opp; ring|reflexivity]. }
    unfold f64_seconds. destruct neg.
    - rewrite (negative _ _ _ _ _ PA SZ); [reflexivity| |reflexivity].
      destruct R as [R|R]; [|lra]. exfalso. lra.
    - rewrite (too_large _ _ _ _ _ PA SZ); [reflexivity|]. unfold u32_succ. destruct R as [R|R]; [lra|]. exfalso. pose proof (p10_pos (-300)). lra. }
  unfold parse_duration, parse_u32. destruct (parse_uint U32_BOUND t) as [v|er|] eqn:PU.
  - exfalso. apply parse_uint_spec in PU; [|reflexivity]. destruct PU as (b & PB & VB & [NU|(h & -> & _)]).
    + rewrite (padded_fun _ _ _ PB PT) in NU. pose proof (whole _ _ _ NU DT SZ) as W. unfold U32_BOUND in VB. rewrite W in R.
      destruct R as [R|R]; [pose proof (Qlt_le_trans (inject_Z 4294967295) (9007199252643841 # 2097152) _ eq_refl R) as X; rewrite <- Zlt_Qlt in X; lia|].
      assert (0 <= inject_Z (Z.of_N v))%Q by (change 0%Q with (inject_Z 0); rewrite <- Zle_Qle; lia).
      fold (p10 (-300)) in R. pose proof (p10_pos (-300)). lra.
    + apply (hex_not_decimal h q). rewrite (padded_fun _ _ _ PB PT). exact DT.
  - apply padded_trim in PT. rewrite PT, F. eauto.
  - exfalso. exact (parse_uint_no_panic _ _ PU).
Qed.
Print Assumptions C70_out_of_range.

(** Nothing else is a duration: whole numbers (also hexadecimal ones) and decimal
    numbers. *)
Theorem C70_only_numbers : forall t ns, parse_duration f64_seconds t = Ok ns ->
  (exists s, int_text 4294967296 t s /\ ns = s * 1000000000)%N
  \/ exists body q, padded t body /\ decimal_text body q.
Proof.
  intros t ns H. apply parse_duration_spec in H. destruct H as [(s & I & E)|(_ & body & PT & F)]; [left; eauto|right].
  exists body. unfold f64_seconds in F. destruct (f64_duration body) as [[n| |]|] eqn:FD; try discriminate.
  unfold f64_duration in FD. destruct (parse_decimal body) as [x|] eqn:PD; [|discriminate].
  destruct (parse_decimal_inv _ _ PD) as (neg & i & k & e & PA).
  exists (inject_Z (if neg then - i else i) * Qpower (inject_Z 10) (e - Z.of_nat k))%Q. split; [exact PT|].
  apply decimal_parts. exists neg, i, k, e. split; [exact PA|reflexivity].
Qed.
Print Assumptions C70_only_numbers.

(** [Duration::from_secs_f64] never panics here, whatever the text is. *)
Theorem C70_no_panic : forall t, f64_duration t <> Some Panic.
Proof.
  intros t. unfold f64_duration. destruct (parse_decimal t) as [x|] eqn:PD; [|discriminate].
  destruct (decimal_f64 x) as [f|] eqn:DF; [|discriminate]. destruct (_ && _); [discriminate|].
  destruct (at_most_u32 f) eqn:AM; [|discriminate]. cbn [negb].
  assert (M : 0 <= dc_mant x).
  { destruct (parse_decimal_inv _ _ PD) as (neg & i & k & e & PA). destruct (parse_decimal_of _ _ _ _ _ PA) as (e' & PD' & _).
    rewrite PD in PD'. injection PD' as ->. destruct PA as (? & ? & ? & ? & ? & _ & _ & _ & _ & _ & _ & I0 & _). exact I0. }
  destruct (decimal_frac x M) as (num & den & N & D & E & _). rewrite E in DF.
  destruct (to_f64_some _ _ _ N D DF) as (NO & EX & _). apply at_most_u32_spec in AM.
  destruct (try_from_secs_nearest f NO EX AM) as (s & n & -> & _). discriminate.
Qed.
Print Assumptions C70_no_panic.

(** The options of a configuration file: the two timeouts are what was written. *)
Theorem C70_in_the_file : forall variant file ls conf,
  started_from f64_seconds variant file ls conf ->
  (forall t body q, has_option ls (lit "GENERAL") (lit "control-timeout") t -> padded t body -> decimal_text body q -> not_huge body ->
     (0 <= q)%Q -> (q <= inject_Z 4294967295)%Q ->
     (Qabs (seconds (c_control_timeout conf) - q) <= (1 # 2000000000) + q * (1 # 9007199254740992))%Q)
  /\ (variant = VarServer ->
      forall t body q, has_option ls (lit "NFTABLES") (lit "timeout") t -> padded t body -> decimal_text body q -> not_huge body ->
        (0 <= q)%Q -> (q <= inject_Z 4294967295)%Q ->
        (Qabs (seconds (c_nft_timeout conf) - q) <= (1 # 2000000000) + q * (1 # 9007199254740992))%Q).
Proof.
  intros variant file ls conf ST. destruct (started_configures _ _ _ _ _ ST) as [CF VA].
  assert (W : well_formed ls) by (destruct ST as (? & ? & _ & _ & W & _); exact W).
  assert (OPT : forall s o d x, setting ls s o (duration_text f64_seconds) d x ->
    forall t body q, has_option ls (lit s) (lit o) t -> padded t body -> decimal_text body q -> not_huge body ->
     (0 <= q)%Q -> (q <= inject_Z 4294967295)%Q -> (Qabs (seconds x - q) <= (1 # 2000000000) + q * (1 # 9007199254740992))%Q).
  { intros s o d x S t body q H PT DT SZ Q0 QM. destruct S as [(v & HV & DU)|[NO _]]; [|exfalso; exact (NO t H)].
    rewrite (has_option_fun ls W _ _ _ _ HV H) in DU. apply parse_duration_spec in DU.
    destruct (C70_value t body q PT DT SZ Q0 QM) as (ns & P & E). rewrite DU in P. injection P as ->. exact E. }
  split.
  - apply (OPT "GENERAL"%string "control-timeout"%string _ _ (cf_timeout _ _ _ CF)).
  - intros ->. destruct (cf_server _ _ _ CF VA) as (_ & _ & _ & _ & _ & S). apply (OPT "NFTABLES"%string "timeout"%string _ _ S).
Qed.
Print Assumptions C70_in_the_file.

(** *** Examples *)

(** The hypotheses hold: "1.5e-3" is a number, with spaces around it. *)
Example C70_nonvacuous : padded (lit " 1.5e-3 ") (lit "1.5e-3") /\ decimal_text (lit "1.5e-3") (15 # 10000)
  /\ not_huge (lit "1.5e-3").
Proof.
  split; [apply padded_trim; reflexivity|]. split; [|vm_compute; discriminate].
  apply decimal_parts. exists false, 15, 1%nat, (-3). split; [|reflexivity].
  exists [], (lit "1"), (lit ".5"), (lit "5"), (lit "e-3"). split; [reflexivity|]. split; [constructor|]. split; [apply (pt_some (lit "5"))|].
  split; [apply (ex_some (lit "e") (lit "-") (-1) (lit "3") 3); [left; reflexivity|constructor|discriminate|]|].
  - apply (num_snoc 10 [] 0 51 3); [constructor|unfold digit; lia].
  - split; [discriminate|]. split; [|split; [lia|reflexivity]].
    apply (num_snoc 10 [49%N] 1 53 5); [apply (num_snoc 10 [] 0 49 1); [constructor|unfold digit; lia]|unfold digit; lia].
Qed.

(** Some texts and their durations in nanoseconds; the negative zero is accepted. *)
Example C70_texts :
  parse_duration f64_seconds (lit " 1.5e-3 ") = Ok 1500000%N
  /\ parse_duration f64_seconds (lit "0.1") = Ok 100000000%N
  /\ parse_duration f64_seconds (lit ".5") = Ok 500000000%N
  /\ parse_duration f64_seconds (lit "0x10") = Ok 16000000000%N
  /\ parse_duration f64_seconds (lit "2.5e-9") = Ok 3%N
  /\ parse_duration f64_seconds (lit "-0") = Ok 0%N
  /\ parse_duration f64_seconds (lit "3000000000.123456789") = Ok 3000000000123456955%N
  /\ parse_duration f64_seconds (lit "4294967295.9") = Err "Invalid Duration"
  /\ parse_duration f64_seconds (lit "-1") = Err "Invalid Duration"
  /\ parse_duration f64_seconds (lit "inf") = Err "Invalid Duration"
  /\ parse_duration f64_seconds (lit "1e") = Err "Invalid Duration".
Proof. repeat split; vm_compute; reflexivity. Qed.
