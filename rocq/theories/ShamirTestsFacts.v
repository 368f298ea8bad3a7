(** The unit tests of the Shamir example: proofs. *)
From Verif Require Import ShamirTests ShamirTestsSpec ShamirFacts ShamirFlp FlpTestsFacts FlpProofs FlpInstances MeasFacts MeasSpec RangeInt
  CircuitInstances CircuitSpec FlpSpec FlpFacts Primes Roots FieldFacts FieldProofs CommonFacts VecFacts BaseFacts Spec Field Circuits FlpBBCGGI19 Base Common.
From Coq Require Import Lia.
Open Scope nat_scope.

Section G.
Context {P : NttFieldClass} (HP : NttOk P).
Notation F := (F P).
Let Hp : prime (MODULUS P) := ntt_prime P HP.

Lemma flp_outcome (v : Valid P) (HV : ValidOk v) meas prove_rand query_rand joint_rand meas_rand proof_rand :
  length meas = vMEAS_LEN v -> circuit_zero v meas joint_rand -> (3 < MODULUS P)%Z ->
  length prove_rand = prove_rand_len v -> length query_rand = query_rand_len v -> length joint_rand = vJOINT_RAND_LEN v ->
  singles (vMEAS_LEN v) meas_rand -> singles (proof_len v) proof_rand ->
  run_shamir_flp v meas prove_rand query_rand joint_rand meas_rand proof_rand =
  shamir_flp_outcome v meas prove_rand query_rand joint_rand meas_rand proof_rand.
Proof.
  intros Hm Hz H3 Hpr Hq Hj (M1 & M2) (P1 & P2).
  destruct (prove_total HP v HV meas prove_rand joint_rand Hm Hpr Hj) as (proof & EP & LP).
  unfold run_shamir_flp, shamir_flp_outcome. rewrite EP.
  pose proof (shard_spec meas meas_rand 3 H3 (eq_trans M1 (eq_sym Hm))) as EM.
  pose proof (shard_spec proof proof_rand 3 H3 (eq_trans P1 (eq_sym LP))) as EPS.
  rewrite EM. cbn [bind]. rewrite EPS. cbn [bind range seq map get nth_error Nat.sub Nat.add].
  set (qs j := bbcggi19_query v (share_of (polys_of meas meas_rand) j) (share_of (polys_of proof proof_rand) j) query_rand joint_rand 1).
  assert (LM : forall j, length (share_of (polys_of meas meas_rand) j) = vMEAS_LEN v)
    by (intros j; unfold share_of, polys_of; rewrite !map_length, combine_length; lia).
  assert (LQ : forall j, length (share_of (polys_of proof proof_rand) j) = proof_len v)
    by (intros j; unfold share_of, polys_of; rewrite !map_length, combine_length; lia).
  assert (QG := fun j => query_guard HP v HV _ _ query_rand joint_rand 1 (LM j) (LQ j) Hq Hj (le_n 1)).
  destruct (points_ok v query_rand) eqn:PO; cbn [negb].
  - apply (points_ok_spec v) in PO.
    destruct (query_shamir HP v HV query_rand joint_rand Hq Hj PO meas proof meas_rand proof_rand 2 3 [0; 2])
      as (ms & ps & vs & ver & A & B & C & D & E); try easy; try lia.
    { repeat constructor; cbn; lia. } { repeat constructor; lia. }
    rewrite EM in A. apply Ok_inj in A. subst ms. rewrite EPS in B. apply Ok_inj in B. subst ps.
    pose proof (fun ver => shamir_complete HP v HV meas proof prove_rand query_rand joint_rand
      (map (share_of (polys_of meas meas_rand)) (range 0 3)) (map (share_of (polys_of proof proof_rand)) (range 0 3)) meas_rand proof_rand 2 3 [0; 2] vs ver
      Hm Hpr Hj Hq Hz EP H3 (le_S _ _ (le_n 1)) M1 M2 P1 P2) as SC.
    assert (N : NoDup [0; 2]) by (repeat constructor; cbn; lia).
    assert (B3 : Forall (fun j => j < 3) [0; 2]) by (repeat constructor; lia).
    specialize (fun ver => SC ver N B3 (le_n 2) EM EPS C).
    assert (Q0 : exists q0, qs 0 = Ok q0). { destruct (QG 0) as [Q _]; [lia|]. destruct (Q PO) as (q & Q' & _). now exists q. }
    assert (Q2 : exists q2, qs 2 = Ok q2). { destruct (QG 2) as [Q _]; [lia|]. destruct (Q PO) as (q & Q' & _). now exists q. }
    destruct Q0 as (q0 & Q0). destruct Q2 as (q2 & Q2).
    assert (V : vs = [q0; q2]).
    { cbn in C. change (bind (qs 0) (fun a => bind (bind (qs 2) (fun c => Ok [c])) (fun b => Ok (a :: b))) = Ok vs) in C.
      rewrite Q0, Q2 in C. cbn in C. now apply Ok_inj in C. }
    subst vs. change (map Z.of_nat [0; 2]) with [0; 2]%Z in *.
    fold (qs 0). fold (qs 2). rewrite Q0. cbn [bind]. rewrite Q2. cbn [bind].
    unfold shamir_query. cbn [map]. fold (qs 0). fold (qs 2). rewrite Q0, Q2.
    cbn [length Nat.ltb Nat.leb andb] in E.
    rewrite E. destruct (zero_component (verifier_len v) [q0; q2]); [reflexivity|]. cbn [bind].
    now rewrite (SC ver E).
  - destruct (QG 0) as [_ Q]; [lia|]. fold (qs 0) in Q |- *. rewrite Q; [reflexivity|].
    intros T. apply (points_ok_spec v) in T. congruence.
Qed.
End G.

Section Agg.
Context {P : NttFieldClass} (HP : NttOk P) (max : Z) (Hmax : (0 < max)%Z) (Hmax' : (2 ^ Z.of_nat (bit_length max) < MODULUS P)%Z).
Notation F := (F P).
Add Ring FringSA : (@F_ring P).

Lemma share_line (meas : list F) rand j : singles (length meas) rand ->
  share_of (polys_of meas rand) j = zip_with fadd meas (map (fmul (pt j)) (map (fun r => nth 0 r f0) rand)).
Proof.
  intros (L & H). unfold share_of, polys_of. revert rand L H. induction meas as [|m meas IH]; intros [|r rand] L H; try easy.
  apply Forall_cons_iff in H as [Hr H]. destruct r as [|r [|]]; try easy. cbn [combine map fst snd zip_with nth].
  f_equal; [cbn; ring|]. apply IH; [now injection L|easy].
Qed.

Lemma truncated_share (enc : list F) rand j (m : Z) : length enc = bit_length max -> singles (bit_length max) rand ->
  valid_truncate (Sum P max) enc = Ok [fof m] ->
  valid_truncate (Sum P max) (share_of (polys_of enc rand) j) =
  Ok (share_of [[fof m; rc_value max (map (fun r => nth 0 r f0) rand)]] j).
Proof.
  intros L S T. pose proof (max_small max Hmax Hmax') as HM.
  assert (LR : length (map (fun r => nth 0 r f0) rand) = length enc) by (rewrite map_length; destruct S; lia).
  cbn [valid_truncate Sum] in *. rewrite (decode_rc max enc HM) in T by lia. cbn [bind] in T.
  assert (E : rc_value max enc = fof m) by congruence.
  rewrite share_line by now rewrite L. rewrite decode_rc; [|exact HM|rewrite zip_with_length, !map_length; destruct S; lia].
  cbn [bind]. rewrite rc_value_add by now rewrite map_length, LR. rewrite rc_value_scale, E. unfold share_of. cbn.
  do 2 f_equal. ring.
Qed.

Lemma add_lines (a b c d : F) j : vec_add (share_of [[a; b]] j) (share_of [[c; d]] j) = Ok (share_of [[fadd a c; fadd b d]] j).
Proof. unfold share_of, vec_add. cbn. do 2 f_equal. ring. Qed.

Lemma three_steps (meas : nat -> list F) trunc (a o r : nat -> list F) : (forall j, trunc (meas j) = Ok (o j)) ->
  (forall j, vec_add (a j) (o j) = Ok (r j)) ->
  for_range 0 3 (map a [0; 1; 2]) (fun agg_shares j =>
      let* agg_share := get agg_shares j in
      let* meas_share := get (map meas (range 0 3)) j in
      let* out_share := trunc meas_share in
      let* agg_share := vec_add agg_share out_share in
      set agg_shares j agg_share) = Ok (map r [0; 1; 2]).
Proof.
  intros H1 H2. change (range 0 3) with [0; 1; 2]. unfold for_range. change (range 0 3) with [0; 1; 2]. cbn.
  rewrite H1. cbn. rewrite H2. cbn. rewrite H1. cbn. rewrite H2. cbn. rewrite H1. cbn. rewrite H2. reflexivity.
Qed.

(** The shares after the measurements [m 0], ..., [m (n - 1)]. *)
Lemma agg_loop (m : nat -> Z) draws n : (3 < MODULUS P)%Z -> (forall x, x < n -> (0 <= m x <= max)%Z) ->
  (forall x, singles (bit_length max) (draws x)) ->
  exists R, for_range 0 n (repeat (fzeros (P := P) 1) 3) (fun agg_shares x =>
    let* meas := valid_encode (Sum P max) (m x) in
    let* meas_shares := shamir_shard meas (draws x) 3 in
    for_range 0 3 agg_shares (fun agg_shares j =>
      let* agg_share := get agg_shares j in
      let* meas_share := get meas_shares j in
      let* out_share := valid_truncate (Sum P max) meas_share in
      let* agg_share := vec_add agg_share out_share in
      set agg_shares j agg_share)) =
  Ok (map (share_of [[fof (fold_right Z.add 0%Z (map m (seq 0 n))); R]]) [0; 1; 2]).
Proof.
  intros H3 Hm Hd. induction n as [|n IH].
  - exists f0. rewrite for_range_nil by lia. cbn [repeat seq map fold_right]. unfold share_of. cbn.
    assert (E : forall j, fadd (fof 0) (fmul (pt j) (fadd f0 (fmul (pt j) f0))) = f0 :> F).
    { intros j. change (fof 0) with (f0 (P := P)). ring. }
    rewrite !E. reflexivity.
  - destruct IH as (R & E); [intros x Hx; apply Hm; lia|].
    rewrite for_range_S by lia. rewrite E. cbn [bind].
    destruct (Sum_encode HP max Hmax Hmax' (m n) (Hm n (Nat.lt_succ_diag_r n))) as (enc & E1 & L & _ & T).
    change (vMEAS_LEN (Sum P max)) with (bit_length max) in L.
    rewrite E1. cbn [bind]. rewrite (shard_spec enc (draws n) 3 H3) by (destruct (Hd n); lia). cbn [bind].
    set (R' := rc_value max (map (fun r => nth 0 r f0) (draws n))).
    exists (fadd R R').
    set (M := fold_right Z.add 0%Z (map m (seq 0 n))).
    assert (TS := fun j => truncated_share enc (draws n) j (m n) L (Hd n) T). fold R' in TS.
    rewrite (three_steps (share_of (polys_of enc (draws n))) (valid_truncate (Sum P max)) (share_of [[fof M; R]]) (share_of [[fof (m n); R']])
      (share_of [[fadd (fof M) (fof (m n)); fadd R R']]) TS (add_lines _ _ _ _)).
    f_equal. rewrite seq_S, map_app. cbn [map Nat.add]. rewrite fold_right_app. cbn [fold_right].
    assert (EM : fadd (fof M) (fof (m n)) = fof (fold_right Z.add (m n + 0)%Z (map m (seq 0 n))) :> F).
    { rewrite <- fof_add. f_equal. unfold M. generalize (map m (seq 0 n)). intros l. induction l; cbn; lia. }
    now rewrite EM.
Qed.
End Agg.

Lemma reconstructs_pair (rand : list (list (F Field64))) (meas : list (F Field64)) i j : length meas = 2 -> singles 2 rand -> ~ In f0 meas ->
  i < 3 -> j < 3 -> i <> j ->
  shamir_unshard [Z.of_nat i; Z.of_nat j] [share_of (polys_of meas rand) i; share_of (polys_of meas rand) j] = Ok meas.
Proof.
  intros L (L1 & L2) N Hi Hj D.
  assert (H3 : (Z.of_nat 3 < MODULUS Field64)%Z) by reflexivity.
  assert (ND : NoDup [i; j]) by (repeat constructor; cbn; lia).
  assert (Ix : Forall (fun j => j < 3) [i; j]) by (constructor; [exact Hi|constructor; [exact Hj|constructor]]).
  assert (S1 : Forall (fun r : list (F Field64) => length r = 2 - 1) rand) by exact L2.
  change [Z.of_nat i; Z.of_nat j] with (map Z.of_nat [i; j]).
  change [share_of (polys_of meas rand) i; share_of (polys_of meas rand) j] with (map (share_of (polys_of meas rand)) [i; j]).
  rewrite (unshard_spec prime_Field64 (polys_of meas rand) [i; j]); [| easy | exact ND | exact (index_fits 3 _ H3 Ix) | apply (polys_bound meas rand 2 2 S1); lia].
  rewrite polys_secret by lia.
  replace (forallb (unshard_ok [i; j]) (polys_of meas rand)) with true; [reflexivity|].
  symmetry. apply forallb_forall. intros c Hc. unfold polys_of in Hc. apply in_map_iff in Hc as ((m & r) & <- & Hc).
  apply in_combine_l in Hc. unfold unshard_ok. cbn [fst snd existsb length Nat.eqb orb].
  destruct (feqb m f0) eqn:E; [|reflexivity]. apply feqb_eq in E. subst m. contradiction.
Qed.

Lemma shard_unshard_passes rand : singles 2 rand -> test_shard_unshard rand = Ok tt.
Proof.
  intros S. unfold test_shard_unshard.
  change (field_init 13) with (Ok (fof (P := Field64) 13)). change (field_init 37) with (Ok (fof (P := Field64) 37)). cbn [bind].
  assert (H3 : (Z.of_nat 3 < MODULUS Field64)%Z) by reflexivity.
  rewrite (shard_spec [fof 13; fof 37] rand 3 H3 (proj1 S)). cbn [bind].
  assert (R := fun i j => reconstructs_pair rand [fof 13; fof 37] i j eq_refl S).
  assert (N : ~ In f0 [fof (P := Field64) 13; fof (P := Field64) 37]).
  { intros [H|[H|[]]]; apply (f_equal fint) in H; vm_compute in H; discriminate. }
  assert (V : vec_eqb [fof (P := Field64) 13; fof (P := Field64) 37] [fof 13; fof 37] = true) by (vm_compute; reflexivity).
  change (range 0 3) with [0; 1; 2]. cbn [map foldM get nth_error bind].
  rewrite R by (easy || lia). cbn [bind]. rewrite V. cbn [assert_true check bind].
  rewrite R by (easy || lia). cbn [bind]. rewrite V. cbn [assert_true check bind].
  rewrite R by (easy || lia). cbn [bind]. rewrite V. reflexivity.
Qed.

Lemma aggregate_passes draws : (forall x, singles 7 (draws x)) -> test_aggregate draws = Ok tt.
Proof.
  intros D. unfold test_aggregate.
  assert (H3 : (3 < MODULUS Field64)%Z) by reflexivity.
  assert (HM : (2 ^ Z.of_nat (bit_length 100) < MODULUS Field64)%Z) by reflexivity.
  replace (Sum_init Field64 100) with (Ok (Sum Field64 100)) by (symmetry; apply Sum_init_Ok; now split).
  cbn [bind]. cbv zeta. change (vOUTPUT_LEN (Sum Field64 100)) with 1.
  destruct (agg_loop NttOk_Field64 100 eq_refl HM Z.of_nat draws 100 H3) as (R & E);
    [intros x Hx; lia | exact D |].
  rewrite E. cbn [bind map get nth_error].
  change (fold_right Z.add 0%Z (map Z.of_nat (seq 0 100))) with 4950%Z.
  change [0; 1]%Z with (map Z.of_nat [0; 1]).
  change [share_of [[fof 4950; R]] 0; share_of [[fof 4950; R]] 1] with (map (share_of [[fof 4950; R]]) [0; 1]).
  rewrite (unshard_spec prime_Field64); [| easy | repeat constructor; cbn; lia | repeat constructor | repeat constructor].
  assert (U : forallb (unshard_ok [0; 1]) [[fof (P := Field64) 4950; R]] = true).
  { unfold unshard_ok. cbn [forallb existsb length Nat.eqb orb].
    replace (feqb (fof (P := Field64) 4950) f0) with false by (vm_compute; reflexivity). reflexivity. }
  rewrite U. cbn [bind map nth valid_decode Sum get nth_error]. 
  replace (fint (fof (P := Field64) 4950)) with 4950%Z by (vm_compute; reflexivity). reflexivity.
Qed.

Lemma flp_count_outcome prove_rand query_rand meas_rand proof_rand :
  let v := Count Field64 in
  length prove_rand = prove_rand_len v -> length query_rand = query_rand_len v ->
  singles (vMEAS_LEN v) meas_rand -> singles (proof_len v) proof_rand ->
  test_flp_count prove_rand query_rand meas_rand proof_rand = shamir_flp_outcome v [f0] prove_rand query_rand [] meas_rand proof_rand.
Proof.
  intros v H1 H2 H3 H4. unfold test_flp_count.
  destruct (Count_encode NttOk_Field64 0 (or_introl eq_refl)) as (E & A & _). change (fof 0) with (f0 (P := Field64)) in *.
  rewrite E. cbn [bind].
  destruct (std_ok NttOk_Field64 (Count Field64) ltac:(apply std_Count; vm_compute; discriminate)) as [HV _].
  apply (flp_outcome NttOk_Field64 v HV); try easy. now apply A.
Qed.

Lemma flp_sum_outcome prove_rand query_rand meas_rand proof_rand :
  let v := Sum Field64 23 in
  length prove_rand = prove_rand_len v -> length query_rand = query_rand_len v ->
  singles (vMEAS_LEN v) meas_rand -> singles (proof_len v) proof_rand ->
  exists meas, valid_encode v 22%Z = Ok meas /\
  test_flp_sum prove_rand query_rand meas_rand proof_rand = shamir_flp_outcome v meas prove_rand query_rand [] meas_rand proof_rand.
Proof.
  intros v H1 H2 H3 H4. unfold test_flp_sum.
  assert (HM : (2 ^ Z.of_nat (bit_length 23) < MODULUS Field64)%Z) by reflexivity.
  assert (EI : Sum_init Field64 23 = Ok (Sum Field64 23)) by (apply Sum_init_Ok; now split).
  rewrite EI. cbn [bind]. cbv zeta.
  destruct (Sum_encode NttOk_Field64 23 eq_refl HM 22 ltac:(lia)) as (enc & E & L & A & _).
  exists enc. split; [exact E|]. rewrite E. cbn [bind].
  destruct (std_ok NttOk_Field64 v) as [HV _]. { apply (std_Sum _ 23); [exact EI|reflexivity|vm_compute; discriminate]. }
  apply (flp_outcome NttOk_Field64 v HV); try easy. now apply A.
Qed.

Lemma flp_sum_vec_outcome prove_rand query_rand joint_rand meas_rand proof_rand :
  let v := SumVec Field128 100 3 10 in
  length prove_rand = prove_rand_len v -> length query_rand = query_rand_len v -> length joint_rand = vJOINT_RAND_LEN v ->
  singles (vMEAS_LEN v) meas_rand -> singles (proof_len v) proof_rand ->
  exists meas, valid_encode v (repeat 1%Z 100) = Ok meas /\
  test_flp_sum_vec prove_rand query_rand joint_rand meas_rand proof_rand = shamir_flp_outcome v meas prove_rand query_rand joint_rand meas_rand proof_rand.
Proof.
  intros v H1 H2 H2' H3 H4. unfold test_flp_sum_vec.
  assert (HM : (2 ^ Z.of_nat (bit_length 3) < MODULUS Field128)%Z) by reflexivity.
  assert (EI : SumVec_init Field128 100 3 10 = Ok (SumVec Field128 100 3 10)) by (apply SumVec_init_Ok; now repeat split).
  rewrite EI. cbn [bind]. cbv zeta.
  destruct (SumVec_encode NttOk_Field128 100 3 10 ltac:(lia) ltac:(lia) eq_refl HM (repeat 1%Z 100)) as (enc & E & L & A & _).
  { apply repeat_length. } { apply Forall_forall. intros x Hx. apply repeat_spec in Hx. lia. }
  exists enc. split; [exact E|]. fold v in E |- *. rewrite E. cbn [bind].
  destruct (std_ok NttOk_Field128 v) as [HV _]. { apply (std_SumVec _ 100 3 10); [exact EI|vm_compute; discriminate]. }
  apply (flp_outcome NttOk_Field128 v HV); try easy. now apply A.
Qed.
