(** Property C90: the unit tests of example_flp_shamir.py, whatever they draw. *)
From Verif Require Import ShamirTests ShamirTestsSpec ShamirTestsFacts FlpInstances MeasSpec MeasFacts CircuitSpec FlpSpec Roots Primes RangeInt ShamirFacts
  Circuits Field FlpBBCGGI19 Base BaseFacts.
Open Scope nat_scope.

(** C90.  test_shard_unshard and test_aggregate always pass. *)
Theorem C90_always : (forall rand, singles 2 rand -> test_shard_unshard rand = Ok tt) /\
  (forall draws, (forall x, singles 7 (draws x)) -> test_aggregate draws = Ok tt).
Proof. exact (conj shard_unshard_passes aggregate_passes). Qed.
Print Assumptions C90_always.

(** C90.  What test_aggregate relies on, for any bound and measurements: the sums of
    the truncated shares are shares of the sum of the measurements. *)
Theorem C90_truncate : forall P : NttFieldClass, NttOk P -> forall max : Z,
  (0 < max)%Z -> (2 ^ Z.of_nat (bit_length max) < MODULUS P)%Z ->
  forall (m : nat -> Z) (draws : nat -> list (list (F P))) n,
  (3 < MODULUS P)%Z -> (forall x, x < n -> (0 <= m x <= max)%Z) -> (forall x, singles (bit_length max) (draws x)) ->
  exists R, for_range 0 n (repeat (fzeros (P := P) 1) 3) (fun agg_shares x =>
    let* meas := valid_encode (Sum P max) (m x) in
    let* meas_shares := shamir_shard meas (draws x) 3 in
    for_range 0 3 agg_shares (fun agg_shares j =>
      let* agg_share := get agg_shares j in
      let* meas_share := get meas_shares j in
      let* out_share := valid_truncate (Sum P max) meas_share in
      let* agg_share := vec_add agg_share out_share in
      set agg_shares j agg_share)) =
  Ok (map (share_of [[fof (fold_right Z.add 0%Z (map m (seq 0 n))); R]]) [0; 1; 2]).
Proof. exact @agg_loop. Qed.
Print Assumptions C90_truncate.

(** C90.  The tests of FLPs on shares, for any circuit and valid measurement: the
    test passes unless a test point is a root of unity (ValueError) or some component
    of the two verifier shares is zero in both (IndexError). *)
Theorem C90_flp : forall P : NttFieldClass, NttOk P -> forall v : Valid P, ValidOk v ->
  forall (meas prove_rand query_rand joint_rand : list (F P)) meas_rand proof_rand,
  length meas = vMEAS_LEN v -> circuit_zero v meas joint_rand -> (3 < MODULUS P)%Z ->
  length prove_rand = prove_rand_len v -> length query_rand = query_rand_len v -> length joint_rand = vJOINT_RAND_LEN v ->
  singles (vMEAS_LEN v) meas_rand -> singles (proof_len v) proof_rand ->
  run_shamir_flp v meas prove_rand query_rand joint_rand meas_rand proof_rand =
  shamir_flp_outcome v meas prove_rand query_rand joint_rand meas_rand proof_rand.
Proof. exact @flp_outcome. Qed.
Print Assumptions C90_flp.

Theorem C90_tests :
  (let v := Count Field64 in forall prove_rand query_rand meas_rand proof_rand,
   length prove_rand = prove_rand_len v -> length query_rand = query_rand_len v ->
   singles (vMEAS_LEN v) meas_rand -> singles (proof_len v) proof_rand ->
   test_flp_count prove_rand query_rand meas_rand proof_rand = shamir_flp_outcome v [f0] prove_rand query_rand [] meas_rand proof_rand) /\
  (let v := Sum Field64 23 in forall prove_rand query_rand meas_rand proof_rand,
   length prove_rand = prove_rand_len v -> length query_rand = query_rand_len v ->
   singles (vMEAS_LEN v) meas_rand -> singles (proof_len v) proof_rand ->
   exists meas, valid_encode v 22%Z = Ok meas /\
   test_flp_sum prove_rand query_rand meas_rand proof_rand = shamir_flp_outcome v meas prove_rand query_rand [] meas_rand proof_rand) /\
  (let v := SumVec Field128 100 3 10 in forall prove_rand query_rand joint_rand meas_rand proof_rand,
   length prove_rand = prove_rand_len v -> length query_rand = query_rand_len v -> length joint_rand = vJOINT_RAND_LEN v ->
   singles (vMEAS_LEN v) meas_rand -> singles (proof_len v) proof_rand ->
   exists meas, valid_encode v (repeat 1%Z 100) = Ok meas /\
   test_flp_sum_vec prove_rand query_rand joint_rand meas_rand proof_rand = shamir_flp_outcome v meas prove_rand query_rand joint_rand meas_rand proof_rand).
Proof.
  split; [intros v a b c d; exact (flp_count_outcome a b c d)|]. split; [intros v a b c d; exact (flp_sum_outcome a b c d)|].
  intros v a b c d e. exact (flp_sum_vec_outcome a b c d e).
Qed.
Print Assumptions C90_tests.

(** C90.  The assertion: for any circuit and vectors the test passes only if the
    verifier interpolated from the two verifier shares is accepted. *)
Theorem C90_assertion : forall (P : NttFieldClass) (v : Valid P) (meas prove_rand query_rand joint_rand : list (F P)) meas_rand proof_rand,
  run_shamir_flp v meas prove_rand query_rand joint_rand meas_rand proof_rand = Ok tt <->
  exists ms proof ps v0 v2 verifier, shamir_shard meas meas_rand 3 = Ok ms /\ bbcggi19_prove v meas prove_rand joint_rand = Ok proof /\
    shamir_shard proof proof_rand 3 = Ok ps /\ 2 < length ms /\ 2 < length ps /\
    bbcggi19_query v (nth 0 ms []) (nth 0 ps []) query_rand joint_rand 1 = Ok v0 /\
    bbcggi19_query v (nth 2 ms []) (nth 2 ps []) query_rand joint_rand 1 = Ok v2 /\
    shamir_unshard [0; 2]%Z [v0; v2] = Ok verifier /\ bbcggi19_decide v verifier = Ok true.
Proof.
  intros P v meas prove_rand query_rand joint_rand meas_rand proof_rand. unfold run_shamir_flp. split.
  - intros H. apply bind_Ok in H as (ms & E1 & H). apply bind_Ok in H as (proof & E2 & H). apply bind_Ok in H as (ps & E3 & H).
    apply bind_Ok in H as (m0 & G0 & H). apply bind_Ok in H as (p0 & G1 & H). apply bind_Ok in H as (v0 & E4 & H).
    apply bind_Ok in H as (m2 & G2 & H). apply bind_Ok in H as (p2 & G3 & H). apply bind_Ok in H as (v2 & E5 & H).
    apply bind_Ok in H as (w & E6 & H). apply bind_Ok in H as (d & E7 & H). destruct d; [|discriminate].
    apply (get_Ok_nth _ _ _ []) in G0 as (_ & <-). apply (get_Ok_nth _ _ _ []) in G1 as (_ & <-).
    apply (get_Ok_nth _ _ _ []) in G2 as (L2 & <-). apply (get_Ok_nth _ _ _ []) in G3 as (L3 & <-).
    exists ms, proof, ps, v0, v2, w. repeat (split; [assumption|]). assumption.
  - intros (ms & proof & ps & v0 & v2 & w & E1 & E2 & E3 & L2 & L3 & E4 & E5 & E6 & E7).
    rewrite E1. cbn [bind]. rewrite E2. cbn [bind]. rewrite E3. cbn [bind].
    rewrite (get_nth ms 0 []), (get_nth ps 0 []), (get_nth ms 2 []), (get_nth ps 2 []) by lia. cbn [bind].
    rewrite E4. cbn [bind]. rewrite E5. cbn [bind]. rewrite E6. cbn [bind]. rewrite E7. reflexivity.
Qed.
Print Assumptions C90_assertion.

(** Draws for which a test passes, and for which it raises. *)
Definition ex_fof := map (fof (P := Field64)).
Definition ex_ones (l : list Z) := map (fun z => ex_fof [z]) l.
Example C90_example :
  singles 2 (ex_ones [5; 6]%Z) /\ test_shard_unshard (ex_ones [5; 6]%Z) = Ok tt /\
  test_flp_count (ex_fof [11; 12]%Z) (ex_fof [5]%Z) (ex_ones [3]%Z) (ex_ones [21; 22; 23; 24; 25]%Z) = Ok tt /\
  test_flp_count (ex_fof [11; 12]%Z) (ex_fof [5]%Z) (ex_ones [0]%Z) (ex_ones [0; 0; 0; 0; 0]%Z) = Raise IndexError /\
  test_flp_count (ex_fof [11; 12]%Z) (ex_fof [1]%Z) (ex_ones [3]%Z) (ex_ones [21; 22; 23; 24; 25]%Z) = Raise (ValueError "test point is a root of unity").
Proof.
  split; [split; [reflexivity|repeat constructor]|]. split; [vm_compute; reflexivity|]. split; [vm_compute; reflexivity|].
  split; vm_compute; reflexivity.
Qed.
