(** Model of the unit tests of example_flp_shamir.py (class TestShamir).  What the
    tests draw is an argument: the vectors drawn by shamir_shard() (see Shamir.v) and
    the randomness of the FLPs. *)
From Verif Require Import Base Field Common FlpBBCGGI19 Circuits Shamir FieldTests TestVectors.
From Verif Require Export Shamir.
Open Scope nat_scope.

(** example_flp_shamir.py:88-98 *)
Definition test_shard_unshard (rand : list (list (F Field64))) : res unit :=
  let* a := field_init (P := Field64) 13 in
  let* b := field_init (P := Field64) 37 in
  let meas := [a; b] in
  let* meas_shares := shamir_shard meas rand 3 in
  foldM (fun _ '(i, j) =>
    let* si := get meas_shares i in
    let* sj := get meas_shares j in
    let* got := shamir_unshard [Z.of_nat i; Z.of_nat j] [si; sj] in
    assert_true (vec_eqb got meas)) [(0, 1); (0, 2); (1, 2)] tt.

(** example_flp_shamir.py:100-120.  [draws x] is drawn for measurement [x].  The last
    line compares an integer with the float 4950.0. *)
Definition test_aggregate (draws : nat -> list (list (F Field64))) : res unit :=
  let num_shares := 3 in
  let max_measurement := 100 in
  let* v := Sum_init Field64 100 in
  let v := Sum Field64 100 in
  let* agg_shares := for_range 0 max_measurement (repeat (fzeros (vOUTPUT_LEN v)) num_shares) (fun agg_shares x =>
    let* meas := valid_encode v (Z.of_nat x) in
    let* meas_shares := shamir_shard meas (draws x) num_shares in
    for_range 0 num_shares agg_shares (fun agg_shares j =>
      let* agg_share := get agg_shares j in
      let* meas_share := get meas_shares j in
      let* out_share := valid_truncate v meas_share in
      let* agg_share := vec_add agg_share out_share in
      set agg_shares j agg_share)) in
  let* a0 := get agg_shares 0 in
  let* a1 := get agg_shares 1 in
  let* agg := shamir_unshard [0; 1]%Z [a0; a1] in
  let* agg_result := valid_decode v agg max_measurement in
  assert_true (agg_result =? 100 * (100 - 1) / 2)%Z.

(** example_flp_shamir.py:122-140, 142-160, 162-186: the three tests, from the encoded
    measurement on. *)
Definition run_shamir_flp {P : NttFieldClass} (v : Valid P) (meas prove_rand query_rand joint_rand : list (F P))
  (meas_rand proof_rand : list (list (F P))) : res unit :=
  let* meas_shares := shamir_shard meas meas_rand 3 in
  let* proof := bbcggi19_prove v meas prove_rand joint_rand in
  let* proof_shares := shamir_shard proof proof_rand 3 in
  let* m0 := get meas_shares 0 in
  let* p0 := get proof_shares 0 in
  let* v0 := bbcggi19_query v m0 p0 query_rand joint_rand 1 in
  let* m2 := get meas_shares 2 in
  let* p2 := get proof_shares 2 in
  let* v2 := bbcggi19_query v m2 p2 query_rand joint_rand 1 in
  let* verifier := shamir_unshard [0; 2]%Z [v0; v2] in
  let* d := bbcggi19_decide v verifier in
  assert_true d.

Definition test_flp_count (prove_rand query_rand : list (F Field64)) (meas_rand proof_rand : list (list (F Field64))) : res unit :=
  let* meas := valid_encode (Count Field64) 0%Z in
  run_shamir_flp (Count Field64) meas prove_rand query_rand [] meas_rand proof_rand.
Definition test_flp_sum (prove_rand query_rand : list (F Field64)) (meas_rand proof_rand : list (list (F Field64))) : res unit :=
  let* v := Sum_init Field64 23 in
  let v := Sum Field64 23 in
  let* meas := valid_encode v 22%Z in
  run_shamir_flp v meas prove_rand query_rand [] meas_rand proof_rand.
Definition test_flp_sum_vec (prove_rand query_rand joint_rand : list (F Field128)) (meas_rand proof_rand : list (list (F Field128))) : res unit :=
  let* v := SumVec_init Field128 100 3 10 in
  let v := SumVec Field128 100 3 10 in
  let* meas := valid_encode v (repeat 1%Z 100) in
  run_shamir_flp v meas prove_rand query_rand joint_rand meas_rand proof_rand.
