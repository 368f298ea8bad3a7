(** Model of the FLP test harness (test_utils.py:478-530) and of the unit tests in
    test_flp_bbcggi19.py and test_flp.py.  [rand_vec] is modelled by a function
    that returns the vector drawn, given the number of the call and the length. *)
From Verif Require Export VdafTests.
Open Scope nat_scope.

Definition draw (P : FieldClass) : Type := nat -> nat -> list (F P).

Section Harness.
Context {P : NttFieldClass}.
Notation F := (F P).

(** test_utils.py:483-498; [eval_at] and [polys j] are drawn. *)
Definition run_gadget_test (g : gadget) (test_length : nat) (eval_at : F) (polys : draw P) : res unit :=
  let meas_poly := map (fun j => polys j test_length) (range 0 (ARITY g)) in
  let* meas := mapM (fun p => lag_poly_eval p eval_at) meas_poly in
  let* out_poly := gadget_eval_poly g meas_poly in
  let* want := gadget_eval g meas in
  let* got := lag_poly_eval out_poly eval_at in
  assert_true (feqb got want).

(** test_utils.py:509-521: one iteration of the second loop.  The vectors drawn
    are, in this order, the joint randomness, and in run_flp (flp.py:147-170) the
    joint, prove and query randomness and the first shares of the measurement and
    of the proof. *)
Definition run_flp_case (v : Valid P) (meas : list F) (expected_decision : bool) (rand : draw P) : res unit :=
  let flp := FlpBBCGGI19 v in
  let* _ := assert_true (length meas =? MEAS_LEN flp) in
  let* out := flp_truncate flp meas in
  let* _ := assert_true (length out =? OUTPUT_LEN flp) in
  let* zero := field_init (P := P) 0 in
  let joint_rand := rand 0 (JOINT_RAND_LEN flp) in
  let* r := valid_eval_plain v meas joint_rand 1 in
  let* _ := assert_true (Bool.eqb (vec_eqb r (repeat zero (EVAL_OUTPUT_LEN v))) expected_decision) in
  let* decision := run_flp flp meas (rand 1 (JOINT_RAND_LEN flp)) (rand 2 (PROVE_RAND_LEN flp)) (rand 3 (QUERY_RAND_LEN flp)) 2
                     [rand 4 (length meas)] [rand 5 (PROOF_LEN flp)] in
  assert_true (Bool.eqb decision expected_decision).

(** test_utils.py:500-521; [gadget_draws i] are the values drawn for the i-th
    gadget, [draws k] those for the k-th case. *)
Definition run_flp_test (v : Valid P) (gadget_draws : nat -> F * draw P) (draws : nat -> draw P)
  (test_cases : list (list F * bool)) : res unit :=
  let* _ := foldM (fun _ '(i, (g, g_calls)) =>
    run_gadget_test g (wire_poly_len g_calls) (fst (gadget_draws i)) (snd (gadget_draws i)))
    (enumerate (combine (GADGETS v) (GADGET_CALLS v))) tt in
  foldM (fun _ '(k, (meas, expected_decision)) => run_flp_case v meas expected_decision (draws k)) (enumerate test_cases) tt.

(** test_utils.py:523-530, for measurements that are lists of integers. *)
Definition run_encode_truncate_decode_test (flp : Flp P) (eqb : Measurement flp -> AggResult flp -> bool)
  (measurements : list (Measurement flp)) : res unit :=
  foldM (fun _ measurement =>
    let* encoded := flp_encode flp measurement in
    let* output := flp_truncate flp encoded in
    let* r := flp_decode flp output 1 in
    assert_true (eqb measurement r)) measurements tt.
End Harness.

Section Suite.
Notation Draws P := ((nat -> F P * draw P) * (nat -> draw P))%type.

(** [[field(x) for x in l]] *)
Definition inits (P : FieldClass) (l : list Z) : res (list (F P)) := mapM field_init l.

(** test_flp_bbcggi19.py:92-99 *)
Definition test_count (d : Draws Field64) : res unit :=
  let v := Count Field64 in
  let* c0 := valid_encode v 0%Z in
  let* c1 := valid_encode v 1%Z in
  let* c2 := inits Field64 [1337]%Z in
  run_flp_test v (fst d) (snd d) [(c0, true); (c1, true); (c2, false)].

(** test_flp_bbcggi19.py:102-114 *)
Definition test_sum (d : Draws Field64) : res unit :=
  let* _ := Sum_init Field64 10000 in
  let v := Sum Field64 10000 in
  let* c0 := valid_encode v 0%Z in
  let* c1 := valid_encode v 1337%Z in
  let* c2 := valid_encode v 9999%Z in
  let* c3 := valid_encode v 10000%Z in
  let c4 := fzeros (vMEAS_LEN v) in
  let* two := field_init 2 in
  let c5 := repeat two (vMEAS_LEN v) in
  let* _ := run_flp_test v (fst d) (snd d) [(c0, true); (c1, true); (c2, true); (c3, true); (c4, true); (c5, false)] in
  assert_raises_value_error (valid_encode v 10001%Z).

(** test_flp_bbcggi19.py:116-132 *)
Definition test_range_check_round_trip : res unit :=
  for_range 14 17 tt (fun _ max_measurement =>
    for_range 0 (max_measurement + 1) tt (fun _ val =>
      let* encoded := encode_range_checked_int (P := Field64) (Z.of_nat val) (Z.of_nat max_measurement) in
      let* x := decode_range_checked_int encoded (Z.of_nat max_measurement) in
      assert_true (fint x =? Z.of_nat val)%Z)).

(** test_flp_bbcggi19.py:136-146; [r] is drawn. *)
Definition test_histogram (r : list (F Field128)) (d : Draws Field128) : res unit :=
  let* _ := Histogram_init Field128 4 2 in
  let v := Histogram Field128 4 2 in
  let* c0 := valid_encode v 0%Z in
  let* c1 := valid_encode v 1%Z in
  let* c2 := valid_encode v 2%Z in
  let* c3 := valid_encode v 3%Z in
  let* c4 := inits Field128 [0; 0; 0; 0]%Z in
  let* c5 := inits Field128 [1; 1; 1; 1]%Z in
  run_flp_test v (fst d) (snd d)
    [(c0, true); (c1, true); (c2, true); (c3, true); (c4, false); (c5, false); (r, false)].

(** test_flp_bbcggi19.py:160-169 and 238-247: too many ones. *)
Definition too_many (len max_weight : nat) : res (list (list (F Field128) * bool)) :=
  mapM (fun i =>
    let* one := field_init 1 in
    let* zero := field_init 0 in
    Ok (repeat one i ++ repeat zero (len - i) ++ repeat one (Multihot_bits max_weight), false))
    (range (max_weight + 1) (len + 1)).
(** test_flp_bbcggi19.py:170-182 and 249-266: the entries are not bits. *)
Definition not_bits (len max_weight : nat) : res (list (F Field128)) :=
  inits Field128 ([MODULUS Field128 - 1; 1]%Z ++ repeat 0%Z (len - 2) ++ repeat 0%Z (Multihot_bits max_weight)).

(** test_flp_bbcggi19.py:149-188 *)
Definition test_multihot (d : Draws Field128) : res unit :=
  let* _ := MultihotCountVec_init Field128 4 2 2 in
  let v := MultihotCountVec Field128 4 2 2 in
  let* cases := mapM (fun m => let* c := valid_encode v m in Ok (c, true))
    [[false; false; false; false]; [false; true; false; false]; [false; true; true; false]; [true; true; false; false]] in
  let* bad := too_many 4 2 in
  let* c := not_bits 4 2 in
  let* _ := run_flp_test v (fst d) (snd d) (cases ++ bad ++ [(c, false)]) in
  assert_raises_value_error (valid_encode v [true; true; true; false]).

(** test_flp_bbcggi19.py:190-268 *)
Definition test_multihot_max_6 (d : Draws Field128) : res unit :=
  let* _ := MultihotCountVec_init Field128 8 6 3 in
  let v := MultihotCountVec Field128 8 6 3 in
  let* cases := mapM (fun m => let* c := valid_encode v m in Ok (c, true))
    [[true; true; true; true; true; true; false; false];
     [false; true; false; true; true; true; true; true];
     repeat false 8;
     [true; true; false; false; false; false; false; false];
     [true; true; true; true; true; false; false; false]] in
  let* alt := mapM (fun m => let* c := inits Field128 m in Ok (c, true))
    [[1; 1; 1; 0; 0; 0; 0; 0; 1; 1; 0]; [1; 1; 1; 0; 0; 0; 0; 0; 0; 0; 1]]%Z in
  let* bad := too_many 8 6 in
  let* c := not_bits 8 6 in
  run_flp_test v (fst d) (snd d) (cases ++ alt ++ bad ++ [(c, false)]).

(** test_flp_bbcggi19.py:270-278 *)
Definition test_multihot_small (d : Draws Field128) : res unit :=
  let* _ := MultihotCountVec_init Field128 1 1 1 in
  let v := MultihotCountVec Field128 1 1 1 in
  let* c0 := valid_encode v [false] in
  let* c1 := valid_encode v [true] in
  let* c2 := inits Field128 [0; 1337]%Z in
  let* c3 := inits Field128 [1; 0]%Z in
  run_flp_test v (fst d) (snd d) [(c0, true); (c1, true); (c2, false); (c3, false)].

(** test_flp_bbcggi19.py:282-299.  The assertions on the class and the attribute
    [field] of the object hold by construction. *)
Definition run_sumvec_afe (measurements : list (list Z)) (len max_measurement chunk_length : Z) : res unit :=
  foldM (fun _ (P : NttFieldClass) =>
    let* _ := SumVec_init P len max_measurement chunk_length in
    let v := SumVec P (Z.to_nat len) max_measurement (Z.to_nat chunk_length) in
    run_encode_truncate_decode_test (FlpBBCGGI19 v) ints_eqb measurements) [Field64; Field96; Field128] tt.

(** test_flp_bbcggi19.py:301-325 *)
Definition test_sumvec_afe : res unit :=
  let* _ := run_sumvec_afe [[1; 2]; [3; 4]; [5; 6]; [7; 8]]%Z 2 15 1 in
  let* _ := run_sumvec_afe [[1; 2]; [3; 4]; [5; 6]]%Z 2 6 1 in
  let* _ := SumVec_init Field128 2 10 3 in
  let v := SumVec Field128 2 10 3 in
  let* one := field_init 1 in
  let* got := valid_truncate v (repeat one 8) in
  let* ten := field_init 10 in
  let* _ := assert_true (vec_eqb got (repeat ten 2)) in
  let* _ := assert_raises_value_error (valid_encode v [0; 11]%Z) in
  assert_raises_value_error (valid_encode v [0; 30]%Z).

(** test_flp_bbcggi19.py:327-335 *)
Definition test_sumvec (d : Draws Field128) : res unit :=
  let* _ := SumVec_init Field128 2 10 3 in
  let v := SumVec Field128 2 10 3 in
  let* c0 := valid_encode v [0; 10]%Z in
  let* c1 := valid_encode v [5; 5]%Z in
  let c2 := fzeros 8 in
  let* c3 := inits Field128 (repeat 1%Z 8) in
  let* c4 := inits Field128 (repeat 2%Z 8) in
  run_flp_test v (fst d) (snd d) [(c0, true); (c1, true); (c2, true); (c3, true); (c4, false)].

(** test_flp_bbcggi19.py:338-343 *)
Definition test_multi_gadget (d : Draws Field64) : res unit :=
  let* c0 := valid_encode MultiGadget 0%Z in
  run_flp_test MultiGadget (fst d) (snd d) [(c0, true)].

(** test_flp_bbcggi19.py:346-354 *)
Definition test_higher_degree (d : Draws Field64) : res unit :=
  let* c0 := valid_encode HigherDegree 0%Z in
  let* c1 := valid_encode HigherDegree 1%Z in
  let* c2 := valid_encode HigherDegree 2%Z in
  let* c3 := valid_encode HigherDegree 3%Z in
  run_flp_test HigherDegree (fst d) (snd d) [(c0, true); (c1, true); (c2, true); (c3, false)].

(** test_flp_bbcggi19.py:357-371 *)
Definition test_poly_eval (p : list Z) (eval_at : F Field128) (polys : draw Field128) : res unit :=
  let* n := next_power_of_2 10 in
  let* g := PolyEval_init p (Z.to_nat n) in
  run_gadget_test g (Z.to_nat n) eval_at polys.
Definition test_gadgets (d : nat -> F Field128 * draw Field128) : res unit :=
  let* _ := test_poly_eval [0; -1; 1]%Z (fst (d 0)) (snd (d 0)) in
  test_poly_eval [0; -23; 1; 3]%Z (fst (d 1)) (snd (d 1)).

(** test_flp.py:58-63; three shares, so that run_flp draws two vectors for the
    measurement and two for the proof, which is a copy of it. *)
Definition test_flp (draws : nat -> draw Field128) : res unit :=
  let flp := FlpTest Field128 1 in
  let run k meas := let rand := draws k in
    run_flp flp meas (rand 0 (JOINT_RAND_LEN flp)) (rand 1 (PROVE_RAND_LEN flp)) (rand 2 (QUERY_RAND_LEN flp)) 3
      [rand 3 (length meas); rand 4 (length meas)] [rand 5 (length meas); rand 6 (length meas)] in
  let* m := flp_encode flp 0%Z in
  let* d := run 0 m in
  let* _ := assert_true d in
  let* m := flp_encode flp 4%Z in
  let* d := run 1 m in
  let* _ := assert_true d in
  let* x := field_init 1337 in
  let* d := run 2 [x] in
  assert_false d.
End Suite.
