(** Model of the VDAF and DAF test harnesses (test_utils.py:36-69,
    test_daf.py:100-129) and of the unit tests in test_vdaf_prio3.py and
    test_vdaf_poplar1.py.  Whatever [gen_rand] draws is an argument: [draws k]
    holds the verification key of the k-th run and the nonce and randomness of
    each of its reports.

    The constructors of the Prio3 variants return records whose measurement type
    is a field, so after calling the constructor a test is modelled on the
    explicit object [prio3_obj ...]; C29 proves that it is the object the
    constructor returns. *)
From Verif Require Export IdpfTests TestCircuits Vdaf Daf Prio3Inst Poplar1Inst MeasFacts.
Open Scope nat_scope.

Definition draws_t : Type := bytes * (nat -> bytes * bytes).
(** The measurements with the nonce and the randomness drawn for each. *)
Definition attach {M} (draws : nat -> bytes * bytes) (ms : list M) : list (M * bytes * bytes) :=
  map (fun '(i, m) => (m, fst (draws i), snd (draws i))) (enumerate ms).

(** test_utils.py:42-69; [eqb] is [==] on aggregate results. *)
Definition run_vdaf_test (vdaf : Vdaf) (eqb : vd_AggResult vdaf -> vd_AggResult vdaf -> bool)
  (agg_param : vd_AggParam vdaf) (measurements : list (vd_Measurement vdaf)) (expected : vd_AggResult vdaf)
  (draws : draws_t) : res unit :=
  let* _ := assert_true ((0 <=? vd_ID vdaf)%Z && (vd_ID vdaf <? 2 ^ 32)%Z) in
  let* agg_result := run_vdaf vdaf (fst draws) agg_param (byte_literal "some application context")
    (attach (snd draws) measurements) in
  assert_true (eqb agg_result expected).

(** test_daf.py:101-126 *)
Definition run_daf_test (daf : Daf) (eqb : df_AggResult daf -> df_AggResult daf -> bool)
  (agg_param : df_AggParam daf) (measurements : list (df_Measurement daf)) (expected : df_AggResult daf)
  (draws : nat -> bytes * bytes) : res unit :=
  let* _ := assert_true ((0 <=? df_ID daf)%Z && (df_ID daf <? 2 ^ 32)%Z) in
  let* agg_result := run_daf daf (byte_literal "some application") agg_param (attach draws measurements) in
  assert_true (eqb agg_result expected).

(** Consecutive calls of run_vdaf_test on one object. *)
Definition run_vdaf_tests (vdaf : Vdaf) (eqb : vd_AggResult vdaf -> vd_AggResult vdaf -> bool)
  (calls : list (vd_AggParam vdaf * list (vd_Measurement vdaf) * vd_AggResult vdaf)) (draws : nat -> draws_t) : res unit :=
  foldM (fun _ '(k, (agg_param, measurements, expected)) =>
    run_vdaf_test vdaf eqb agg_param measurements expected (draws k)) (enumerate calls) tt.

Section Tests.
Context (ts : TurboShake) (aes : BlockCipher) (bound : nat).

(** test_daf.py:128-129 *)
Definition test_test_daf (draws : nat -> bytes * bytes) : res unit :=
  run_daf_test (TestDaf ts bound) Z.eqb tt [1; 2; 3; 4]%Z 10%Z draws.

(** test_vdaf_prio3.py:59-67 *)
Definition flptest_calls : list (unit * list Z * Z) := [(tt, [1; 2; 3; 4; 4], 14)]%Z.
Definition test_prio3_flptest (draws0 draws1 : nat -> draws_t) : res unit :=
  let* _ := run_vdaf_tests (Prio3Vdaf (Prio3FlpTest ts bound 1)) Z.eqb flptest_calls draws0 in
  run_vdaf_tests (Prio3Vdaf (Prio3FlpTest ts bound 0)) Z.eqb flptest_calls draws1.

(** test_vdaf_prio3.py:70-79 *)
Definition count_calls : list (unit * list Z * Z) := [(tt, [0; 1; 1; 0; 1], 3); (tt, [1], 1)]%Z.
Definition count_calls_3 : list (unit * list Z * Z) := [(tt, [1], 1)]%Z.
Definition test_prio3_count (draws : nat -> draws_t) : res unit :=
  let* prio3 := Prio3Count ts bound 2 in
  let* _ := assert_true (p3_ID prio3 =? 1)%Z in
  run_vdaf_tests (Prio3Vdaf (prio3_obj Field64 1 (Count Field64) ts bound 2 1)) Z.eqb count_calls draws.
Definition test_prio3_count_3 (draws : nat -> draws_t) : res unit :=
  let* _ := Prio3Count ts bound 3 in
  run_vdaf_tests (Prio3Vdaf (prio3_obj Field64 1 (Count Field64) ts bound 3 1)) Z.eqb count_calls_3 draws.

(** test_vdaf_prio3.py:82-91 *)
Definition sum_calls : list (unit * list Z * Z) := [(tt, [0; 147; 1; 0; 11; 0], 159); (tt, [100], 100)]%Z.
Definition sum_calls_3 : list (unit * list Z * Z) := [(tt, [100], 100)]%Z.
Definition test_prio3_sum (draws : nat -> draws_t) : res unit :=
  let* prio3 := Prio3Sum ts bound 2 147 in
  let* _ := assert_true (p3_ID prio3 =? 2)%Z in
  run_vdaf_tests (Prio3Vdaf (prio3_obj Field64 2 (Sum Field64 147) ts bound 2 1)) Z.eqb sum_calls draws.
Definition test_prio3_sum_3 (draws : nat -> draws_t) : res unit :=
  let* _ := Prio3Sum ts bound 3 100 in
  run_vdaf_tests (Prio3Vdaf (prio3_obj Field64 2 (Sum Field64 100) ts bound 3 1)) Z.eqb sum_calls_3 draws.

(** test_vdaf_prio3.py:94-126 *)
Definition zrange (a b : Z) : list Z := map (fun i => a + Z.of_nat i)%Z (range 0 (Z.to_nat (b - a))).
Definition sumvec_calls : list (unit * list (list Z) * list Z) :=
  [(tt, [[1; 61; 86; 61; 23; 0; 255; 3; 2; 1]], [1; 61; 86; 61; 23; 0; 255; 3; 2; 1]);
   (tt, [zrange 0 10; repeat 1 10; repeat 255 10], zrange 256 266)]%Z.
Definition sumvec_calls_3 : list (unit * list (list Z) * list Z) :=
  [(tt, [[10000; 32000; 9]; [19342; 19615; 3061]; [15986; 24671; 23910]], [45328; 76286; 26980])]%Z.
Definition test_prio3_sumvec (draws : nat -> draws_t) : res unit :=
  let* prio3 := Prio3SumVec ts bound 2 10 255 9 in
  let* _ := assert_true (p3_ID prio3 =? 3)%Z in
  run_vdaf_tests (Prio3Vdaf (prio3_obj Field128 3 (SumVec Field128 10 255 9) ts bound 2 1)) ints_eqb sumvec_calls draws.
Definition test_prio3_sumvec_3 (draws : nat -> draws_t) : res unit :=
  let* _ := Prio3SumVec ts bound 3 3 32000 7 in
  run_vdaf_tests (Prio3Vdaf (prio3_obj Field128 3 (SumVec Field128 3 32000 7) ts bound 3 1)) ints_eqb sumvec_calls_3 draws.

(** test_vdaf_prio3.py:129-146 *)
Definition histogram_calls : list (unit * list Z * list Z) :=
  [(tt, [0], [1; 0; 0; 0]); (tt, [1], [0; 1; 0; 0]); (tt, [2], [0; 0; 1; 0]); (tt, [3], [0; 0; 0; 1]);
   (tt, [0; 0; 1; 1; 2; 2; 3; 3], [2; 2; 2; 2]); (tt, [2], [0; 0; 1; 0])]%Z.
Definition histogram_calls_3 : list (unit * list Z * list Z) := [(tt, [2], [0; 0; 1; 0; 0; 0; 0; 0; 0; 0; 0])]%Z.
Definition test_prio3_histogram (draws0 draws1 : nat -> draws_t) : res unit :=
  let* prio3 := Prio3Histogram ts bound 2 4 2 in
  let* _ := assert_true (p3_ID prio3 =? 4)%Z in
  let* _ := run_vdaf_tests (Prio3Vdaf (prio3_obj Field128 4 (Histogram Field128 4 2) ts bound 2 1)) ints_eqb histogram_calls draws0 in
  let* _ := Prio3Histogram ts bound 3 11 3 in
  run_vdaf_tests (Prio3Vdaf (prio3_obj Field128 4 (Histogram Field128 11 3) ts bound 3 1)) ints_eqb histogram_calls_3 draws1.

(** test_vdaf_prio3.py:149-189 *)
Definition multihot_calls : list (unit * list (list bool) * list Z) :=
  [(tt, [[false; false; false; false]], [0; 0; 0; 0]%Z);
   (tt, [[false; true; false; false]], [0; 1; 0; 0]%Z);
   (tt, [[false; true; true; false]], [0; 1; 1; 0]%Z);
   (tt, [[false; true; true; false]; [false; true; false; true]], [0; 2; 1; 1]%Z)].
Definition multihot_calls_3 : list (unit * list (list bool) * list Z) :=
  [(tt, [repeat true 5 ++ repeat false 6], repeat 1%Z 5 ++ repeat 0%Z 6)].
Definition test_prio3_multihot (draws : nat -> draws_t) : res unit :=
  let* prio3 := Prio3MultihotCountVec ts bound 2 4 2 2 in
  let* _ := assert_true (p3_ID prio3 =? 5)%Z in
  run_vdaf_tests (Prio3Vdaf (prio3_obj Field128 5 (MultihotCountVec Field128 4 2 2) ts bound 2 1)) ints_eqb multihot_calls draws.
Definition test_prio3_multihot_3 (draws : nat -> draws_t) : res unit :=
  let* _ := Prio3MultihotCountVec ts bound 3 11 5 3 in
  run_vdaf_tests (Prio3Vdaf (prio3_obj Field128 5 (MultihotCountVec Field128 11 5 3) ts bound 3 1)) ints_eqb multihot_calls_3 draws.

(** test_vdaf_prio3.py:192-202 *)
Definition average_calls : list (unit * list Z * Z) := [(tt, [1; 5; 1; 1; 4; 1; 3; 2], 2)]%Z.
Definition test_prio3_average (draws : nat -> draws_t) : res unit :=
  run_vdaf_tests (Prio3Vdaf (Prio3Average ts bound 2 5)) Z.eqb average_calls draws.
Definition test_prio3_is_valid : res unit :=
  let vdaf := Prio3Vdaf (Prio3Average ts bound 2 3) in
  let* ok := vd_is_valid vdaf tt [] in
  let* _ := assert_true ok in
  let* ok := vd_is_valid vdaf tt [tt] in
  assert_false ok.

(** test_vdaf_prio3.py:205-208 *)
Definition higher_calls : list (unit * list Z * Z) := [(tt, [0; 1; 2], 3)]%Z.
Definition test_prio3_higher_degree (draws : nat -> draws_t) : res unit :=
  run_vdaf_tests (Prio3Vdaf (Prio3HigherDegree ts bound 2)) Z.eqb higher_calls draws.

(** test_vdaf_prio3.py:211-246 *)
Definition multiproof_calls_3 : list (unit * list (list Z) * list Z) := sumvec_calls_3.
Definition test_prio3_multiproof (draws0 draws1 : nat -> nat -> draws_t) : res unit :=
  for_range 2 5 tt (fun _ num_proofs =>
    let* multiproof := Prio3SumVecWithMultiproof ts bound 2 Field64 num_proofs 10 255 9 in
    let* _ := assert_true (p3_ID multiproof =? 0xFFFFFFFF)%Z in
    let* _ := assert_true (p3_PROOFS multiproof =? num_proofs) in
    let* _ := run_vdaf_tests
      (Prio3Vdaf (prio3_obj Field64 (Z.of_N 0xFFFFFFFF) (SumVec Field64 10 255 9) ts bound 2 num_proofs))
      ints_eqb sumvec_calls (draws0 num_proofs) in
    let* _ := Prio3SumVec ts bound 3 3 65535 7 in
    run_vdaf_tests (Prio3Vdaf (prio3_obj Field128 3 (SumVec Field128 3 65535 7) ts bound 3 1))
      ints_eqb multiproof_calls_3 (draws1 num_proofs)).

(** test_vdaf_poplar1.py:9-21 *)
Definition run_poplar1_test (vdaf : Poplar1) (agg_param : Z * list (list bool)) (measurements : list (list bool))
  (expected_agg_result : list Z) (draws : draws_t) : res unit :=
  run_vdaf_test (p1_vdaf vdaf) ints_eqb agg_param measurements expected_agg_result draws.

(** test_vdaf_poplar1.py:23-115: the arguments of the calls. *)
Definition poplar1_calls : list (Z * ((Z * list (list bool)) * list (list bool) * list Z)) :=
  let b v n := int_to_bit_string v n in
  [(15, ((15, []), [], []));
   (2, ((1, [b 3 2%nat]), [], [0]));
   (2, ((1, [b 3 2%nat]), [b 0 2%nat], [0]));
   (2, ((0, [b 0 1%nat; b 1 1%nat]), [b 2 2%nat; b 0 2%nat; b 3 2%nat; b 1 2%nat; b 3 2%nat], [2; 3]));
   (2, ((1, [b 0 2%nat; b 1 2%nat]), [b 2 2%nat; b 0 2%nat; b 3 2%nat; b 1 2%nat; b 1 2%nat], [1; 2]));
   (16, ((15, [b 61680 16%nat]), [b 61680 16%nat], [1]));
   (16, ((14, [b 30840 15%nat]), [b 61680 16%nat; b 61681 16%nat; b 28912 16%nat; b 61682 16%nat; b 61440 16%nat], [2]));
   (128, ((127, [bytes_to_bit_string (byte_literal "0123456789abcdef")]),
          [bytes_to_bit_string (byte_literal "0123456789abcdef")], [1]));
   (256, ((63, [bytes_to_bit_string (byte_literal "00000000"); bytes_to_bit_string (byte_literal "01234567")]),
          [bytes_to_bit_string (byte_literal "0123456789abcdef0123456789abcdef");
           bytes_to_bit_string (byte_literal "01234567890000000000000000000000")], [0; 2]))]%Z.
Definition test_poplar1 (draws : nat -> draws_t) : res unit :=
  foldM (fun _ '(k, (bits, (agg_param, measurements, expected))) =>
    let* vdaf := Poplar1_init ts aes bound bits in
    run_poplar1_test vdaf agg_param measurements expected (draws k)) (enumerate poplar1_calls) tt.

(** [x == y] for bit strings and for lists of them. *)
Fixpoint bit_strings_eqb (x y : list (list bool)) : bool :=
  match x, y with
  | [], [] => true
  | a :: x, b :: y => bits_eqb a b && bit_strings_eqb x y
  | _, _ => false
  end.

(** test_vdaf_poplar1.py:117-185 *)
Definition test_get_ancestor : res unit :=
  foldM (fun _ '(x, level, want) => assert_true (bits_eqb (get_ancestor x level) want))
    (let b v n := int_to_bit_string v n in
     [(b 0 3%nat, 2, b 0 3%nat); (b 4 3%nat, 2, b 4 3%nat);
      (b 0 2%nat, 0, b 0 1%nat); (b 1 2%nat, 0, b 0 1%nat); (b 4 3%nat, 1, b 2 2%nat);
      (b 0 3%nat, 0, b 0 1%nat); (b 2 3%nat, 0, b 0 1%nat); (b 4 3%nat, 0, b 1 1%nat); (b 4 5%nat, 2, b 1 3%nat)]%Z) tt.

(** test_vdaf_poplar1.py:187-242 *)
Definition test_poplar1_is_valid : res unit :=
  let b v n := int_to_bit_string v n in
  let* _ := Poplar1_init ts aes bound 256 in
  foldM (fun _ '(agg_param, previous, want) =>
      let* ok := p1_is_valid agg_param previous in
      if want : bool then assert_true ok else assert_false ok)
    (let p0 := (0, [b 0 1%nat; b 1 1%nat])%Z in
     let p1 := (1, [b 0 2%nat])%Z in
     let p2 := (1, [b 0 2%nat; b 2 2%nat])%Z in
     let jump := (2, [b 2 3%nat; b 3 3%nat; b 5 3%nat; b 7 3%nat])%Z in
     let u0 := (0, [b 1 1%nat; b 0 1%nat])%Z in
     let u1 := (2, [b 4 3%nat; b 3 3%nat])%Z in
     let u2 := (2, [b 0 3%nat; b 2 3%nat; b 2 3%nat])%Z in
     [(p0, [], true); (p1, [p0], true); (p2, [p0; p1], false); (jump, [p0], true);
      (jump, [(0, [b 0 1%nat])], false); (u0, [u0], false); (u1, [u1], false); (u2, [u2], false)]%Z) tt.

(** test_vdaf_poplar1.py:244-286 *)
Definition test_aggregation_parameter_encoding : res unit :=
  let b v n := int_to_bit_string v n in
  let* _ := Poplar1_init ts aes bound 256 in
  foldM (fun _ (want : Z * list (list bool)) =>
      let* encoded := p1_encode_agg_param want in
      let* got := p1_decode_agg_param encoded in
      assert_true ((fst want =? fst got)%Z && bit_strings_eqb (snd want) (snd got)))
    [(0, []); (0, [b 0 1%nat; b 1 1%nat]); (2, [b 0 3%nat; b 1 3%nat; b 2 3%nat; b 3 3%nat]);
     (17, [b 0 18%nat; b 1 18%nat; b 1233 18%nat; b (2 ^ 18 - 1) 18%nat]);
     (255, [b 0 256%nat; b 1 256%nat; b 1233 256%nat; b (2 ^ 256 - 1) 256%nat])]%Z tt.

(** [with self.assertRaises(ValueError): m] *)
Definition assert_raises_value_error {A} (m : res A) : res unit :=
  match m with
  | Ok _ => Raise AssertionError
  | Raise (ValueError _) => Ok tt
  | Raise e => Raise e
  end.
(** test_vdaf_poplar1.py:292-299, 302-309, 312-318, 322-325: encode, set bits of
    one byte, decode. *)
Definition malformed_case (agg_param : Z * list (list bool)) (index : nat) (mask : Z) : res unit :=
  let* malformed := p1_encode_agg_param agg_param in
  let* b := get malformed index in
  let b := Z.lor (b2z b) mask in
  let* _ := check ((0 <=? b)%Z && (b <? 256)%Z) (ValueError "byte must be in range(0, 256)") in
  let* malformed := set malformed index (z2b b) in
  assert_raises_value_error (p1_decode_agg_param malformed).
(** test_vdaf_poplar1.py:288-325 *)
Definition test_clear_trailing_bits : res unit :=
  let* _ := Poplar1_init ts aes bound 256 in
  let* _ := malformed_case (6%Z, [repeat false 7; repeat true 7]) 6 1 in
  let* _ := malformed_case (6%Z, [repeat false 7; repeat true 7]) 7 1 in
  let* _ := malformed_case (110%Z, [repeat false 111]) 19 1 in
  for_range 1 8 tt (fun _ level => malformed_case (0%Z, [[true]]) 6 (Z.shiftl 1 (Z.of_nat (7 - level)))).

(** test_vdaf_poplar1.py:327-383 *)
Definition poplar1_levels : list (Z * list (list bool) * list Z) :=
  let b v n := int_to_bit_string v n in
  [(0, [b 0 1%nat; b 1 1%nat], [0; 1]);
   (1, [b 0 2%nat; b 1 2%nat; b 2 2%nat; b 3 2%nat], [0; 0; 0; 1]);
   (2, [b 0 3%nat; b 2 3%nat; b 4 3%nat; b 6 3%nat], [0; 0; 0; 1]);
   (3, [b 1 4%nat; b 3 4%nat; b 5 4%nat; b 7 4%nat; b 9 4%nat; b 13 4%nat; b 15 4%nat], [0; 0; 0; 0; 0; 1; 0])]%Z.
Definition test_generate_test_vectors (draws : nat -> draws_t) : res unit :=
  let* cls := Poplar1_init ts aes bound 4 in
  let* _ := assert_true (vd_ID (p1_vdaf cls) =? 6)%Z in
  foldM (fun _ '(k, (level, prefixes, expected)) =>
    run_poplar1_test cls (level, prefixes) [int_to_bit_string 13 4] expected (draws k))
    (enumerate poplar1_levels) tt.
End Tests.
