(** Properties C81 and C82: the test harness of VDAFs and DAFs and the unit tests
    of Prio3, Poplar1 and the test DAF, for every TurboSHAKE128 and block cipher
    and whatever the tests draw. *)
From Verif Require Import VdafTests VdafTestsFacts IdpfTestsFacts Prio3Spec Poplar1Spec PostFacts Props_Prio3 Props_Tests Props_Poplar1 MeasFacts Roots.
Open Scope nat_scope.

(** C81.  The harness passes exactly if the identifier fits 32 bits and the run
    returns the expected result; exceptions of the run are passed on. *)
Theorem C81_harness :
  (forall (vdaf : Vdaf) eqb agg_param ms expected d, run_vdaf_test vdaf eqb agg_param ms expected d =
   if id_ok (vd_ID vdaf) then
     match run_vdaf vdaf (fst d) agg_param (byte_literal "some application context") (attach (snd d) ms) with
     | Ok r => if eqb r expected then Ok tt else Raise AssertionError
     | Raise e => Raise e
     end
   else Raise AssertionError) /\
  (forall (daf : Daf) eqb agg_param ms expected d, run_daf_test daf eqb agg_param ms expected d =
   if id_ok (df_ID daf) then
     match run_daf daf (byte_literal "some application") agg_param (attach d ms) with
     | Ok r => if eqb r expected then Ok tt else Raise AssertionError
     | Raise e => Raise e
     end
   else Raise AssertionError).
Proof. exact (conj vdaf_test_outcome daf_test_outcome). Qed.
Print Assumptions C81_harness.

Lemma test_ctx_ok : ctx_ok (byte_literal "some application context").
Proof. reflexivity. Qed.

(** Sizes of the draws of a Prio3 test. *)
Definition prio3_draws (p : Prio3) (draws : nat -> draws_t) : Prop := forall k, draws_ok 32 p3_NONCE_SIZE (RAND_SIZE p) (draws k).

(** Every call of a test is covered by a theorem about runs. *)
Lemma variant_tests (p : Prio3) good eqb (W : list (Measurement (p3_flp p)) -> Prop)
  (S : list (Measurement (p3_flp p)) -> AggResult (p3_flp p)) calls draws :
  (forall r, eqb r r = true) -> id_ok (p3_ID p) = true ->
  (forall key ms, length key = 32 -> sizes_ok p ms -> W (map meas_of ms) ->
     run_result p good key (byte_literal "some application context") ms (S (map meas_of ms))) ->
  Forall (fun c : unit * list (Measurement (p3_flp p)) * AggResult (p3_flp p) => W (snd (fst c)) /\ snd c = S (snd (fst c))) calls ->
  prio3_draws p draws ->
  post (run_vdaf_tests (Prio3Vdaf p) eqb calls draws) (fun _ => True) (excused p good draws).
Proof.
  intros Hr Hid HR HC HD. apply prio3_tests; [exact Hr|exact Hid|]. intros k ap ms r Hk.
  apply nth_error_In in Hk. destruct (proj1 (Forall_forall _ _) HC _ Hk) as [HW Es]. cbn [fst snd] in HW, Es. subst r.
  destruct (HD k) as [HK _].
  pose proof (HR (fst (draws k)) (attach (snd (draws k)) ms) HK (attach_sizes p ms 32 _ (HD k))) as R.
  rewrite attach_meas in R. exact (R HW).
Qed.

Ltac side_tac := vm_compute; repeat split; first [discriminate | lia | reflexivity | exact I].
Ltac each := repeat (apply Forall_cons || apply Forall_nil); cbn [fst snd].
Ltac calls_tac := each; (split; [repeat split; each; first [now left | now right | lia | (split; [reflexivity | each; lia]) | (split; [reflexivity | vm_compute; discriminate]) | (vm_compute; reflexivity) | discriminate] | vm_compute; reflexivity]).

(** C81.  The tests of Prio3Count pass, whatever they draw, unless the derived
    query randomness is rejected (or the model's loop bound is hit). *)
Theorem C81_count : forall ts bound draws,
  let p2 := prio3_obj Field64 1 (Count Field64) ts bound 2 1 in
  let p3 := prio3_obj Field64 1 (Count Field64) ts bound 3 1 in
  (prio3_draws p2 draws -> post (test_prio3_count ts bound draws) (fun _ => True) (excused p2 (test_points_ok (Count Field64)) draws)) /\
  (prio3_draws p3 draws -> post (test_prio3_count_3 ts bound draws) (fun _ => True) (excused p3 (test_points_ok (Count Field64)) draws)).
Proof.
  intros ts bound draws p2 p3. split; intros HD.
  - unfold test_prio3_count. rewrite (proj1 (C29_count ts bound 2 [] [] [] ltac:(lia)) : Prio3Count ts bound 2 = Ok p2). cbn [bind].
    change (p3_ID p2 =? 1)%Z with true. cbn [assert_true check bind].
    apply (variant_tests p2 _ Z.eqb (Forall (fun m => m = 0 \/ m = 1)%Z) (fun ms => zsuml ms mod MODULUS Field64)%Z);
      [apply Z.eqb_refl|reflexivity| |calls_tac|exact HD].
    intros key ms Hk Hs HW. exact (proj2 (C29_count ts bound 2 _ _ _ ltac:(lia)) test_ctx_ok Hk Hs HW).
  - unfold test_prio3_count_3. rewrite (proj1 (C29_count ts bound 3 [] [] [] ltac:(lia)) : Prio3Count ts bound 3 = Ok p3). cbn [bind].
    apply (variant_tests p3 _ Z.eqb (Forall (fun m => m = 0 \/ m = 1)%Z) (fun ms => zsuml ms mod MODULUS Field64)%Z);
      [apply Z.eqb_refl|reflexivity| |calls_tac|exact HD].
    intros key ms Hk Hs HW. exact (proj2 (C29_count ts bound 3 _ _ _ ltac:(lia)) test_ctx_ok Hk Hs HW).
Qed.
Print Assumptions C81_count.

(** C81.  Prio3Sum. *)
Theorem C81_sum : forall ts bound draws,
  let p2 := prio3_obj Field64 2 (Sum Field64 147) ts bound 2 1 in
  let p3 := prio3_obj Field64 2 (Sum Field64 100) ts bound 3 1 in
  (prio3_draws p2 draws -> post (test_prio3_sum ts bound draws) (fun _ => True) (excused p2 (test_points_ok (Sum Field64 147)) draws)) /\
  (prio3_draws p3 draws -> post (test_prio3_sum_3 ts bound draws) (fun _ => True) (excused p3 (test_points_ok (Sum Field64 100)) draws)).
Proof.
  intros ts bound draws p2 p3. split; intros HD.
  - unfold test_prio3_sum.
    rewrite (proj1 (C29_sum ts bound 2 147 [] [] [] ltac:(lia) ltac:(lia) ltac:(side_tac) ltac:(side_tac)) : Prio3Sum ts bound 2 147 = Ok p2). cbn [bind].
    change (p3_ID p2 =? 2)%Z with true. cbn [assert_true check bind].
    apply (variant_tests p2 _ Z.eqb (Forall (fun m => 0 <= m <= 147)%Z) (fun ms => zsuml ms mod MODULUS Field64)%Z);
      [apply Z.eqb_refl|reflexivity| |calls_tac|exact HD].
    intros key ms Hk Hs HW.
    exact (proj2 (C29_sum ts bound 2 147 _ _ _ ltac:(lia) ltac:(lia) ltac:(side_tac) ltac:(side_tac)) test_ctx_ok Hk Hs HW).
  - unfold test_prio3_sum_3.
    rewrite (proj1 (C29_sum ts bound 3 100 [] [] [] ltac:(lia) ltac:(lia) ltac:(side_tac) ltac:(side_tac)) : Prio3Sum ts bound 3 100 = Ok p3). cbn [bind].
    apply (variant_tests p3 _ Z.eqb (Forall (fun m => 0 <= m <= 100)%Z) (fun ms => zsuml ms mod MODULUS Field64)%Z);
      [apply Z.eqb_refl|reflexivity| |calls_tac|exact HD].
    intros key ms Hk Hs HW.
    exact (proj2 (C29_sum ts bound 3 100 _ _ _ ltac:(lia) ltac:(lia) ltac:(side_tac) ltac:(side_tac)) test_ctx_ok Hk Hs HW).
Qed.
Print Assumptions C81_sum.

(** C81.  Prio3SumVec. *)
Theorem C81_sumvec : forall ts bound draws,
  let p2 := prio3_obj Field128 3 (SumVec Field128 10 255 9) ts bound 2 1 in
  let p3 := prio3_obj Field128 3 (SumVec Field128 3 32000 7) ts bound 3 1 in
  (prio3_draws p2 draws -> post (test_prio3_sumvec ts bound draws) (fun _ => True) (excused p2 (test_points_ok (SumVec Field128 10 255 9)) draws)) /\
  (prio3_draws p3 draws -> post (test_prio3_sumvec_3 ts bound draws) (fun _ => True) (excused p3 (test_points_ok (SumVec Field128 3 32000 7)) draws)).
Proof.
  intros ts bound draws p2 p3. split; intros HD.
  - unfold test_prio3_sumvec.
    rewrite (proj1 (C29_sumvec ts bound 2 10 255 9 [] [] [] ltac:(lia) ltac:(lia) ltac:(lia) ltac:(lia) ltac:(side_tac) ltac:(side_tac)) : Prio3SumVec ts bound 2 10 255 9 = Ok p2). cbn [bind].
    change (p3_ID p2 =? 3)%Z with true. cbn [assert_true check bind].
    apply (variant_tests p2 _ ints_eqb (Forall (fun m => length m = 10 /\ Forall (fun x => 0 <= x <= 255)%Z m))
      (fun ms => map (fun x => x mod MODULUS Field128)%Z (col_totals 10 ms)));
      [apply ints_eqb_refl|reflexivity| |calls_tac|exact HD].
    intros key ms Hk Hs HW.
    exact (proj2 (C29_sumvec ts bound 2 10 255 9 _ _ _ ltac:(lia) ltac:(lia) ltac:(lia) ltac:(lia) ltac:(side_tac) ltac:(side_tac)) test_ctx_ok Hk Hs HW).
  - unfold test_prio3_sumvec_3.
    rewrite (proj1 (C29_sumvec ts bound 3 3 32000 7 [] [] [] ltac:(lia) ltac:(lia) ltac:(lia) ltac:(lia) ltac:(side_tac) ltac:(side_tac)) : Prio3SumVec ts bound 3 3 32000 7 = Ok p3). cbn [bind].
    apply (variant_tests p3 _ ints_eqb (Forall (fun m => length m = 3 /\ Forall (fun x => 0 <= x <= 32000)%Z m))
      (fun ms => map (fun x => x mod MODULUS Field128)%Z (col_totals 3 ms)));
      [apply ints_eqb_refl|reflexivity| |calls_tac|exact HD].
    intros key ms Hk Hs HW.
    exact (proj2 (C29_sumvec ts bound 3 3 32000 7 _ _ _ ltac:(lia) ltac:(lia) ltac:(lia) ltac:(lia) ltac:(side_tac) ltac:(side_tac)) test_ctx_ok Hk Hs HW).
Qed.
Print Assumptions C81_sumvec.

(** C81.  Prio3Histogram. *)
Theorem C81_histogram : forall ts bound draws0 draws1,
  let p2 := prio3_obj Field128 4 (Histogram Field128 4 2) ts bound 2 1 in
  let p3 := prio3_obj Field128 4 (Histogram Field128 11 3) ts bound 3 1 in
  prio3_draws p2 draws0 -> prio3_draws p3 draws1 ->
  post (test_prio3_histogram ts bound draws0 draws1) (fun _ => True)
    (fun e => excused p2 (test_points_ok (Histogram Field128 4 2)) draws0 e \/ excused p3 (test_points_ok (Histogram Field128 11 3)) draws1 e).
Proof.
  intros ts bound draws0 draws1 p2 p3 HD0 HD1. unfold test_prio3_histogram.
  rewrite (proj1 (C29_histogram ts bound 2 4 2 [] [] [] ltac:(lia) ltac:(lia) ltac:(lia) ltac:(side_tac)) : Prio3Histogram ts bound 2 4 2 = Ok p2). cbn [bind].
  change (p3_ID p2 =? 4)%Z with true. cbn [assert_true check bind].
  apply (post_seq _ _ _ (excused p2 (test_points_ok (Histogram Field128 4 2)) draws0) (excused p3 (test_points_ok (Histogram Field128 11 3)) draws1)).
  - apply (variant_tests p2 _ ints_eqb (Forall (fun m => 0 <= m < Z.of_nat 4)%Z)
      (fun ms => map (fun i => Z.of_nat (count_occ Z.eq_dec ms (Z.of_nat i)) mod MODULUS Field128)%Z (seq 0 4)));
      [apply ints_eqb_refl|reflexivity| |calls_tac|exact HD0].
    intros key ms Hk Hs HW.
    exact (proj2 (C29_histogram ts bound 2 4 2 _ _ _ ltac:(lia) ltac:(lia) ltac:(lia) ltac:(side_tac)) test_ctx_ok Hk Hs HW).
  - rewrite (proj1 (C29_histogram ts bound 3 11 3 [] [] [] ltac:(lia) ltac:(lia) ltac:(lia) ltac:(side_tac)) : Prio3Histogram ts bound 3 11 3 = Ok p3). cbn [bind].
    apply (variant_tests p3 _ ints_eqb (Forall (fun m => 0 <= m < Z.of_nat 11)%Z)
      (fun ms => map (fun i => Z.of_nat (count_occ Z.eq_dec ms (Z.of_nat i)) mod MODULUS Field128)%Z (seq 0 11)));
      [apply ints_eqb_refl|reflexivity| |calls_tac|exact HD1].
    intros key ms Hk Hs HW.
    exact (proj2 (C29_histogram ts bound 3 11 3 _ _ _ ltac:(lia) ltac:(lia) ltac:(lia) ltac:(side_tac)) test_ctx_ok Hk Hs HW).
Qed.
Print Assumptions C81_histogram.

(** C81.  Prio3MultihotCountVec. *)
Theorem C81_multihot : forall ts bound draws,
  let p2 := prio3_obj Field128 5 (MultihotCountVec Field128 4 2 2) ts bound 2 1 in
  let p3 := prio3_obj Field128 5 (MultihotCountVec Field128 11 5 3) ts bound 3 1 in
  (prio3_draws p2 draws -> post (test_prio3_multihot ts bound draws) (fun _ => True) (excused p2 (test_points_ok (MultihotCountVec Field128 4 2 2)) draws)) /\
  (prio3_draws p3 draws -> post (test_prio3_multihot_3 ts bound draws) (fun _ => True) (excused p3 (test_points_ok (MultihotCountVec Field128 11 5 3)) draws)).
Proof.
  intros ts bound draws p2 p3. split; intros HD.
  - unfold test_prio3_multihot.
    rewrite (proj1 (C29_multihot ts bound 2 4 2 2 [] [] [] ltac:(lia) ltac:(lia) ltac:(lia) ltac:(side_tac) ltac:(lia) ltac:(side_tac)) : Prio3MultihotCountVec ts bound 2 4 2 2 = Ok p2). cbn [bind].
    change (p3_ID p2 =? 5)%Z with true. cbn [assert_true check bind].
    apply (variant_tests p2 _ ints_eqb (Forall (fun m => length m = 4 /\ (weight m <= Z.of_nat 2)%Z))
      (fun ms => map (fun i => Z.of_nat (length (filter (fun m => nth i m false) ms)) mod MODULUS Field128)%Z (seq 0 4)));
      [apply ints_eqb_refl|reflexivity| |calls_tac|exact HD].
    intros key ms Hk Hs HW.
    exact (proj2 (C29_multihot ts bound 2 4 2 2 _ _ _ ltac:(lia) ltac:(lia) ltac:(lia) ltac:(side_tac) ltac:(lia) ltac:(side_tac)) test_ctx_ok Hk Hs HW).
  - unfold test_prio3_multihot_3.
    rewrite (proj1 (C29_multihot ts bound 3 11 5 3 [] [] [] ltac:(lia) ltac:(lia) ltac:(lia) ltac:(side_tac) ltac:(lia) ltac:(side_tac)) : Prio3MultihotCountVec ts bound 3 11 5 3 = Ok p3). cbn [bind].
    apply (variant_tests p3 _ ints_eqb (Forall (fun m => length m = 11 /\ (weight m <= Z.of_nat 5)%Z))
      (fun ms => map (fun i => Z.of_nat (length (filter (fun m => nth i m false) ms)) mod MODULUS Field128)%Z (seq 0 11)));
      [apply ints_eqb_refl|reflexivity| |calls_tac|exact HD].
    intros key ms Hk Hs HW.
    exact (proj2 (C29_multihot ts bound 3 11 5 3 _ _ _ ltac:(lia) ltac:(lia) ltac:(lia) ltac:(side_tac) ltac:(lia) ltac:(side_tac)) test_ctx_ok Hk Hs HW).
Qed.
Print Assumptions C81_multihot.

(** C81.  Prio3SumVecWithMultiproof: for two, three and four proofs. *)
Theorem C81_multiproof : forall ts bound draws0 draws1,
  let pm n := prio3_obj Field64 (Z.of_N 0xFFFFFFFF) (SumVec Field64 10 255 9) ts bound 2 n in
  let p3 := prio3_obj Field128 3 (SumVec Field128 3 65535 7) ts bound 3 1 in
  (forall n, 2 <= n < 5 -> prio3_draws (pm n) (draws0 n) /\ prio3_draws p3 (draws1 n)) ->
  post (test_prio3_multiproof ts bound draws0 draws1) (fun _ => True)
    (fun e => exists n, 2 <= n < 5 /\ (excused (pm n) (test_points_ok (SumVec Field64 10 255 9)) (draws0 n) e \/
                                       excused p3 (test_points_ok (SumVec Field128 3 65535 7)) (draws1 n) e)).
Proof.
  intros ts bound draws0 draws1 pm p3 HD. unfold test_prio3_multiproof, for_range.
  match goal with |- post ?m _ _ => destruct m as [[]|e] eqn:EM end; cbn [post]; [easy|].
  revert EM.
  apply (FieldTestsFacts.foldM_unit_raise _ (fun e => exists n, 2 <= n < 5 /\ (excused (pm n) (test_points_ok (SumVec Field64 10 255 9)) (draws0 n) e \/
                                       excused p3 (test_points_ok (SumVec Field128 3 65535 7)) (draws1 n) e))). clear e.
  intros n e Hin EM. apply in_seq in Hin. assert (Hn : 2 <= n < 5) by lia. exists n. split; [exact Hn|].
  destruct (HD n Hn) as [HD0 HD1].
  revert EM. 
  rewrite (proj1 (C29_multiproof Field64 ts bound 2 n 10 255 9 [] [] [] NttOk_Field64 (proj1 fields_wf) ltac:(side_tac) ltac:(lia) ltac:(lia) ltac:(lia) ltac:(lia) ltac:(lia) ltac:(side_tac) ltac:(side_tac)) : Prio3SumVecWithMultiproof ts bound 2 Field64 n 10 255 9 = Ok (pm n)). cbn [bind].
  change (p3_ID (pm n) =? 4294967295)%Z with true. change (p3_PROOFS (pm n)) with n. rewrite Nat.eqb_refl. cbn [assert_true check bind].
  rewrite (proj1 (C29_sumvec ts bound 3 3 65535 7 [] [] [] ltac:(lia) ltac:(lia) ltac:(lia) ltac:(lia) ltac:(side_tac) ltac:(side_tac)) : Prio3SumVec ts bound 3 3 65535 7 = Ok p3). cbn [bind].
  match goal with |- (let* _ := ?m in ?k) = _ -> _ =>
    assert (HP : post (let* _ := m in k) (fun _ => True)
      (fun e => excused (pm n) (test_points_ok (SumVec Field64 10 255 9)) (draws0 n) e \/ excused p3 (test_points_ok (SumVec Field128 3 65535 7)) (draws1 n) e)) end.
  { apply (post_seq _ _ _ (excused (pm n) (test_points_ok (SumVec Field64 10 255 9)) (draws0 n)) (excused p3 (test_points_ok (SumVec Field128 3 65535 7)) (draws1 n))).
    - apply (variant_tests (pm n) _ ints_eqb (Forall (fun m => length m = 10 /\ Forall (fun x => 0 <= x <= 255)%Z m))
        (fun ms => map (fun x => x mod MODULUS Field64)%Z (col_totals 10 ms)));
        [apply ints_eqb_refl|reflexivity| |calls_tac|exact HD0].
      intros key ms Hk Hs HW.
      exact (proj2 (C29_multiproof Field64 ts bound 2 n 10 255 9 _ _ _ NttOk_Field64 (proj1 fields_wf) ltac:(side_tac) ltac:(lia) ltac:(lia) ltac:(lia) ltac:(lia) ltac:(lia) ltac:(side_tac) ltac:(side_tac)) test_ctx_ok Hk Hs HW).
    - apply (variant_tests p3 _ ints_eqb (Forall (fun m => length m = 3 /\ Forall (fun x => 0 <= x <= 65535)%Z m))
        (fun ms => map (fun x => x mod MODULUS Field128)%Z (col_totals 3 ms)));
        [apply ints_eqb_refl|reflexivity| |calls_tac|exact HD1].
      intros key ms Hk Hs HW.
      exact (proj2 (C29_sumvec ts bound 3 3 65535 7 _ _ _ ltac:(lia) ltac:(lia) ltac:(lia) ltac:(lia) ltac:(side_tac) ltac:(side_tac)) test_ctx_ok Hk Hs HW). }
  intros EM. rewrite EM in HP. exact HP.
Qed.
Print Assumptions C81_multiproof.

(** C81.  The variants defined by the test suite. *)
Theorem C81_average : forall ts bound draws, prio3_draws (Prio3Average ts bound 2 5) draws ->
  post (test_prio3_average ts bound draws) (fun _ => True)
    (excused (Prio3Average ts bound 2 5) (test_points_ok (TestAverage Field128 5)) draws) /\
  test_prio3_is_valid ts bound = Ok tt.
Proof.
  intros ts bound draws HD. split; [|reflexivity].
  apply (variant_tests (Prio3Average ts bound 2 5) _ Z.eqb
    (fun ms => Forall (fun m => 0 <= m <= 5)%Z ms /\ ms <> [] /\ (zsuml ms < MODULUS Field128)%Z)
    (fun ms => zsuml ms / Z.of_nat (length ms))%Z);
    [apply Z.eqb_refl|reflexivity| | |exact HD].
  - intros key ms Hk Hs (HW1 & HW2 & HW3). 
    pose proof (C69_average ts bound 2 5 key _ ms ltac:(lia) ltac:(lia) ltac:(side_tac) ltac:(side_tac) test_ctx_ok Hk Hs HW1) as R.
    rewrite map_length. apply R; [|exact HW3]. intros ->. now apply HW2.
  - repeat constructor; cbn [fst snd]; first [lia | discriminate].
Qed.
Print Assumptions C81_average.

Theorem C81_higher_degree : forall ts bound draws, prio3_draws (Prio3HigherDegree ts bound 2) draws ->
  post (test_prio3_higher_degree ts bound draws) (fun _ => True)
    (excused (Prio3HigherDegree ts bound 2) (test_points_ok HigherDegree) draws).
Proof.
  intros ts bound draws HD.
  apply (variant_tests (Prio3HigherDegree ts bound 2) _ Z.eqb (Forall (fun m => 0 <= m <= 2)%Z) (fun ms => zsuml ms mod MODULUS Field64)%Z);
    [apply Z.eqb_refl|reflexivity| |calls_tac|exact HD].
  intros key ms Hk Hs HW. exact (C69_higher_degree ts bound 2 key _ ms ltac:(lia) test_ctx_ok Hk Hs HW).
Qed.
Print Assumptions C81_higher_degree.

(** No query randomness is rejected by FlpTest. *)
Theorem C81_flptest : forall ts bound draws0 draws1,
  prio3_draws (Prio3FlpTest ts bound 1) draws0 -> prio3_draws (Prio3FlpTest ts bound 0) draws1 ->
  post (test_prio3_flptest ts bound draws0 draws1) (fun _ => True)
    (fun e => e = OutOfFuel /\ (ran_out (Prio3FlpTest ts bound 1) \/ ran_out (Prio3FlpTest ts bound 0))).
Proof.
  intros ts bound draws0 draws1 HD0 HD1.
  assert (H : forall jl draws, prio3_draws (Prio3FlpTest ts bound jl) draws ->
    post (run_vdaf_tests (Prio3Vdaf (Prio3FlpTest ts bound jl)) Z.eqb flptest_calls draws) (fun _ => True)
      (excused (Prio3FlpTest ts bound jl) (fun _ => True) draws)).
  { intros jl draws HD.
    apply (variant_tests (Prio3FlpTest ts bound jl) _ Z.eqb (Forall (fun m => 0 <= m < 5)%Z) (fun ms => zsuml ms mod MODULUS Field128)%Z);
      [apply Z.eqb_refl|reflexivity| |calls_tac|exact HD].
    intros key ms Hk Hs HW. destruct (C69_flptest_run ts bound jl key _ ms test_ctx_ok Hk Hs HW) as [R|R]; [left; exact R|right; left; exact R]. }
  assert (NB : forall jl draws e, excused (Prio3FlpTest ts bound jl) (fun _ => True) draws e -> e = OutOfFuel /\ ran_out (Prio3FlpTest ts bound jl)).
  { intros jl draws e [X|(_ & k & i & B)]; [exact X|]. exfalso. destruct B as (qr & t & _ & _ & B). now apply B. }
  pose proof (post_seq _ _ _ _ _ (H 1 draws0 HD0) (H 0 draws1 HD1)) as HP.
  unfold test_prio3_flptest. destruct (let* _ := _ in _) as [?|e]; cbn [post] in *; [easy|].
  destruct HP as [HP|HP]; apply NB in HP as [-> HP]; auto.
Qed.
Print Assumptions C81_flptest.

(** C82.  One call of the Poplar1 test: it passes exactly if the expected counts
    are right. *)
Theorem C82_poplar1_case : forall (p : Poplar1) (lim : Z), Poplar1Ok p lim ->
  forall level prefixes ms expected d,
  NoDup prefixes -> Forall (fun x => length x = S level) prefixes -> level < id_BITS (p1_idpf p) -> (Z.of_nat level < 65536)%Z ->
  Forall (fun m => length m = id_BITS (p1_idpf p)) ms -> (Z.of_nat (length ms) < level_modulus p level)%Z ->
  draws_ok (p1_VERIFY_KEY_SIZE p) p1_NONCE_SIZE (p1_RAND_SIZE p) d ->
  let right := expected = map (fun x => Z.of_nat (count_prefix x ms)) prefixes in
  match run_poplar1_test p (Z.of_nat level, prefixes) ms expected d with
  | Ok _ => right
  | Raise AssertionError => ~ right
  | Raise e => e = OutOfFuel /\ p1_ran_out p (length prefixes)
  end.
Proof.
  intros p lim HO level prefixes ms expected d ND HL Hlv H16 HM Hn [HK HD] right.
  unfold run_poplar1_test. rewrite vdaf_test_outcome. change (id_ok (vd_ID (p1_vdaf p))) with true. cbv iota.
  assert (HS : p1_sizes_ok p (attach (snd d) ms)).
  { apply Forall_forall. intros [[m nonce] rand] Hin. apply attach_In in Hin as (i & _ & -> & ->). apply HD. }
  assert (EM : map (fun r => fst (fst r)) (attach (snd d) ms) = ms) by exact (attach_meas (snd d) ms).
  assert (HM' : Forall (fun r => length (fst (fst r)) = id_BITS (p1_idpf p)) (attach (snd d) ms)).
  { rewrite <- EM in HM. apply Forall_map in HM. exact HM. }
  pose proof (C37_exact p lim HO (fst d) (byte_literal "some application context") level prefixes (attach (snd d) ms)
    ND HL test_ctx_ok HK Hlv H16 HS HM') as R.
  rewrite attach_length, EM in R. specialize (R Hn).
  match goal with |- match (match ?m with Ok _ => _ | Raise _ => _ end) with _ => _ end => set (run := m) end.
  destruct R as [R|[R R']].
  - change (run = Ok (map (fun x => Z.of_nat (count_prefix x ms)) prefixes)) in R. rewrite R. unfold right.
    destruct (ints_eqb _ _) eqn:E.
    + apply ints_eqb_eq in E. now symmetry.
    + intros X. rewrite X in E. now rewrite ints_eqb_refl in E.
  - change (run = Raise OutOfFuel) in R. rewrite R. easy.
Qed.
Print Assumptions C82_poplar1_case.

(** The conditions on a call, as a computation. *)
Definition case_ok (bits : Z) (c : (Z * list (list bool)) * list (list bool) * list Z) : bool :=
  let '(level, prefixes, ms, expected) := c in
  ((0 <=? level) && (level <? bits) && (level <? 65536) && (Z.of_nat (length ms) <? 1000))%Z &&
  forallb (fun x => count_occ (list_eq_dec Bool.bool_dec) prefixes x =? 1) prefixes &&
  forallb (fun x => Z.of_nat (length x) =? level + 1)%Z prefixes &&
  forallb (fun m => Z.of_nat (length m) =? bits)%Z ms &&
  ints_eqb expected (map (fun x => Z.of_nat (count_prefix x ms)) prefixes).

Lemma case_passes ts aes bound bits p c d : (forall k b, length b = 16 -> length (aes k b) = 16) -> (Z.of_nat bound < 2 ^ 120)%Z ->
  Poplar1_init ts aes bound bits = Ok p -> case_ok bits c = true -> draws_ok 32 16 128 d ->
  let '(level, prefixes, ms, expected) := c in
  post (run_poplar1_test p (level, prefixes) ms expected d) (fun _ => True) (fun e => e = OutOfFuel /\ p1_ran_out p (length prefixes)).
Proof.
  intros Ha Hb HI HC HD. destruct c as [[[level prefixes] ms] expected]. unfold case_ok in HC.
  rewrite !andb_true_iff in HC. destruct HC as ((((((( H1 & H2) & H3) & H4) & H5) & H6) & H7) & H8).
  apply Z.leb_le in H1. apply Z.ltb_lt in H2, H3, H4. rewrite forallb_forall in H5, H6, H7. apply ints_eqb_eq in H8.
  pose proof (C37_constructor ts aes bound bits Ha Hb) as C. rewrite HI in C.
  destruct C as (C0 & (lim & CO) & CE & CB & CK & CR & CKS & _).
  assert (EL : level = Z.of_nat (Z.to_nat level)) by lia. rewrite EL.
  pose proof (C82_poplar1_case p lim CO (Z.to_nat level) prefixes ms expected d) as T. cbv zeta in T.
  assert (HT : match run_poplar1_test p (Z.of_nat (Z.to_nat level), prefixes) ms expected d with
    | Ok _ => expected = map (fun x => Z.of_nat (count_prefix x ms)) prefixes
    | Raise AssertionError => expected <> map (fun x => Z.of_nat (count_prefix x ms)) prefixes
    | Raise e => e = OutOfFuel /\ p1_ran_out p (length prefixes)
    end).
  { apply T.
    - apply (NoDup_count_occ' (list_eq_dec Bool.bool_dec)). intros x Hx. apply Nat.eqb_eq, H5, Hx.
    - apply Forall_forall. intros x Hx. apply H6, Z.eqb_eq in Hx. lia.
    - lia.
    - lia.
    - apply Forall_forall. intros x Hx. apply H7, Z.eqb_eq in Hx. lia.
    - unfold level_modulus. rewrite CE. destruct (_ <? _); (eapply Z.lt_trans; [exact H4|reflexivity]).
    - rewrite CK, CR. exact HD. }
  destruct (run_poplar1_test _ _ _ _ _) as [?|e]; cbn [post]; [easy|]. destruct e; auto. contradiction.
Qed.

(** C82.  The tests of Poplar1 pass whatever they draw (unless the model's loop
    bound is hit), including the one with a level beyond the tree but no report. *)
Theorem C82_poplar1 : forall ts aes bound draws,
  (forall k b, length b = 16 -> length (aes k b) = 16) -> (Z.of_nat bound < 2 ^ 120)%Z ->
  (forall k, draws_ok 32 16 128 (draws k)) ->
  post (test_poplar1 ts aes bound draws) (fun _ => True) (fun e => e = OutOfFuel /\ exists bits n, p1_ran_out (p1_obj ts aes bound bits) n) /\
  post (test_generate_test_vectors ts aes bound draws) (fun _ => True) (fun e => e = OutOfFuel /\ exists n, p1_ran_out (p1_obj ts aes bound 4) n).
Proof.
  intros ts aes bound draws Ha Hb HD. split.
  - match goal with |- post ?m _ _ => destruct m as [[]|e] eqn:EM end; cbn [post]; [easy|].
    revert EM. apply (FieldTestsFacts.foldM_unit_raise _ (fun e => e = OutOfFuel /\ exists bits n, p1_ran_out (p1_obj ts aes bound bits) n)). clear e.
    intros [k [bits [[[level prefixes] ms] expected]]] e Hin.
    assert (HC : (k, (bits, ((level, prefixes), ms, expected))) = (0, (15%Z, ((15%Z, []), [], []))) \/
      (0 <? bits)%Z && case_ok bits ((level, prefixes), ms, expected) = true).
    { revert Hin. unfold enumerate, poplar1_calls. cbv zeta. cbn [length seq combine].
      intros [E|Hin]; [left; now symmetry|right].
      refine (proj1 (forallb_forall (fun q => (0 <? fst (snd q))%Z && case_ok (fst (snd q)) (snd (snd q))) _) _ _ Hin).
      vm_compute. reflexivity. }
    destruct HC as [E|HC].
    + injection E as -> -> -> -> -> ->. intros EM. exfalso. revert EM.
      change (Poplar1_init ts aes bound 15) with (Ok (p1_obj ts aes bound 15)). cbn [bind].
      unfold run_poplar1_test. rewrite vdaf_test_outcome. unfold run_vdaf.
      change (vd_VERIFY_KEY_SIZE (p1_vdaf (p1_obj ts aes bound 15))) with 32.
      destruct (HD 0) as [HK _]. rewrite HK. vm_compute. discriminate.
    + apply andb_true_iff in HC as [Hb0 HC].
      destruct (Poplar1_init ts aes bound bits) as [p|e'] eqn:EI.
      * cbn [bind]. pose proof (case_passes ts aes bound bits p ((level, prefixes), ms, expected) (draws k) Ha Hb EI HC (HD k)) as HP.
        cbv beta iota in HP. intros EM. rewrite EM in HP. cbn [post] in HP. destruct HP as [-> HP]. split; [reflexivity|].
        pose proof (C37_constructor ts aes bound bits Ha Hb) as C. rewrite EI in C. destruct C as (_ & _ & C & _).
        rewrite C in HP. eauto.
      * pose proof (C37_constructor ts aes bound bits Ha Hb) as C. rewrite EI in C. apply Z.ltb_lt in Hb0. lia.
  - unfold test_generate_test_vectors.
    destruct (Poplar1_init ts aes bound 4) as [p|e'] eqn:EI; [|discriminate]. cbn [bind].
    pose proof (C37_constructor ts aes bound 4 Ha Hb) as C. rewrite EI in C. destruct C as (_ & _ & C & _).
    change (vd_ID (p1_vdaf p) =? 6)%Z with true. cbn [assert_true check bind].
    match goal with |- post ?m _ _ => destruct m as [[]|e] eqn:EM end; cbn [post]; [easy|].
    revert EM. apply (FieldTestsFacts.foldM_unit_raise _ (fun e => e = OutOfFuel /\ exists n, p1_ran_out (p1_obj ts aes bound 4) n)). clear e.
    intros [k [[level prefixes] expected]] e Hin EM.
    assert (HC : case_ok 4 ((level, prefixes), [int_to_bit_string 13 4], expected) = true).
    { refine (proj1 (forallb_forall (fun q => case_ok 4 (fst (snd q), [int_to_bit_string 13 4], snd (snd q))) _) _ _ Hin).
      vm_compute. reflexivity. }
    pose proof (case_passes ts aes bound 4 p _ (draws k) Ha Hb EI HC (HD k)) as HP. cbv beta iota in HP.
    rewrite EM in HP. destruct HP as [-> HP]. change (Z.to_nat 4) with 4 in C. rewrite C in HP. eauto.
Qed.
Print Assumptions C82_poplar1.

(** C82.  What the tests check: [assert_raises_value_error] passes iff ValueError
    is raised, fails if nothing is and passes other exceptions on; the comparison
    of lists of bit strings is equality. *)
Theorem C82_assertions :
  (forall A (m : res A), match m with
     | Ok _ => assert_raises_value_error m = Raise AssertionError
     | Raise e => assert_raises_value_error m = Ok tt /\ (exists msg, e = ValueError msg) \/
                  assert_raises_value_error m = Raise e /\ ~ exists msg, e = ValueError msg
     end) /\
  (forall x y, bit_strings_eqb x y = true <-> x = y).
Proof.
  split.
  - intros A [a|e]; [reflexivity|]. destruct e; cbn; try (left; split; [reflexivity | eexists; reflexivity]);
      right; (split; [reflexivity | intros [? C]; discriminate]).
  - induction x as [|a x IH]; intros [|b y]; cbn [bit_strings_eqb]; try (split; discriminate || reflexivity).
    rewrite andb_true_iff, IH. rewrite IdpfFacts.bits_eqb_eq. split; [intros [-> ->]; reflexivity | intros E; injection E as -> ->; split; reflexivity].
Qed.
Print Assumptions C82_assertions.

(** C82.  The remaining tests of Poplar1 pass: ancestors, validity of sequences of
    aggregation parameters, their encoding, and rejection of padding bits. *)
Theorem C82_poplar1_units : forall ts aes bound,
  test_get_ancestor = Ok tt /\ test_poplar1_is_valid ts aes bound = Ok tt /\
  test_aggregation_parameter_encoding ts aes bound = Ok tt /\ test_clear_trailing_bits ts aes bound = Ok tt.
Proof. intros ts aes bound. repeat apply conj; vm_compute; reflexivity. Qed.
Print Assumptions C82_poplar1_units.

(** C82.  The test of the DAF passes whatever it draws. *)
Theorem C82_daf : forall ts bound draws, (forall i, fst (draws i) = [] /\ length (snd (draws i)) = 32) ->
  post (test_test_daf ts bound draws) (fun _ => True) (fun e => e = OutOfFuel).
Proof.
  intros ts bound draws HD. unfold test_test_daf. rewrite daf_test_outcome. change (id_ok (df_ID (TestDaf ts bound))) with true. cbv iota.
  assert (HF : Forall (fun '(m, nonce, rand) => (- MODULUS Field128 < m < MODULUS Field128)%Z /\ nonce = [] /\ length rand = 32)
    (attach draws [1; 2; 3; 4]%Z)).
  { unfold attach, enumerate. cbn [length seq combine map]. repeat constructor; cbn [fst snd]; try apply HD; reflexivity. }
  match goal with |- post (match ?m with Ok _ => _ | Raise _ => _ end) _ _ => set (run := m) end.
  destruct (C70_daf ts bound (byte_literal "some application") _ HF) as [R|[R _]].
  - rewrite attach_meas in R. change (run = Ok (10 mod MODULUS Field128)%Z) in R. rewrite R. exact I.
  - change (run = Raise OutOfFuel) in R. rewrite R. reflexivity.
Qed.
Print Assumptions C82_daf.

(** The tests run, with toy primitives and draws. *)
Definition unit_ts : TurboShake := fun m _ i => nth (i * i mod 97) (m ++ zeros 97) x07.
Definition unit_aes : BlockCipher := fun k b =>
  map (fun x => z2b ((b2z (fst x) * 3 + b2z (snd x) * 5 + 11) mod 256)) (combine (firstn 16 (k ++ repeat x00 16)) b).
Definition unit_draws (rand : nat) : nat -> draws_t := fun k => (repeat (z2b (Z.of_nat k)) 32, fun i => (repeat (z2b (Z.of_nat i)) 16, repeat x05 rand)).
Definition c81_outcome : list (res unit) := Eval vm_compute in
  [test_prio3_count unit_ts 50 (unit_draws 64); test_prio3_sum_3 unit_ts 50 (unit_draws 96);
   test_prio3_flptest unit_ts 50 (unit_draws 128) (unit_draws 64);
   run_vdaf_test (Prio3Vdaf (prio3_obj Field64 1 (Count Field64) unit_ts 50 2 1)) Z.eqb tt [0; 1; 1]%Z 3%Z (unit_draws 64 0)].
(** The last is a wrong expectation, which is noticed. *)
Example C81_example : c81_outcome = [Ok tt; Ok tt; Ok tt; Raise AssertionError] /\
  prio3_draws (prio3_obj Field64 1 (Count Field64) unit_ts 50 2 1) (unit_draws 64).
Proof. split; [reflexivity|]. intros k. split; [apply repeat_length|]. intros i. split; apply repeat_length. Qed.
Definition c82_outcome : list (res unit) := Eval vm_compute in
  [test_generate_test_vectors unit_ts unit_aes 50 (unit_draws 128); test_test_daf unit_ts 50 (fun i => ([], repeat x05 32))].
Example C82_example : c82_outcome = [Ok tt; Ok tt] /\ draws_ok 32 16 128 (unit_draws 128 0).
Proof. split; [reflexivity|]. split; [apply repeat_length|]. intros i. split; apply repeat_length. Qed.
