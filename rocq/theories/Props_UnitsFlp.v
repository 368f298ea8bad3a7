(** Property C83: the test harness of FLPs and the unit tests of the validity
    circuits, gadgets and FLPs, whatever the tests draw. *)
From Verif Require Import FlpTests FlpTestsSpec FlpTestsFacts FlpSuiteFacts CircuitSpec MeasSpec MeasFacts GadgetFacts Roots FieldProofs FlpPropProofs FlpProofs TestCircuitFacts FieldFacts CircuitInstances.
Open Scope nat_scope.

(** C83.  run_flp with an honest proof: the decision is whether the (reduced)
    circuit output is zero, whatever the prover and the sharing draw; if a test
    point is a root of unity, query() raises. *)
Theorem C83_run_flp : forall P : NttFieldClass, NttOk P -> forall v : Valid P, ValidOk v ->
  forall (meas joint_rand prove_rand query_rand : list (F P)) (meas_rands proof_rands : list (list (F P))),
  length meas = vMEAS_LEN v -> length prove_rand = prove_rand_len v -> length joint_rand = vJOINT_RAND_LEN v ->
  length query_rand = query_rand_len v -> length meas_rands = length proof_rands ->
  Forall (fun r => length r = vMEAS_LEN v) meas_rands -> Forall (fun r => length r = proof_len v) proof_rands ->
  (Z.of_nat (S (length meas_rands)) < MODULUS P)%Z ->
  run_flp (FlpBBCGGI19 v) meas joint_rand prove_rand query_rand (S (length meas_rands)) meas_rands proof_rands
  = if points_ok v query_rand then Ok (feqb (reduced v (output v meas joint_rand) query_rand) f0)
    else Raise (ValueError "test point is a root of unity").
Proof. exact @honest_decision. Qed.
Print Assumptions C83_run_flp.

(** C83.  The gadget test passes for every gadget that a circuit can use. *)
Theorem C83_gadget : forall P : NttFieldClass, NttOk P ->
  forall (g : gadget) (L : nat) (eval_at : F P) (polys : draw P),
  1 <= L -> gwf P L g -> glog g L <= gen_log P -> L <= gen_log P -> draw_ok polys ->
  run_gadget_test g (2 ^ L) eval_at polys = Ok tt.
Proof. exact @gadget_test. Qed.
Print Assumptions C83_gadget.

(** C83.  The harness: the gadget tests pass; the outcome of the others is that
    of the cases, in order, given by [case_outcome]. *)
Theorem C83_harness : forall P : NttFieldClass, NttOk P -> forall v : Valid P, ValidOk v -> forall gadget_draws draws cases,
  truncate_linear v -> (2 < MODULUS P)%Z ->
  (forall i, draw_ok (snd (gadget_draws i))) -> (forall k, draw_ok (draws k)) ->
  Forall (fun c => length (fst c) = vMEAS_LEN v) cases ->
  run_flp_test v gadget_draws draws cases =
  foldM (fun _ '(k, (meas, expected)) => case_outcome v meas expected (draws k)) (enumerate cases) tt.
Proof. exact @flp_test. Qed.
Print Assumptions C83_harness.

(** C83.  A measurement of the wrong length fails the first assertion. *)
Theorem C83_length : forall (P : NttFieldClass) (v : Valid P) (meas : list (F P)) expected rand,
  length meas <> vMEAS_LEN v -> run_flp_case v meas expected rand = Raise AssertionError.
Proof.
  intros P v meas expected rand H. unfold run_flp_case. cbv zeta. cbn [MEAS_LEN FlpBBCGGI19].
  now rewrite (proj2 (Nat.eqb_neq _ _) H).
Qed.
Print Assumptions C83_length.

(** C83.  If the vectors labelled True are in the language of the circuit, then the
    test passes exactly if no test point drawn is a root of unity and the vectors
    labelled False are caught. *)
Theorem C83_suite : forall P : NttFieldClass, NttOk P -> (2 < MODULUS P)%Z -> forall (v : Valid P) d good bad,
  ValidOk v -> truncate_linear v -> draws_ok d ->
  Forall (fun m => length m = vMEAS_LEN v) (good ++ bad) -> Forall (accepts v) good ->
  suite v (run_flp_test v (fst d) (snd d) (map (fun m => (m, true)) good ++ map (fun m => (m, false)) bad)) (length good) bad (snd d).
Proof. exact @suite_gen. Qed.
Print Assumptions C83_suite.

(** C83.  The unit tests. *)
Theorem C83_tests :
  (forall d, draws_ok d -> suite (Count Field64) (test_count d) 2 [map fof [1337]%Z] (snd d)) /\
  (forall d, draws_ok d -> suite (Sum Field64 10000) (test_sum d) 5 [map fof (repeat 2%Z 14)] (snd d)) /\
  (forall r d, length r = 4 -> draws_ok d ->
     suite (Histogram Field128 4 2) (test_histogram r d) 4 [map fof [0; 0; 0; 0]%Z; map fof [1; 1; 1; 1]%Z; r] (snd d)) /\
  (forall d, draws_ok d ->
     suite (MultihotCountVec Field128 4 2 2) (test_multihot d) 4 (map (map fof) (too_many_ints 4 2 ++ [not_bits_ints 4 2])) (snd d)) /\
  (forall d, draws_ok d ->
     suite (MultihotCountVec Field128 8 6 3) (test_multihot_max_6 d) 7 (map (map fof) (too_many_ints 8 6 ++ [not_bits_ints 8 6])) (snd d)) /\
  (forall d, draws_ok d ->
     suite (MultihotCountVec Field128 1 1 1) (test_multihot_small d) 2 [map fof [0; 1337]%Z; map fof [1; 0]%Z] (snd d)) /\
  (forall d, draws_ok d -> suite (SumVec Field128 2 10 3) (test_sumvec d) 4 [map fof (repeat 2%Z 8)] (snd d)) /\
  (forall d, draws_ok d -> suite MultiGadget (test_multi_gadget d) 1 [] (snd d)) /\
  (forall d, draws_ok d -> suite HigherDegree (test_higher_degree d) 3 [map fof [3]%Z] (snd d)).
Proof.
  exact (conj count_suite (conj sum_suite (conj histogram_suite (conj multihot_suite (conj multihot_6_suite
    (conj multihot_small_suite (conj sumvec_suite (conj multi_gadget_suite higher_degree_suite)))))))).
Qed.
Print Assumptions C83_tests.

Lemma only_bad (P : FieldClass) (b : list (F P)) (R : nat -> list (F P) -> Prop) :
  (forall j m, nth_error [b] j = Some m -> R j m) <-> R 0 b.
Proof.
  split; [intros H; exact (H 0 b eq_refl)|]. intros H [|[|j]] m E; try discriminate. replace m with b by (cbn in E; congruence). exact H.
Qed.

(** C83.  The tests of Count, MultiGadget and HigherDegree can fail only because of
    a test point, that of Sum only if, besides, the first 14 elements of the query
    randomness add up to zero. *)
Theorem C83_always :
  (forall d, draws_ok d -> test_count d = Ok tt <-> forall k, k < 3 -> points (Count Field64) (snd d k)) /\
  (forall d, draws_ok d -> test_sum d = Ok tt <-> (forall k, k < 6 -> points (Sum Field64 10000) (snd d k)) /\
     fsum 14 (fun i => nth i (snd d 5 3 (query_rand_len (Sum Field64 10000))) f0) <> f0) /\
  (forall d, draws_ok d -> test_multi_gadget d = Ok tt <-> points MultiGadget (snd d 0)) /\
  (forall d, draws_ok d -> test_higher_degree d = Ok tt <-> forall k, k < 4 -> points HigherDegree (snd d k)).
Proof.
  repeat apply conj; intros d HD.
  - destruct (count_suite d HD) as [-> _]. rewrite (only_bad _ _ (fun j m => caught _ m (snd d (_ + j)))). split; [now intros [H _]|]. intros H. split; [exact H|].
    apply count_caught, HD.
  - destruct (sum_suite d HD) as [-> _]. rewrite (only_bad _ _ (fun j m => caught _ m (snd d (_ + j)))). rewrite (sum_caught (snd d (5 + 0)) (proj2 HD _)). reflexivity.
  - destruct (multi_gadget_suite d HD) as [-> _]. split.
    + intros [H _]. apply H. cbn. lia.
    + intros H. split; [|now intros [|j]]. intros [|k] Hk; [exact H|cbn in Hk; lia].
  - destruct (higher_degree_suite d HD) as [-> _]. rewrite (only_bad _ _ (fun j m => caught _ m (snd d (_ + j)))). split; [now intros [H _]|]. intros H. split; [exact H|].
    apply higher_caught, HD.
Qed.
Print Assumptions C83_always.

(** C83.  The labels are right: no vector labelled False is in the language of its
    circuit.  (The random vector in the test of Histogram may be: then that test
    fails, see below.) *)
Theorem C83_labels :
  (~ Forall is_bit (map fof [1337]%Z : list (F Field64))) /\
  (~ Forall is_bit (map fof (repeat 2%Z 14) : list (F Field64))) /\
  (forall m, m < 4 -> (map fof [0; 0; 0; 0]%Z : list (F Field128)) <> onehot 4 m /\ (map fof [1; 1; 1; 1]%Z : list (F Field128)) <> onehot 4 m) /\
  Forall (fun l => ~ multihot_valid (P := Field128) 4 2 (map fof l)) (too_many_ints 4 2 ++ [not_bits_ints 4 2]) /\
  Forall (fun l => ~ multihot_valid (P := Field128) 8 6 (map fof l)) (too_many_ints 8 6 ++ [not_bits_ints 8 6]) /\
  Forall (fun l => ~ multihot_valid (P := Field128) 1 1 (map fof l)) [[0; 1337]; [1; 0]]%Z /\
  (~ Forall is_bit (map fof (repeat 2%Z 8) : list (F Field128))).
Proof. exact false_labels. Qed.
Print Assumptions C83_labels.

(** C83.  Hence the joint randomness with which the plain evaluation of such a
    vector is zero is rare; here for the test of Histogram with a random vector. *)
Theorem C83_histogram_lucky : forall (r : list (F Field128)) (Q : list (list (F Field128))),
  length r = 4 -> (forall m, m < 4 -> r <> onehot 4 m) -> NoDup Q ->
  (forall joint_rand, In joint_rand Q -> length joint_rand = 2 /\ all_zero (output (Histogram Field128 4 2) r joint_rand) = true) ->
  (Z.of_nat (length Q) <= 2 * MODULUS Field128)%Z.
Proof.
  intros r Q Hr Hn HQ H.
  destruct (std_ok (proj2 (proj2 ntt_fields_ok)) (Histogram Field128 4 2)) as [HV _].
  { apply (std_Histogram _ 4 2); [reflexivity|vm_compute; discriminate]. }
  pose proof (Histogram_reject (proj2 (proj2 ntt_fields_ok)) 4 2 ltac:(lia) ltac:(lia) r Q Hr ltac:(reflexivity) Hn HQ) as B.
  assert (A : forall jr, In jr Q -> accepts_with (Histogram Field128 4 2) r jr).
  { intros jr Hj. destruct (H jr Hj) as [L Z0]. apply (accepts_with_output (proj2 (proj2 ntt_fields_ok)) _ HV); [exact Hr|exact L|exact Z0]. }
  specialize (B A). change (vJOINT_RAND_LEN (Histogram Field128 4 2)) with 2 in B. change (Z.of_nat 2 - 1)%Z with 1%Z in B. rewrite Z.pow_1_r in B. exact B.
Qed.
Print Assumptions C83_histogram_lucky.

(** C83.  "the test of Histogram passes up to the choice of the randomness of the
    protocol" is false: if the vector drawn is a unit vector, it never passes. *)
Theorem C83_histogram_refuted : forall m d, m < 4 -> draws_ok d -> test_histogram (onehot 4 m) d <> Ok tt.
Proof.
  intros m d Hm HD E. assert (L : length (onehot (P := Field128) 4 m) = 4) by (destruct m as [|[|[|[|m]]]]; try lia; reflexivity).
  destruct (histogram_suite (onehot 4 m) d L HD) as [[H _] _]. destruct (H E) as [_ C].
  destruct (C 2 _ eq_refl) as [N _].
  destruct (Histogram_encode (proj2 (proj2 ntt_fields_ok)) 4 2 ltac:(lia) ltac:(lia) (Z.of_nat m) ltac:(lia)) as (_ & A & _).
  rewrite Nat2Z.id in A. pose proof (accepts_output _ _ _ A (proj2 HD 6 0 _)) as Z0. apply all_zero_spec in Z0.
  change (4 + 2) with 6 in N. congruence.
Qed.
Print Assumptions C83_histogram_refuted.

(** C83.  The remaining tests always pass. *)
Theorem C83_others :
  (forall d, (forall i, draw_ok (snd (d i))) -> test_gadgets d = Ok tt) /\
  test_range_check_round_trip = Ok tt /\ test_sumvec_afe = Ok tt /\
  (forall draws, (forall k, draw_ok (draws k)) -> test_flp draws = Ok tt).
Proof. exact (conj test_gadgets_pass (conj range_check_round_trip_pass (conj sumvec_afe_pass test_flp_pass))). Qed.
Print Assumptions C83_others.

(** C83.  run_encode_truncate_decode_test passes for every list of measurements in
    range of every SumVec. *)
Theorem C83_round_trip : forall P : NttFieldClass, NttOk P -> forall len max chunk measurements, 1 <= len -> 1 <= chunk -> (0 < max)%Z ->
  (2 ^ Z.of_nat (bit_length max) < MODULUS P)%Z ->
  Forall (fun ms => length ms = len /\ Forall (fun m => 0 <= m <= max)%Z ms) measurements ->
  run_encode_truncate_decode_test (FlpBBCGGI19 (SumVec P len max chunk)) ints_eqb measurements = Ok tt.
Proof. exact sumvec_round_trip. Qed.
Print Assumptions C83_round_trip.

(** Runs: with these draws the tests pass; with a wrong label the case fails. *)
Definition example_draw {P : NttFieldClass} : draw P := fun k n => map (fun i => fof (Z.of_nat (7 + k + i * i))) (seq 0 n).
Definition example_draws {P : NttFieldClass} : (nat -> F P * draw P) * (nat -> draw P) := (fun _ => (f1, example_draw), fun _ => example_draw).
Example C83_example_draws : forall P : NttFieldClass, draws_ok (example_draws (P := P)).
Proof. intros P. split; intros i k n; cbn [example_draws fst snd]; unfold example_draw; now rewrite map_length, seq_length. Qed.
Definition c83_outcome : list (res unit) := Eval vm_compute in
  [test_count example_draws; test_higher_degree example_draws; test_multi_gadget example_draws;
   run_flp_case (Count Field64) (map fof [1337]%Z) true example_draw; run_flp_case (Count Field64) [f1] false example_draw;
   run_flp_case (Count Field64) [f1] true (fun _ n => repeat f1 n)].
Example C83_example_runs : c83_outcome = [Ok tt; Ok tt; Ok tt; Raise AssertionError; Raise AssertionError;
  Raise (ValueError "test point is a root of unity")].
Proof. reflexivity. Qed.
