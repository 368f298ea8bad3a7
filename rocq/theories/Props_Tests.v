(** Properties C69 and C70: the circuits, FLPs, Prio3 variants and the DAF that the
    test suite defines (TestCircuits.v). *)
From Verif Require Import TestCircuits TestCircuitFacts CircuitSpec FlpSpec MeasSpec Prio3Inst Roots Spec RunSpec MeasFacts TurboShake.
Open Scope nat_scope.

(** C69.  The circuits satisfy the circuit interface, so that the theorems about
    completeness, query linearity, soundness and zero-knowledge apply to them. *)
Theorem C69_circuits :
  (ValidOk MultiGadget /\ truncate_linear MultiGadget) /\ (ValidOk HigherDegree /\ truncate_linear HigherDegree) /\
  forall (P : NttFieldClass) (max : Z), NttOk P -> (0 < max)%Z -> (2 ^ Z.of_nat (bit_length max) < MODULUS P)%Z ->
    fits P (Sum_gadget (bit_length max)) (bit_length max) -> ValidOk (TestAverage P max) /\ truncate_linear (TestAverage P max).
Proof.
  split; [exact (conj MultiGadget_ok MultiGadget_truncate)|]. split; [exact (conj HigherDegree_ok HigherDegree_truncate)|].
  intros P max HP H0 H1 Hf. exact (conj (TestAverage_ok P HP max H0 H1 Hf) (TestAverage_truncate P HP max H0 H1)).
Qed.
Print Assumptions C69_circuits.

(** Their languages. *)
Theorem C69_languages : forall x : F Field64,
  (accepts MultiGadget [x] <-> x = f0) /\ (accepts HigherDegree [x] <-> (0 <= fint x <= 2)%Z).
Proof. intros x. exact (conj (MultiGadget_accepts x) (HigherDegree_accepts x)). Qed.
Print Assumptions C69_languages.

(** Prio3Average computes the average rounded down, and fails on the empty batch. *)
Theorem C69_average : forall (ts : TurboShake) (bound shares : nat) (bits : Z) (key ctx : bytes) (ms : list (Z * bytes * bytes)),
  2 <= shares < 256 -> (0 < bits)%Z -> (2 ^ Z.of_nat (bit_length bits) < MODULUS Field128)%Z ->
  fits Field128 (Sum_gadget (bit_length bits)) (bit_length bits) ->
  let p := Prio3Average ts bound shares bits in
  ctx_ok ctx -> length key = 32 -> sizes_ok p ms -> Forall (fun m => 0 <= m <= bits)%Z (map meas_of ms) -> ms <> [] ->
  (zsuml (map meas_of ms) < MODULUS Field128)%Z ->
  run_result p (test_points_ok (TestAverage Field128 bits)) key ctx ms (zsuml (map meas_of ms) / Z.of_nat (length ms))%Z.
Proof. exact prio3_average. Qed.
Print Assumptions C69_average.

Theorem C69_average_empty : forall (ts : TurboShake) (bound shares : nat) (bits : Z) (key ctx : bytes),
  length key = 32 -> run_vdaf (Prio3Vdaf (Prio3Average ts bound shares bits)) key tt ctx [] = Raise ZeroDivisionError.
Proof. exact prio3_average_empty. Qed.
Print Assumptions C69_average_empty.

(** Prio3HigherDegree computes the sum of measurements that are 0, 1 or 2. *)
Theorem C69_higher_degree : forall (ts : TurboShake) (bound shares : nat) (key ctx : bytes) (ms : list (Z * bytes * bytes)),
  2 <= shares < 256 -> ctx_ok ctx -> length key = 32 ->
  let p := Prio3HigherDegree ts bound shares in
  sizes_ok p ms -> Forall (fun m => 0 <= m <= 2)%Z (map meas_of ms) ->
  run_result p (test_points_ok HigherDegree) key ctx ms (zsuml (map meas_of ms) mod MODULUS Field64)%Z.
Proof. intros ts bound shares key ctx ms Hs Hc Hk. exact (run_higher ts bound shares Hs key ctx Hc Hk ms). Qed.
Print Assumptions C69_higher_degree.

(** FlpTest satisfies the FLP interface of Prio3, with and without joint
    randomness, and Prio3 on top of it computes the sum; ... *)
Theorem C69_flptest : forall (P : FieldClass) (joint_rand_len : nat), (4 < MODULUS P)%Z ->
  FlpOk (FlpTest P joint_rand_len) (fun _ => True) (fun meas _ => exists m, (0 <= m < 5)%Z /\ meas = [fof m; fof m]).
Proof. intros P jl H. exact (flptest_ok P H jl). Qed.
Print Assumptions C69_flptest.

Theorem C69_flptest_run : forall (ts : TurboShake) (bound joint_rand_len : nat) (key ctx : bytes) (ms : list (Z * bytes * bytes)),
  let p := Prio3FlpTest ts bound joint_rand_len in
  ctx_ok ctx -> length key = 32 -> sizes_ok p ms -> Forall (fun m => 0 <= m < 5)%Z (map meas_of ms) ->
  run_vdaf (Prio3Vdaf p) key tt ctx ms = Ok (zsuml (map meas_of ms) mod MODULUS Field128)%Z \/
  (run_vdaf (Prio3Vdaf p) key tt ctx ms = Raise OutOfFuel /\ ran_out p).
Proof. intros ts bound jl key ctx ms p Hc Hk. exact (flptest_run ts bound jl key ctx Hc Hk ms). Qed.
Print Assumptions C69_flptest_run.

(** ... but, as its docstring says, it is insecure: some proof is accepted for every
    measurement whatever the randomness, and the verifier is the measurement. *)
Theorem C69_flptest_insecure : forall (P : FieldClass) (joint_rand_len : nat) (meas : list (F P)),
  (exists proof, forall query_rand joint_rand num_shares, exists verifier,
     flp_query (FlpTest P joint_rand_len) meas proof query_rand joint_rand num_shares = Ok verifier /\
     flp_decide (FlpTest P joint_rand_len) verifier = Ok true) /\
  (forall prove_rand query_rand joint_rand num_shares,
     (let* proof := flp_prove (FlpTest P joint_rand_len) meas prove_rand joint_rand in
      flp_query (FlpTest P joint_rand_len) meas proof query_rand joint_rand num_shares) = Ok meas).
Proof. intros P jl meas. exact (conj (flptest_insecure P jl meas) (fun pr q jr n => flptest_reveals P jl meas pr q jr n)). Qed.
Print Assumptions C69_flptest_insecure.

(** C70.  The DAF of the test suite sums up; it fails only if the model's loop
    bound is hit. *)
Theorem C70_daf : forall (ts : TurboShake) (bound : nat) (ctx : bytes) (ms : list (Z * bytes * bytes)),
  Forall (fun '(m, nonce, rand) => (- MODULUS Field128 < m < MODULUS Field128)%Z /\ nonce = [] /\ length rand = 32) ms ->
  run_daf (TestDaf ts bound) ctx tt ms = Ok (zsuml (map meas_of ms) mod MODULUS Field128)%Z \/
  (run_daf (TestDaf ts bound) ctx tt ms = Raise OutOfFuel /\
   exists seed, expand_into_vec (XofTurboShake128 ts bound) Field128 seed [] [] 1 = Raise OutOfFuel).
Proof. exact daf_run. Qed.
Print Assumptions C70_daf.

(** The runs of the test suite (test_vdaf_prio3.py, test_daf.py), with a toy hash
    function. *)
Definition toy_ts : TurboShake := fun m _ i => nth (i * i mod 97) (m ++ zeros 97) x07.
Definition c69_outcome : list (res Z) := Eval vm_compute in
  [run_vdaf (Prio3Vdaf (Prio3Average toy_ts 50 2 3)) (zeros 32) tt [x01]
    [(1%Z, zeros 16, zeros 64); (2%Z, zeros 16, zeros 64); (3%Z, zeros 16, zeros 64); (1%Z, repeat x01 16, repeat x03 64)];
   run_vdaf (Prio3Vdaf (Prio3HigherDegree toy_ts 50 2)) (zeros 32) tt [x01] [(0%Z, zeros 16, zeros 64); (2%Z, zeros 16, zeros 64)];
   run_vdaf (Prio3Vdaf (Prio3FlpTest toy_ts 50 1)) (zeros 32) tt [x01] [(4%Z, zeros 16, zeros 128); (3%Z, zeros 16, zeros 128)];
   run_vdaf (Prio3Vdaf (Prio3FlpTest toy_ts 50 0)) (zeros 32) tt [x01] [(4%Z, zeros 16, zeros 64); (3%Z, zeros 16, zeros 64)]].
Example C69_example : c69_outcome = [Ok 1; Ok 2; Ok 7; Ok 7]%Z.
Proof. reflexivity. Qed.
Example C70_example : run_daf (TestDaf toy_ts 50) [x01] tt [(1%Z, [], zeros 32); (2%Z, [], repeat x05 32); (3%Z, [], repeat x06 32); (4%Z, [], zeros 32)] = Ok 10%Z.
Proof. vm_compute. reflexivity. Qed.
