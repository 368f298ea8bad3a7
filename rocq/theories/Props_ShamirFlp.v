(** Property C65: FLP verification on Shamir shares, as in the unit tests of
    poc/example_flp_shamir.py:122-188. *)
From Verif Require Import Base Field FlpBBCGGI19 Circuits Spec CircuitSpec FlpSpec Roots FlpInstances Shamir ShamirSpec ShamirFlp Primes.
Open Scope nat_scope.

(** C65.  Share measurement and proof with threshold [t], query any [t] or more
    distinct shares as if each were the whole input (num_shares = 1) and
    reconstruct from the verifier shares: the result is the verifier for the
    unshared measurement and proof, except that shamir_unshard raises IndexError
    when more than one share is used and some component of the verifier shares is
    zero in all of them. *)
Theorem C65_query : forall P : NttFieldClass, NttOk P -> forall v : Valid P, ValidOk v ->
  forall query_rand joint_rand : list (F P),
  length query_rand = query_rand_len v -> length joint_rand = vJOINT_RAND_LEN v -> test_points_ok v query_rand ->
  forall (meas proof : list (F P)) meas_rand proof_rand t n index,
  length meas = vMEAS_LEN v -> length proof = proof_len v ->
  (Z.of_nat n < MODULUS P)%Z -> 1 <= t ->
  length meas_rand = vMEAS_LEN v -> Forall (fun r => length r = t - 1) meas_rand ->
  length proof_rand = proof_len v -> Forall (fun r => length r = t - 1) proof_rand ->
  NoDup index -> Forall (fun j => j < n) index -> t <= length index ->
  exists meas_shares proof_shares verifier_shares verifier,
    shamir_shard meas meas_rand n = Ok meas_shares /\ shamir_shard proof proof_rand n = Ok proof_shares /\
    mapM (fun j => bbcggi19_query v (nth j meas_shares []) (nth j proof_shares []) query_rand joint_rand 1) index = Ok verifier_shares /\
    bbcggi19_query v meas proof query_rand joint_rand 1 = Ok verifier /\
    shamir_unshard (map Z.of_nat index) verifier_shares =
      if (1 <? length index) && zero_component (verifier_len v) verifier_shares then Raise IndexError else Ok verifier.
Proof. exact @query_shamir. Qed.
Print Assumptions C65_query.

(** C65.  Completeness: a reconstructed verifier for an honest proof about a valid
    measurement is accepted. *)
Theorem C65_complete : forall P : NttFieldClass, NttOk P -> forall v : Valid P, ValidOk v ->
  forall (meas proof prove_rand query_rand joint_rand : list (F P)) meas_shares proof_shares meas_rand proof_rand t n index vs ver,
  length meas = vMEAS_LEN v -> length prove_rand = prove_rand_len v -> length joint_rand = vJOINT_RAND_LEN v ->
  length query_rand = query_rand_len v -> circuit_zero v meas joint_rand -> bbcggi19_prove v meas prove_rand joint_rand = Ok proof ->
  (Z.of_nat n < MODULUS P)%Z -> 1 <= t ->
  length meas_rand = vMEAS_LEN v -> Forall (fun r => length r = t - 1) meas_rand ->
  length proof_rand = proof_len v -> Forall (fun r => length r = t - 1) proof_rand ->
  NoDup index -> Forall (fun j => j < n) index -> t <= length index ->
  shamir_shard meas meas_rand n = Ok meas_shares -> shamir_shard proof proof_rand n = Ok proof_shares ->
  mapM (fun j => bbcggi19_query v (nth j meas_shares []) (nth j proof_shares []) query_rand joint_rand 1) index = Ok vs ->
  shamir_unshard (map Z.of_nat index) vs = Ok ver -> bbcggi19_decide v ver = Ok true.
Proof. exact @shamir_complete. Qed.
Print Assumptions C65_complete.

(** C65.  Soundness: whatever proof is shared for an invalid measurement, the
    query randomness for which the reconstructed verifier is accepted is at most
    a fraction d / |F| of all, as without sharing (C26). *)
Theorem C65_sound : forall P : NttFieldClass, NttOk P -> forall v : Valid P, ValidOk v ->
  forall (meas proof joint_rand : list (F P)) meas_shares proof_shares meas_rand proof_rand t n index out d (Q : list (list (F P))),
  length meas = vMEAS_LEN v -> length joint_rand = vJOINT_RAND_LEN v -> length proof = proof_len v ->
  valid_eval_plain v meas joint_rand 1 = Ok out -> Exists (fun x => x <> f0) out ->
  1 <= d ->
  (forall i, i < length (GADGETS v) ->
     DEGREE (nth i (GADGETS v) Mul) * (wire_poly_len (nth i (GADGET_CALLS v) 0) - 1) <= d) ->
  (Z.of_nat n < MODULUS P)%Z -> 1 <= t ->
  length meas_rand = vMEAS_LEN v -> Forall (fun r => length r = t - 1) meas_rand ->
  length proof_rand = proof_len v -> Forall (fun r => length r = t - 1) proof_rand ->
  NoDup index -> Forall (fun j => j < n) index -> t <= length index ->
  shamir_shard meas meas_rand n = Ok meas_shares -> shamir_shard proof proof_rand n = Ok proof_shares ->
  NoDup Q ->
  (forall q, In q Q -> length q = query_rand_len v /\ exists vs ver,
     mapM (fun j => bbcggi19_query v (nth j meas_shares []) (nth j proof_shares []) q joint_rand 1) index = Ok vs /\
     shamir_unshard (map Z.of_nat index) vs = Ok ver /\ bbcggi19_decide v ver = Ok true) ->
  (Z.of_nat (length Q) <= Z.of_nat d * MODULUS P ^ (Z.of_nat (query_rand_len v) - 1))%Z.
Proof. exact @shamir_sound. Qed.
Print Assumptions C65_sound.

(** The test of example_flp_shamir.py:122-140 for the given random choices. *)
Definition flp_count_test (prove_rand query_rand : list (F Field64)) (mr pr : list (list (F Field64))) : res bool :=
  let* meas_shares := shamir_shard [f0] mr 3 in
  let* proof := bbcggi19_prove (Count Field64) [f0] prove_rand [] in
  let* proof_shares := shamir_shard proof pr 3 in
  let* vs := mapM (fun j => bbcggi19_query (Count Field64) (nth j meas_shares []) (nth j proof_shares []) query_rand [] 1) [0; 2] in
  let* verifier := shamir_unshard (map Z.of_nat [0; 2]) vs in
  bbcggi19_decide (Count Field64) verifier.

Example C65_example :
  flp_count_test (map fof [11; 12]%Z) (map fof [5]%Z) [map fof [3]%Z] (map (fun z => [fof z]) [21; 22; 23; 24; 25]%Z) = Ok true.
Proof. vm_compute. reflexivity. Qed.

(** C65.  The exception does occur: the unit test fails for some of its random
    choices. *)
Theorem C65_refuted : exists prove_rand query_rand mr pr,
  length prove_rand = prove_rand_len (Count Field64) /\ length query_rand = query_rand_len (Count Field64) /\
  test_points_ok (Count Field64) query_rand /\ map (@length _) mr = [1] /\ map (@length _) pr = [1; 1; 1; 1; 1] /\
  flp_count_test prove_rand query_rand mr pr = Raise IndexError.
Proof.
  exists (map fof [0; 0]%Z), (map fof [5]%Z), [map fof [0]%Z], (map (fun z => [fof z]) [0; 0; 0; 0; 0]%Z).
  split; [reflexivity|]. split; [reflexivity|]. split; [|vm_compute; repeat apply conj; reflexivity].
  intros [|i] Hi; [|cbn in Hi; lia]. intros E. apply (f_equal val) in E. vm_compute in E. discriminate.
Qed.
Print Assumptions C65_refuted.
