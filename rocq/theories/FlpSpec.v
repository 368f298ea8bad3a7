(** What the Prio3 theorems assume of a fully linear proof system.
    FlpBBCGGI19 over any circuit satisfying [ValidOk] satisfies this
    (FlpProofs.v). *)
From Verif Require Export Flp Spec CircuitSpec VecFacts.
Open Scope nat_scope.

(** [n] vectors of length [len]. *)
Definition vecs {P : FieldClass} (n len : nat) (l : list (list (F P))) : Prop :=
  length l = n /\ Forall (fun x => length x = len) l.

(** [good_query q]: query() does not reject the query randomness [q].
    [valid meas joint_rand]: the measurement is valid. *)
Record FlpOk {P : FieldClass} (flp : Flp P) (good_query : list (F P) -> Prop)
  (valid : list (F P) -> list (F P) -> Prop) : Prop := {
  (* prove() succeeds on inputs of the right lengths *)
  fo_prove : forall meas prove_rand joint_rand,
    length meas = MEAS_LEN flp -> length prove_rand = PROVE_RAND_LEN flp ->
    length joint_rand = JOINT_RAND_LEN flp ->
    exists proof, flp_prove flp meas prove_rand joint_rand = Ok proof /\ length proof = PROOF_LEN flp;
  fo_good_dec : forall q, length q = QUERY_RAND_LEN flp -> good_query q \/ ~ good_query q;
  (* query() is linear in the shares *)
  fo_query : forall n meas_shares proof_shares query_rand joint_rand,
    1 <= n -> (Z.of_nat n < MODULUS P)%Z ->
    vecs n (MEAS_LEN flp) meas_shares -> vecs n (PROOF_LEN flp) proof_shares ->
    length query_rand = QUERY_RAND_LEN flp -> length joint_rand = JOINT_RAND_LEN flp ->
    good_query query_rand ->
    exists verifier_shares, vecs n (VERIFIER_LEN flp) verifier_shares /\
      (forall i, i < n -> flp_query flp (nth i meas_shares []) (nth i proof_shares []) query_rand joint_rand n
                          = Ok (nth i verifier_shares [])) /\
      flp_query flp (vsum (MEAS_LEN flp) meas_shares) (vsum (PROOF_LEN flp) proof_shares) query_rand joint_rand 1
      = Ok (vsum (VERIFIER_LEN flp) verifier_shares);
  (* query() rejects all other query randomness *)
  fo_query_bad : forall n meas proof query_rand joint_rand,
    1 <= n -> (Z.of_nat n < MODULUS P)%Z ->
    length meas = MEAS_LEN flp -> length proof = PROOF_LEN flp ->
    length query_rand = QUERY_RAND_LEN flp -> length joint_rand = JOINT_RAND_LEN flp ->
    ~ good_query query_rand ->
    exists msg, flp_query flp meas proof query_rand joint_rand n = Raise (ValueError msg);
  (* decide() answers on every verifier of the right length *)
  fo_decide : forall verifier, length verifier = VERIFIER_LEN flp -> exists b, flp_decide flp verifier = Ok b;
  (* completeness *)
  fo_complete : forall meas prove_rand joint_rand query_rand proof verifier,
    length meas = MEAS_LEN flp -> length prove_rand = PROVE_RAND_LEN flp ->
    length joint_rand = JOINT_RAND_LEN flp -> length query_rand = QUERY_RAND_LEN flp ->
    valid meas joint_rand ->
    flp_prove flp meas prove_rand joint_rand = Ok proof ->
    flp_query flp meas proof query_rand joint_rand 1 = Ok verifier ->
    flp_decide flp verifier = Ok true;
  (* truncate() is linear *)
  fo_truncate : forall n meas_shares, vecs n (MEAS_LEN flp) meas_shares ->
    exists out_shares, vecs n (OUTPUT_LEN flp) out_shares /\
      mapM (flp_truncate flp) meas_shares = Ok out_shares /\
      flp_truncate flp (vsum (MEAS_LEN flp) meas_shares) = Ok (vsum (OUTPUT_LEN flp) out_shares);
}.

(** The circuit's truncation is linear. *)
Definition truncate_linear {P : NttFieldClass} (v : Valid P) : Prop :=
  forall n meass meas, shares_of n (vMEAS_LEN v) meass meas ->
  exists outs out, (forall s, s < n -> valid_truncate v (meass s) = Ok (outs s)) /\
    valid_truncate v meas = Ok out /\ shares_of n (vOUTPUT_LEN v) outs out.

(** The test points: the last [length (GADGETS v)] elements of the query
    randomness. *)
Definition test_point {P : NttFieldClass} (v : Valid P) (query_rand : list (F P)) (i : nat) : F P :=
  nth (query_rand_len v - length (GADGETS v) + i) query_rand f0.
Definition test_points_ok {P : NttFieldClass} (v : Valid P) (query_rand : list (F P)) : Prop :=
  forall i, i < length (GADGETS v) ->
    npow (test_point v query_rand i) (wire_poly_len (nth i (GADGET_CALLS v) 0)) <> f1.

(** The circuit output on the measurement is all-zero. *)
Definition circuit_zero {P : NttFieldClass} (v : Valid P) (meas joint_rand : list (F P)) : Prop :=
  exists out, valid_eval_plain v meas joint_rand 1 = Ok out /\ allzero out.
