(** What all Aggregators of Prio3 but one see of a report, as a function of ideal
    random choices.  Nothing here models a /repo function. *)
From Verif Require Export Prio3Spec ZkSpec.
Open Scope nat_scope.

(** The Leader's share makes the shares add up to the secret. *)
Definition leader_first {P} (len : nat) (secret : list (F P)) (helpers : list (list (F P))) : list (list (F P)) :=
  zip_with fsub secret (vsum len helpers) :: helpers.

(** The random choices: the prove randomness of all proofs, and the Helpers'
    shares of the measurement and of the proofs. *)
Definition p3_coins (p : Prio3) : Type :=
  list (F (p3_field p)) * list (list (F (p3_field p))) * list (list (F (p3_field p))).
Definition p3_coins_wf (p : Prio3) (c : p3_coins p) : Prop :=
  let '(prove_rand, meas_helpers, proofs_helpers) := c in
  length prove_rand = PROVE_RAND_LEN (p3_flp p) * p3_PROOFS p /\
  vecs (p3_SHARES p - 1) (MEAS_LEN (p3_flp p)) meas_helpers /\
  vecs (p3_SHARES p - 1) (PROOF_LEN (p3_flp p) * p3_PROOFS p) proofs_helpers.

(** The shares of the measurement and the proofs of everybody but Aggregator
    [j], and the verifiers of each Aggregator for each of the proofs. *)
Definition prio3_view (p : Prio3) (j : nat) (meas query_rand joint_rand : list (F (p3_field p))) (c : p3_coins p)
  : res (list (list (F (p3_field p))) * list (list (F (p3_field p))) * list (list (list (F (p3_field p))))) :=
  let '(prove_rand, meas_helpers, proofs_helpers) := c in
  let flp := p3_flp p in
  let* proofs := mapM (fun k => flp_prove flp meas (piece (PROVE_RAND_LEN flp) k prove_rand)
                                  (piece (JOINT_RAND_LEN flp) k joint_rand)) (seq 0 (p3_PROOFS p)) in
  let meas_shares := leader_first (MEAS_LEN flp) meas meas_helpers in
  let proofs_shares := leader_first (PROOF_LEN flp * p3_PROOFS p) (concat proofs) proofs_helpers in
  let* verifiers := mapM (fun '(m, s) => proof_verifiers p m s query_rand joint_rand)
                      (combine meas_shares proofs_shares) in
  Ok (without j meas_shares, without j proofs_shares, verifiers).
