(** Vocabulary for the tests of the Shamir example.  Nothing here models a /repo
    function. *)
From Verif Require Export ShamirTests ShamirSpec FlpTestsSpec.
Open Scope nat_scope.

(** [n] vectors of one element. *)
Definition singles {P} (n : nat) (rand : list (list (F P))) : Prop := length rand = n /\ Forall (fun r => length r = 1) rand.

(** The answer of query() on the shares with index [j] of measurement and proof. *)
Definition shamir_query {P : NttFieldClass} (v : Valid P) (meas proof query_rand joint_rand : list (F P))
  (meas_rand proof_rand : list (list (F P))) (j : nat) : list (F P) :=
  match bbcggi19_query v (share_of (polys_of meas meas_rand) j) (share_of (polys_of proof proof_rand) j) query_rand joint_rand 1 with
  | Ok ver => ver
  | Raise _ => []
  end.

(** What becomes of the test of an FLP on Shamir shares. *)
Definition shamir_flp_outcome {P : NttFieldClass} (v : Valid P) (meas prove_rand query_rand joint_rand : list (F P))
  (meas_rand proof_rand : list (list (F P))) : res unit :=
  match bbcggi19_prove v meas prove_rand joint_rand with
  | Raise e => Raise e
  | Ok proof =>
    if negb (points_ok v query_rand) then Raise (ValueError "test point is a root of unity")
    else if zero_component (verifier_len v) (map (shamir_query v meas proof query_rand joint_rand meas_rand proof_rand) [0; 2])
    then Raise IndexError else Ok tt
  end.
