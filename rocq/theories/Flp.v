(** Model of /repo/poc/vdaf_poc/flp.py. *)
From Verif Require Export Poly.
Open Scope nat_scope.

(** flp.py:14-118: the attributes and methods of an FLP over the field class
    [P].  A method that may raise returns [res]. *)
Record Flp (P : FieldClass) : Type := {
  Measurement : Type;
  AggResult : Type;
  JOINT_RAND_LEN : nat;
  PROVE_RAND_LEN : nat;
  QUERY_RAND_LEN : nat;
  MEAS_LEN : nat;
  OUTPUT_LEN : nat;
  PROOF_LEN : nat;
  VERIFIER_LEN : nat;
  (* flp.py:46-48 *)
  flp_encode : Measurement -> res (list (F P));
  (* flp.py:51-64: meas, prove_rand, joint_rand *)
  flp_prove : list (F P) -> list (F P) -> list (F P) -> res (list (F P));
  (* flp.py:67-84: meas, proof, query_rand, joint_rand, num_shares *)
  flp_query : list (F P) -> list (F P) -> list (F P) -> list (F P) -> nat -> res (list (F P));
  (* flp.py:87-95 *)
  flp_decide : list (F P) -> res bool;
  (* flp.py:98-106 *)
  flp_truncate : list (F P) -> res (list (F P));
  (* flp.py:109-118: output, num_measurements *)
  flp_decode : list (F P) -> nat -> res AggResult;
}.
Arguments Measurement {P} f.
Arguments AggResult {P} f.
Arguments JOINT_RAND_LEN {P} f.
Arguments PROVE_RAND_LEN {P} f.
Arguments QUERY_RAND_LEN {P} f.
Arguments MEAS_LEN {P} f.
Arguments OUTPUT_LEN {P} f.
Arguments PROOF_LEN {P} f.
Arguments VERIFIER_LEN {P} f.
Arguments flp_encode {P} f.
Arguments flp_prove {P} f.
Arguments flp_query {P} f.
Arguments flp_decide {P} f.
Arguments flp_truncate {P} f.
Arguments flp_decode {P} f.

(** flp.py:128-140.  [rands] are the vectors drawn by [field.rand_vec(len(vec))],
    one for each of the first num_shares - 1 shares. *)
Definition additive_secret_share {P} (vec : list (F P)) (rands : list (list (F P)))
  : res (list (list (F P))) :=
  let* last_share := foldM vec_sub rands vec in
  Ok (rands ++ [last_share]).

(** flp.py:147-190.  The random draws are arguments; [num_shares] is one more
    than the number of vectors drawn for sharing. *)
Definition run_flp {P} (flp : Flp P) (meas joint_rand prove_rand query_rand : list (F P))
  (num_shares : nat) (meas_rands proof_rands : list (list (F P))) : res bool :=
  let* proof := flp_prove flp meas prove_rand joint_rand in
  let* meas_shares := additive_secret_share meas meas_rands in
  let* proof_shares := additive_secret_share proof proof_rands in
  let* verifier_shares := mapM (fun '(meas_share, proof_share) =>
    flp_query flp meas_share proof_share query_rand joint_rand num_shares)
    (combine meas_shares proof_shares) in
  let* first := get verifier_shares 0 in
  let* verifier := foldM vec_add verifier_shares (fzeros (length first)) in
  flp_decide flp verifier.
