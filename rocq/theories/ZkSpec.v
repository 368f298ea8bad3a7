(** Zero-knowledge of the FLP: what the Aggregators see in query() and decide().
    Nothing here models a /repo function. *)
From Verif Require Export FlpSpec FlpBBCGGI19.
Open Scope nat_scope.

Section Z.
Context {P : NttFieldClass} (v : Valid P).

(** The verifier of an honestly generated proof. *)
Definition honest_verifier (meas prove_rand query_rand joint_rand : list (F P)) : res (list (F P)) :=
  let* proof := bbcggi19_prove v meas prove_rand joint_rand in
  bbcggi19_query v meas proof query_rand joint_rand 1.

(** The simulator: it puts arbitrary values [w] on the wires of each gadget and
    lets the gadget compute the value of its polynomial.  It does not know the
    measurement. *)
Fixpoint simulate_gadgets (gs : list gadget) (w : list (F P)) : res (list (F P)) :=
  match gs with
  | [] => Ok []
  | g :: gs =>
    let wires := firstn (ARITY g) w in
    let* y := gadget_eval g wires in
    let* rest := simulate_gadgets gs (skipn (ARITY g) w) in
    Ok (wires ++ [y] ++ rest)
  end.
Definition simulate (w : list (F P)) : res (list (F P)) :=
  let* blocks := simulate_gadgets (GADGETS v) w in
  Ok (f0 :: blocks).

(** The random choices of an execution with additive shares: prove randomness,
    and the drawn shares of measurement and proof. *)
Definition coins : Type := list (F P) * list (list (F P)) * list (list (F P)).
Definition coins_wf (n : nat) (c : coins) : Prop :=
  let '(prove_rand, meas_rands, proof_rands) := c in
  length prove_rand = prove_rand_len v /\ vecs n (vMEAS_LEN v) meas_rands /\ vecs n (proof_len v) proof_rands.

(** What all Aggregators except number [j] see together: their shares of
    measurement and proof, and everybody's verifier shares. *)
Definition without {A} (j : nat) (l : list A) : list A := firstn j l ++ skipn (S j) l.
Definition coalition_view (n j : nat) (meas query_rand joint_rand : list (F P)) (c : coins)
  : res (list (list (F P)) * list (list (F P)) * list (list (F P))) :=
  let '(prove_rand, meas_rands, proof_rands) := c in
  let* proof := bbcggi19_prove v meas prove_rand joint_rand in
  let* meas_shares := additive_secret_share meas meas_rands in
  let* proof_shares := additive_secret_share proof proof_rands in
  let* verifier_shares := mapM (fun '(meas_share, proof_share) =>
    bbcggi19_query v meas_share proof_share query_rand joint_rand n) (combine meas_shares proof_shares) in
  Ok (without j meas_shares, without j proof_shares, verifier_shares).
End Z.
