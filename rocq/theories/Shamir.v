(** Model of the functions of /repo/poc/example_flp_shamir.py. *)
From Verif Require Export Poly.
Open Scope nat_scope.

(** example_flp_shamir.py:25-61 [shamir_shard].  [rand] is the list of the results
    of [field.rand_vec(unshard_threshold-1)], the only use of the threshold. *)
Definition shamir_shard {P} (meas : list (F P)) (rand : list (list (F P))) (num_shares : nat) : res (list (list (F P))) :=
  let meas_shares := map (fun _ => fzeros (length meas)) (range 0 num_shares) in
  for_range 0 (length meas) meas_shares (fun meas_shares i =>
    let* m := get meas i in
    let* r := get rand i in
    let coeffs := [m] ++ r in
    for_range 0 num_shares meas_shares (fun meas_shares j =>
      let* f := foldM (fun f '(k, c) =>
        let* x := field_init (Z.of_nat (j + 1)) in
        Ok (fadd f (fmul c (fpow x (N.of_nat k))))) (enumerate coeffs) f0 in
      let* row := get meas_shares j in
      let* row := set row i f in
      set meas_shares j row)).

(** example_flp_shamir.py:64-84 [shamir_unshard] *)
Definition shamir_unshard {P} (index : list Z) (meas_shares : list (list (F P))) : res (list (F P)) :=
  let* first := get meas_shares 0 in
  let meas_len := length first in
  for_range 0 meas_len [] (fun meas i =>
    let* (xs, fs) := foldM (fun '(xs, fs) '(j, share) =>
      let* x := field_init (j + 1) in
      let* f := get share i in
      Ok (xs ++ [x], fs ++ [f])) (combine index meas_shares) ([], []) in
    let* coeffs := poly_interp xs fs in
    let* c := get coeffs 0 in
    Ok (meas ++ [c])).
