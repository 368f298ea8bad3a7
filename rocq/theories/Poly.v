(** Model of /repo/poc/vdaf_poc/field.py:230-444 (monomial-basis polynomial
    arithmetic and class [Lagrange]). *)
From Verif Require Export Field.
Open Scope Z_scope.

(** field.py:230-235: drop trailing zero coefficients ("leading zeros").  The
    loop walks indices downwards and returns [p[:i+1]] at the first non-zero. *)
Fixpoint poly_strip_loop {P} (i : nat) (p : list (F P)) : list (F P) :=
  match i with
  | O => []
  | S i' =>
    match nth_error p i' with
    | Some c => if negb (feqb c f0) then firstn (S i') p else poly_strip_loop i' p
    | None => poly_strip_loop i' p
    end
  end.
Definition poly_strip {P} (p : list (F P)) : list (F P) := poly_strip_loop (length p) p.

(** field.py:238-244 *)
Definition poly_mul {P} (p q : list (F P)) : res (list (F P)) :=
  let r0 := repeat f0 (length p + length q - 1) in
  let* r := for_range 0 (length p) r0 (fun r i =>
    for_range 0 (length q) r (fun r j =>
      let* pi := get p i in
      let* qj := get q j in
      let* old := get r (i + j) in
      set r (i + j) (fadd old (fmul pi qj)))) in
  Ok (poly_strip r).

(** [enumerate(l)] *)
Definition enumerate {A} (l : list A) : list (nat * A) := combine (seq 0 (length l)) l.

(** field.py:247-254 *)
Definition poly_add {P} (p q : list (F P)) : res (list (F P)) :=
  let r0 := fzeros (Nat.max (length p) (length q)) in
  let* r1 := foldM (fun r '(i, p_i) => set r i p_i) (enumerate p) r0 in
  let* r2 := foldM (fun r '(i, q_i) =>
    let* old := get r i in set r i (fadd old q_i)) (enumerate q) r1 in
  Ok (poly_strip r2).

(** field.py:257-268.  [p[-1]] raises IndexError if the stripped list is empty. *)
Definition poly_eval {P} (p : list (F P)) (eval_at : F P) : res (F P) :=
  if (length p =? 0)%nat then Ok f0
  else
    let p := poly_strip p in
    let* result := get_last p in
    Ok (fold_left (fun result c => fadd (fmul result eval_at) c)
                  (rev (removelast p)) result).

(** field.py:324-349, one iteration [i] of the outer loop of [poly_interp]; the
    state is (previous_basis_polynomial, previous_divided_differences, output). *)
Definition poly_interp_step {P} (xs : list (F P))
  (st : list (F P) * list (F P) * list (F P)) (i : nat)
  : res (list (F P) * list (F P) * list (F P)) :=
  let '(basis, dd, output) := st in
  let* x := get xs (i - 1) in
  let* next_basis := poly_mul basis [fneg x; f1] in
  let* next_dd := foldM (fun acc k =>
    let* a := get dd k in
    let* b := get dd (k + 1) in
    let* xk := get xs k in
    let* xki := get xs (k + i) in
    Ok (acc ++ [fmul (fsub a b) (finv (fsub xk xki))]))
    (range 0 (length dd - 1)) [] in
  let* d0 := get next_dd 0 in
  let* term := poly_mul [d0] next_basis in
  let* output' := poly_add output term in
  Ok (next_basis, next_dd, output').

(** field.py:271-351 *)
Definition poly_interp {P} (xs ys : list (F P)) : res (list (F P)) :=
  if (length xs =? length ys)%nat then
    let n := length xs in
    let* y0 := get ys 0 in
    let* (_, _, output) := for_range 1 n ([f1], ys, [y0]) (poly_interp_step xs) in
    Ok output
  else Raise AssertionError.

(** ** class [Lagrange], field.py:354-444 *)

(** field.py:433-444.  The result interleaves [even] and [odd]. *)
Definition double_evaluations {P : NttFieldClass} (p : list (F P)) : res (list (F P)) :=
  let n := length p in
  let* _ := assert_power_of_2 (Z.of_nat n) in
  let even := p in
  let* mon := inv_ntt even n in
  let* odd := ntt mon n true in
  Ok (concat (map (fun '(e, o) => [e; o]) (combine even odd))).

(** field.py:360-371 *)
Definition lag_poly_mul {P : NttFieldClass} (p q : list (F P)) : res (list (F P)) :=
  let n := length p in
  let* _ := assert_power_of_2 (Z.of_nat n) in
  let* _ := check (length p =? length q)%nat AssertionError in
  let* p_2n := double_evaluations p in
  let* q_2n := double_evaluations q in
  Ok (zip_with fmul p_2n q_2n).

(** field.py:390-397, one iteration [i]; state (k, u, d). *)
Definition batched_step {P : NttFieldClass} (nodes : list (F P)) (polys : list (list (F P)))
  (x : F P) (st : F P * list (F P) * F P) (i : nat) : res (F P * list (F P) * F P) :=
  let '(k, u, d) := st in
  let k := fmul k d in
  let* node := get nodes i in
  let d := fsub node x in
  let t := fmul k node in
  let* u := foldM (fun u '(j, p) =>
    let* uj := get u j in
    let uj := fmul uj d in
    if (i <? length p)%nat then
      let* pi := get p i in
      set u j (fadd uj (fmul t pi))
    else set u j uj) (enumerate polys) u in
  Ok (k, u, d).

(** field.py:377-402.  The first assertion says that the set of lengths is a
    singleton. *)
Definition lag_poly_eval_batched {P : NttFieldClass} (polys : list (list (F P))) (x : F P)
  : res (list (F P)) :=
  match polys with
  | [] => Raise AssertionError
  | p0 :: _ =>
    let* _ := check (forallb (fun p => length p =? length p0)%nat polys) AssertionError in
    let n := length p0 in
    let* _ := assert_power_of_2 (Z.of_nat n) in
    let* nodes := nth_root_powers P n in
    let* u := mapM (fun p => get p 0) polys in
    let* node0 := get nodes 0 in
    let d := fsub node0 x in
    let* (_, u, _) := for_range 1 n (f1, u, d) (batched_step nodes polys x) in
    let* fn := field_init (Z.of_nat n) in
    let factor := fmul (fpow (fof (-1)) (N.of_nat (n - 1))) (finv fn) in
    Ok (map (fun e => fmul e factor) u)
  end.

(** field.py:373-375 *)
Definition lag_poly_eval {P : NttFieldClass} (p : list (F P)) (x : F P) : res (F P) :=
  let* r := lag_poly_eval_batched [p] x in
  get_last r.

(** [prod(l, start=field(1))] *)
Definition fprod {P} (l : list (F P)) : F P := fold_left fmul l f1.

(** field.py:420-431, one iteration [k] of the outer loop; state (p, w). *)
Definition extend_step {P : NttFieldClass} (x : list (F P))
  (st : list (F P) * list (F P)) (k : nat) : res (list (F P) * list (F P)) :=
  let '(p, w) := st in
  let* w := for_range 0 k w (fun w i =>
    let* wi := get w i in
    let* xi := get x i in
    let* xk := get x k in
    set w i (fmul wi (fsub xi xk))) in
  let* (y_num, y_den) := foldM (fun '(y_num, y_den) '(i, v) =>
    let* wi := get w i in
    Ok (fadd (fmul y_num wi) (fmul y_den v), fmul y_den wi)) (enumerate p) (f0, f1) in
  let* xk := get x k in
  let* diff := mapM (fun j => let* xj := get x j in Ok (fsub xk xj)) (range 0 k) in
  let wk := fprod diff in
  let* w := set w k wk in
  Ok (p ++ [fmul (fmul (fneg wk) y_num) (finv y_den)], w).

(** field.py:404-431; returns the new contents of the list [p] that the code
    extends in place. *)
Definition extend_values_to_power_of_2 {P : NttFieldClass} (p : list (F P)) (n : nat)
  : res (list (F P)) :=
  let* _ := assert_power_of_2 (Z.of_nat n) in
  let* _ := check (length p <=? n)%nat AssertionError in
  let* x := nth_root_powers P n in
  let* w := for_range 0 (length p) (repeat f0 n) (fun w i =>
    let* xi := get x i in
    let* diff := mapM (fun j => let* xj := get x j in Ok (fsub xi xj))
                      (filter (fun j => negb (i =? j)%nat) (range 0 (length p))) in
    set w i (fprod diff)) in
  let* (p, _) := for_range (length p) n (p, w) (extend_step x) in
  Ok p.
