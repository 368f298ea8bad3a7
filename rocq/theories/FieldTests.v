(** Model of /repo/poc/tests/test_field.py.  The values drawn by [rand_vec] and
    [random.randrange] are arguments; the methods of unittest.TestCase raise
    AssertionError. *)
From Verif Require Export Poly.
Open Scope nat_scope.

(** [assertTrue(b)] and [assertFalse(b)] of unittest. *)
Definition assert_true (b : bool) : res unit := check b AssertionError.
Definition assert_false (b : bool) : res unit := check (negb b) AssertionError.

(** [x == y] for lists of field elements: the lengths agree and so do the
    elements (field.py:88-91). *)
Fixpoint vec_eqb {P : FieldClass} (x y : list (F P)) : bool :=
  match x, y with
  | [], [] => true
  | a :: x, b :: y => feqb a b && vec_eqb x y
  | _, _ => false
  end.

(** test_field.py:10-36; [vec], [x], [y] and [want] are the random values. *)
Definition run_field_test (P : FieldClass) (vec : list (F P)) (x y : Z) (want : list (F P)) : res unit :=
  let* e := field_init (P := P) 1337 in
  let* _ := assert_true (fint e =? 1337)%Z in
  let zeros : list (F P) := fzeros 23 in
  let* _ := assert_true (length zeros =? 23) in
  let* _ := foldM (fun _ x => assert_true (fint x =? 0)%Z) zeros tt in
  let* _ := assert_true (length vec =? 23) in
  let* x := field_init (P := P) x in
  let* y := field_init (P := P) y in
  let* e := field_init ((fint x + fint y) mod MODULUS P) in
  let* _ := assert_true (feqb (fadd x y) e) in
  let* e := field_init ((fint x - fint y) mod MODULUS P) in
  let* _ := assert_true (feqb (fsub x y) e) in
  let* e := field_init ((- fint x) mod MODULUS P) in
  let* _ := assert_true (feqb (fneg x) e) in
  let* e := field_init ((fint x * fint y) mod MODULUS P) in
  let* _ := assert_true (feqb (fmul x y) e) in
  let* e := field_init 1 in
  let* _ := assert_true (feqb (fmul (finv x) x) e) in
  let* encoded := encode_vec want in
  let* got := decode_vec encoded in
  assert_true (vec_eqb got want).

(** test_field.py:49-57 *)
Definition run_nth_roots_test (P : NttFieldClass) (log_n : nat) : res unit :=
  let* one := field_init (P := P) 1 in
  let* _ := assert_true (feqb (nth_root P 0) one) in
  let* _ := assert_true (feqb (fpow (nth_root P log_n) (N.of_nat (Nat.shiftl 1 log_n))) one) in
  for_range 0 log_n tt (fun _ log_k =>
    assert_false (feqb (fpow (nth_root P log_n) (N.of_nat (Nat.shiftl 1 log_k))) one)).

(** test_field.py:59-68; [p_mon] is the random polynomial. *)
Definition run_ntt_test (P : NttFieldClass) (log_n : nat) (p_mon : list (F P)) : res unit :=
  let n := Nat.shiftl 1 log_n in
  let* got := ntt p_mon n false in
  let p_mon := ntt_arg p_mon n in
  let root := nth_root P log_n in
  let* want := mapM (fun i => poly_eval p_mon (fpow root (N.of_nat i))) (range 0 n) in
  assert_true (vec_eqb got want).

(** test_field.py:70-82 *)
Definition run_ntt_set_s_test (P : NttFieldClass) (log_n : nat) (p_mon : list (F P)) : res unit :=
  let n := Nat.shiftl 1 log_n in
  let root_n := nth_root P log_n in
  let root_2n := nth_root P (log_n + 1) in
  let* want := mapM (fun i => poly_eval p_mon (fmul root_2n (fpow root_n (N.of_nat i)))) (range 0 n) in
  let* got := ntt p_mon n true in
  assert_true (vec_eqb got want).

(** test_field.py:38-47; [ps log_n] and [qs log_n] are the polynomials drawn by
    the two NTT tests. *)
Definition run_ntt_field_test (P : NttFieldClass) (vec : list (F P)) (x y : Z) (want : list (F P))
  (ps qs : nat -> list (F P)) : res unit :=
  let* _ := run_field_test P vec x y want in
  let* one := field_init (P := P) 1 in
  let* _ := assert_true (feqb (fpow (gen P) (Z.to_N (GEN_ORDER P))) one) in
  for_range 0 8 tt (fun _ log_n =>
    let* _ := run_nth_roots_test P log_n in
    let* _ := run_ntt_test P log_n (ps log_n) in
    run_ntt_set_s_test P log_n (qs log_n)).

(** test_field.py:100-110 *)
Definition test_interp (P : NttFieldClass) (p : list (F P)) : res unit :=
  let* xs := mapM (fun x => field_init (P := P) (Z.of_nat x)) (range 0 10) in
  let* ys := mapM (poly_eval p) xs in
  let* q := poly_interp xs ys in
  foldM (fun _ x =>
    let* a := poly_eval p x in
    let* b := poly_eval q x in
    assert_true (feqb a b)) xs tt.

(** test_field.py:112-132; [batch] are the four polynomials drawn,
    [random_values] the points. *)
Definition test_poly_eval_lagrange (P : NttFieldClass) (batch : list (list (F P))) (random_values : list (F P)) : res unit :=
  let n := 16 in
  let* p_lag_batch := mapM (fun p_mon => ntt p_mon n false) batch in
  let p_mon_batch := map (fun p_mon => ntt_arg p_mon n) batch in
  let* nodes := nth_root_powers P n in
  foldM (fun _ points =>
    foldM (fun _ x =>
      let* a := mapM (fun p => poly_eval p x) p_mon_batch in
      let* b := lag_poly_eval_batched p_lag_batch x in
      assert_true (vec_eqb a b)) points tt) [nodes; random_values] tt.

(** test_field.py:134-140; [ps log_n] is the polynomial drawn. *)
Definition test_poly_change_basis (P : NttFieldClass) (ps : nat -> list (F P)) : res unit :=
  for_range 0 8 tt (fun _ log_n =>
    let n := Nat.shiftl 1 log_n in
    let* p_lag := ntt (ps log_n) n false in
    let p_mon := ntt_arg (ps log_n) n in
    let* got := inv_ntt p_lag n in
    assert_true (vec_eqb got p_mon)).

(** test_field.py:142-155 *)
Definition test_poly_mul_lagrange (P : NttFieldClass) (ps qs : nat -> list (F P)) : res unit :=
  for_range 0 8 tt (fun _ log_n =>
    let n := Nat.shiftl 1 log_n in
    let* p_lag := ntt (ps log_n) n false in
    let p_mon := ntt_arg (ps log_n) n in
    let* q_lag := ntt (qs log_n) n false in
    let q_mon := ntt_arg (qs log_n) n in
    let* got := lag_poly_mul p_lag q_lag in
    let* r_mon := poly_mul p_mon q_mon in
    let* want := ntt r_mon (2 * n) false in
    assert_true (vec_eqb got want)).

(** test_field.py:157-175; [ps log_n k] is the vector of [k] elements drawn. *)
Definition test_extend_values_to_power_of_2 (P : NttFieldClass) (ps : nat -> nat -> list (F P)) : res unit :=
  for_range 0 7 tt (fun _ log_n =>
    let n := Nat.shiftl 1 log_n in
    for_range 0 (n + 1) tt (fun _ k =>
      let p_mon := ps log_n k ++ repeat f0 (n - k) in
      let* p_lag := ntt p_mon n false in
      let p_lag_truncated := firstn k p_lag in
      let* p_lag_truncated := extend_values_to_power_of_2 p_lag_truncated n in
      assert_true (vec_eqb p_lag_truncated p_lag))).

(** test_field.py:177-193 *)
Definition test_double_evaluations (P : NttFieldClass) (ps : nat -> list (F P)) : res unit :=
  for_range 0 8 tt (fun _ log_n =>
    let n := Nat.shiftl 1 log_n in
    let* p_lag_n := ntt (ps log_n) n false in
    let p_mon := ntt_arg (ps log_n) n in
    let* got := double_evaluations p_lag_n in
    let* want := ntt p_mon (2 * n) false in
    assert_true (vec_eqb got want)).
