(** Properties C08-C12: polynomial arithmetic in the Lagrange and monomial
    bases (field.py:230-444). *)
From Verif Require Import PolyProofs.
Open Scope nat_scope.

(** C08.  A vector of 2^L values has exactly one interpolant of degree < 2^L. *)
Theorem C08_interpolant_unique : forall P : NttFieldClass, NttOk P -> forall (L : nat) (p : list (F P)),
  (2 ^ Z.of_nat L <= GEN_ORDER P)%Z -> length p = 2 ^ L ->
  exists c, length c = 2 ^ L /\ evals L c = p /\
    (forall d, length d = 2 ^ L -> evals L d = p -> d = c) /\
    (forall d, length d <= 2 ^ L -> evals L d = p -> forall x, peval d x = peval c x).
Proof. exact @interpolant. Qed.
Print Assumptions C08_interpolant_unique.

(** C08.  [poly_eval_batched] and [poly_eval] return its value at every point. *)
Theorem C08_poly_eval_batched : forall P : NttFieldClass, NttOk P ->
  forall (L : nat) (polys : list (list (F P))) (x : F P),
  (2 ^ Z.of_nat L <= GEN_ORDER P)%Z -> polys <> [] -> (forall p, In p polys -> length p = 2 ^ L) ->
  exists cs, length cs = length polys /\
    (forall i, i < length polys -> length (nth i cs []) = 2 ^ L /\ evals L (nth i cs []) = nth i polys []) /\
    lag_poly_eval_batched polys x = Ok (map (fun c => peval c x) cs) /\
    forall i, i < length polys -> lag_poly_eval (nth i polys []) x = Ok (peval (nth i cs []) x).
Proof. exact @eval_batched. Qed.
Print Assumptions C08_poly_eval_batched.

(** C08.  An empty batch, mixed lengths or a length that is no power of two raise. *)
Theorem C08_poly_eval_batched_rejects : forall (P : NttFieldClass) (polys : list (list (F P))) (x : F P),
  polys = [] \/ (exists p q, In p polys /\ In q polys /\ length p <> length q) \/
  (exists p, In p polys /\ forall L, length p <> 2 ^ L) ->
  exists e, lag_poly_eval_batched polys x = Raise e.
Proof. exact @eval_batched_bad. Qed.
Print Assumptions C08_poly_eval_batched_rejects.

Example C08_example : match lag_poly_eval (map fof [5; 7; 9; 2]%Z : list (F Field64)) (fof 11) with
  | Ok r => exists c, length c = 4 /\ evals 2 c = map fof [5; 7; 9; 2]%Z /\ r = peval c (fof 11)
  | Raise _ => False end.
Proof.
  destruct (interpolant NttOk_Field64 2 (map fof [5; 7; 9; 2]%Z)) as (c & Lc & Ec & _);
    [vm_compute; discriminate | reflexivity|].
  rewrite <- Ec. rewrite (lag_poly_eval_spec NttOk_Field64 2 c (fof 11)).
  - eauto.
  - vm_compute. lia.
  - change (2 ^ 2) with 4 in *. lia.
Qed.

(** C09.  Extrapolation is exact: given the first m values of a polynomial of
    degree < m, all 2^L values come out, the first m unchanged. *)
Theorem C09_extend_values : forall P : NttFieldClass, NttOk P -> forall (L m : nat) (c : list (F P)),
  (2 ^ Z.of_nat L <= GEN_ORDER P)%Z -> m <= 2 ^ L -> length c <= m ->
  exists r, extend_values_to_power_of_2 (firstn m (evals L c)) (2 ^ L) = Ok r /\
    length r = 2 ^ L /\ firstn m r = firstn m (evals L c) /\
    forall i, i < 2 ^ L -> nth i r f0 = peval c (npow (nth_root P L) i).
Proof. exact @extend_correct. Qed.
Print Assumptions C09_extend_values.

(** C09.  Every list of at most 2^L values is of that form. *)
Theorem C09_extend_any : forall P : NttFieldClass, NttOk P -> forall (L : nat) (p : list (F P)),
  (2 ^ Z.of_nat L <= GEN_ORDER P)%Z -> length p <= 2 ^ L ->
  exists c r, length c <= length p /\ extend_values_to_power_of_2 p (2 ^ L) = Ok r /\
    length r = 2 ^ L /\ firstn (length p) r = p /\
    forall i, i < 2 ^ L -> nth i r f0 = peval c (npow (nth_root P L) i).
Proof. exact @extend_any. Qed.
Print Assumptions C09_extend_any.

Example C09_example : match extend_values_to_power_of_2 (map fof [5; 5]%Z : list (F Field64)) 4 with
  | Ok r => map val r = [5; 5; 5; 5]%Z | Raise _ => False end.
Proof. vm_compute. reflexivity. Qed.

(** C10. *)
Theorem C10_double_and_mul : forall P : NttFieldClass, NttOk P -> forall (L : nat) (c d : list (F P)),
  (2 ^ Z.of_nat (S L) <= GEN_ORDER P)%Z -> length c <= 2 ^ L -> length d <= 2 ^ L ->
  double_evaluations (evals L c) = Ok (evals (S L) c) /\
  exists r, lag_poly_mul (evals L c) (evals L d) = Ok r /\ length r = 2 ^ S L /\
    forall i, i < 2 ^ S L ->
      nth i r f0 = fmul (peval c (npow (nth_root P (S L)) i)) (peval d (npow (nth_root P (S L)) i)).
Proof. exact @double_mul. Qed.
Print Assumptions C10_double_and_mul.

Example C10_example : match lag_poly_mul (map fof [3; 3]%Z : list (F Field64)) (map fof [2; 2]%Z) with
  | Ok r => map val r = [6; 6; 6; 6]%Z | Raise _ => False end.
Proof. vm_compute. reflexivity. Qed.

(** C11.  Normal form, sum, product and evaluation of coefficient lists. *)
Theorem C11_poly_arith : forall (P : FieldClass) (p q : list (F P)),
  (exists z, p = poly_strip p ++ z /\ allzero z) /\
  (poly_strip p = [] \/ last (poly_strip p) f0 <> f0) /\
  (exists s, poly_add p q = Ok s /\ (s = [] \/ last s f0 <> f0) /\
     forall x, peval s x = fadd (peval p x) (peval q x)) /\
  (exists m, poly_mul p q = Ok m /\ (m = [] \/ last m f0 <> f0) /\
     length m <= length p + length q - 1 /\
     forall x, peval m x = fmul (peval p x) (peval q x)) /\
  (forall x, p = [] \/ ~ allzero p -> poly_eval p x = Ok (peval p x)).
Proof. exact @poly_arith. Qed.
Print Assumptions C11_poly_arith.

(** C11.  The expectation that [poly_eval] is defined on every polynomial is
    false: it raises IndexError on every non-empty all-zero coefficient list. *)
Theorem C11_poly_eval_total_refuted : forall (P : FieldClass) (n : nat) (x : F P),
  poly_eval (repeat f0 (S n)) x = Raise IndexError.
Proof. exact (fun P n x => poly_eval_zero (repeat f0 (S n)) x ltac:(discriminate) (allzero_repeat (S n))). Qed.
Print Assumptions C11_poly_eval_total_refuted.

Example C11_example : match poly_mul (map fof [1; 1; 0]%Z : list (F Field64)) (map fof [1; -1]%Z) with
  | Ok r => map val r = [1; 0; MODULUS Field64 - 1]%Z | Raise _ => False end.
Proof. vm_compute. reflexivity. Qed.

(** C12. *)
Theorem C12_poly_interp : forall (P : FieldClass) (xs ys : list (F P)),
  prime (MODULUS P) -> length xs = length ys -> xs <> [] -> NoDup xs ->
  exists c, poly_interp xs ys = Ok c /\ length c <= length xs /\
    (forall i, i < length xs -> peval c (nth i xs f0) = nth i ys f0) /\
    (forall d, length d <= length xs ->
       (forall i, i < length xs -> peval d (nth i xs f0) = nth i ys f0) ->
       forall x, peval d x = peval c x).
Proof. exact @interp_correct. Qed.
Print Assumptions C12_poly_interp.

Theorem C12_poly_interp_rejects : forall (P : FieldClass) (xs ys : list (F P)),
  (length xs <> length ys -> poly_interp xs ys = Raise AssertionError) /\
  (length xs = length ys -> xs = [] -> poly_interp xs ys = Raise IndexError).
Proof. exact @interp_bad. Qed.
Print Assumptions C12_poly_interp_rejects.

Example C12_example : match poly_interp (map fof [1; 2; 3]%Z : list (F Field64)) (map fof [1; 4; 9]%Z) with
  | Ok r => map val r = [0; 0; 1]%Z | Raise _ => False end.
Proof. vm_compute. reflexivity. Qed.
