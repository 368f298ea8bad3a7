(** Small mathematical vocabulary in which the properties are stated.  Nothing
    here models a /repo function. *)
From Coq Require Export Znumtheory.
From Verif Require Export Field.
Open Scope Z_scope.

(** Sum of [f 0 .. f (n-1)] over the integers. *)
Fixpoint zsum (n : nat) (f : nat -> Z) : Z :=
  match n with O => 0 | S m => zsum m f + f m end.

(** Sum and product of [f 0 .. f (n-1)] in a field class. *)
Fixpoint fsum {P} (n : nat) (f : nat -> F P) : F P :=
  match n with O => f0 | S m => fadd (fsum m f) (f m) end.
Fixpoint fprodn {P} (n : nat) (f : nat -> F P) : F P :=
  match n with O => f1 | S m => fmul (fprodn m f) (f m) end.
(** Sum of a list. *)
Definition fsuml {P} (l : list (F P)) : F P := fold_right fadd f0 l.

(** [x] to the power [n]. *)
Definition npow {P} (x : F P) (n : nat) : F P := fpow x (N.of_nat n).

(** Value at [x] of the polynomial with coefficient list [c], lowest degree first. *)
Fixpoint peval {P} (c : list (F P)) (x : F P) : F P :=
  match c with
  | [] => f0
  | a :: c' => fadd a (fmul x (peval c' x))
  end.

Definition allzero {P} (c : list (F P)) : Prop := Forall (fun a => a = f0) c.

(** [x] is a primitive [n]-th root of unity. *)
Definition primitive_root {P} (x : F P) (n : nat) : Prop :=
  npow x n = f1 /\ forall i, (0 < i < n)%nat -> npow x i <> f1.

(** Values of the polynomial [c] at the 2^L-th roots of unity 1, w, w^2, ... *)
Definition evals {P : NttFieldClass} (L : nat) (c : list (F P)) : list (F P) :=
  map (fun i => peval c (npow (nth_root P L) i)) (seq 0 (2 ^ L)).

(** Component-wise sum of vectors of length [n]. *)
Definition vsum {P} (n : nat) (l : list (list (F P))) : list (F P) :=
  map (fun i => fsuml (map (fun v => nth i v f0) l)) (seq 0 n).

(** The fields in which elements can be encoded. *)
Definition wf_field (P : FieldClass) : Prop :=
  (0 < ENCODED_SIZE P)%nat /\ MODULUS P <= 2 ^ (8 * Z.of_nat (ENCODED_SIZE P)).

(** log2 of the order of the roots of unity. *)
Definition gen_log (P : NttFieldClass) : nat := Z.to_nat (Z.log2 (GEN_ORDER P)).

(** What a class deriving from [NttField] must satisfy: [gen()] has order
    exactly [GEN_ORDER], a power of two. *)
Record NttOk (P : NttFieldClass) : Prop := {
  ntt_prime : prime (MODULUS P);
  ntt_log_pos : (0 < gen_log P)%nat;
  ntt_order : GEN_ORDER P = 2 ^ Z.of_nat (gen_log P);
  ntt_odd : 2 < MODULUS P;
  ntt_gen : fpow (gen P) (Z.to_N (2 ^ (Z.of_nat (gen_log P) - 1))) = fneg f1;
}.

(** Vectors of zeros and ones. *)
Definition is_bit {P : FieldClass} (x : F P) : Prop := x = f0 \/ x = f1.
Definition onehot {P : FieldClass} (len m : nat) : list (F P) :=
  map (fun i => if (i =? m)%nat then f1 else f0) (seq 0 len).
Definition bool_vec {P : FieldClass} (bs : list bool) : list (F P) := map (fun b : bool => if b then f1 else f0) bs.

(** Sum of a list of integers; number of true entries. *)
Definition zsuml (l : list Z) : Z := fold_right Z.add 0%Z l.
Definition weight (bs : list bool) : Z := zsuml (map (fun b : bool => if b then 1%Z else 0%Z) bs).
(** Sums of the columns of a list of integer vectors. *)
Definition col_totals (len : nat) (vs : list (list Z)) : list Z :=
  map (fun i => zsuml (map (fun v => nth i v 0%Z) vs)) (seq 0 len).
