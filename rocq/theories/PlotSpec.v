(** Vocabulary for the soundness estimates.  Nothing here models a /repo function. *)
From Verif Require Export Plot.
Open Scope Q_scope.

(** The number of calls of a gadget after padding: the least number not below
    [calls] that is one less than a power of two. *)
Definition padded (calls : nat) : nat := (wire_poly_len calls - 1)%nat.

(** The estimate of Plot.v for the padded numbers of calls. *)
Definition padded_soundness {P : NttFieldClass} (v : Valid P) : Q :=
  fold_right Qplus 0
    (map (fun '(g, c) => inject_Z (Z.of_nat (padded c * DEGREE g)) / inject_Z (MODULUS P - Z.of_nat (padded c)))
       (combine (GADGETS v) (GADGET_CALLS v))).

(** A circuit with gadgets, each of degree at least 1 and called less often than
    there are field elements. *)
Definition plottable {P : NttFieldClass} (v : Valid P) : Prop :=
  GADGETS v <> [] /\ Forall (fun g => 1 <= DEGREE g)%nat (GADGETS v) /\
  Forall (fun c => Z.of_nat (padded c) < MODULUS P)%Z (GADGET_CALLS v).
