(** Vocabulary for the properties of Shamir secret sharing.  Nothing here models
    a /repo function. *)
From Verif Require Export Shamir Spec.
Open Scope nat_scope.

Section ShS.
Context {P : FieldClass}.
Notation F := (F P).

(** The point share [j] is the value at. *)
Definition pt (j : nat) : F := fof (Z.of_nat (j + 1)).

(** Share [j] of a vector of polynomials, given by their coefficients. *)
Definition share_of (polys : list (list F)) (j : nat) : list F := map (fun c => peval c (pt j)) polys.

(** The polynomials of a sharing: the secrets are the constant coefficients. *)
Definition polys_of (meas : list F) (rand : list (list F)) : list (list F) := map (fun x => fst x :: snd x) (combine meas rand).

(** The shares with the given indices. *)
Definition select (shares : list (list F)) (index : list nat) : list (list F) := map (fun j => nth j shares []) index.

(** The polynomial is not zero, or only one share is used. *)
Definition unshard_ok (index : list nat) (c : list F) : bool := (length index =? 1) || existsb (fun a => negb (feqb a f0)) c.

(** The sum of vectors of [n] polynomials with [t] coefficients. *)
Definition poly_sum (n t : nat) (l : list (list (list F))) : list (list F) :=
  map (fun i => vsum t (map (fun polys => nth i polys []) l)) (seq 0 n).

(** Some component is zero in all of the vectors. *)
Definition zero_component (len : nat) (vs : list (list F)) : bool :=
  existsb (fun i => forallb (fun s => feqb (nth i s f0) f0) vs) (seq 0 len).
End ShS.
