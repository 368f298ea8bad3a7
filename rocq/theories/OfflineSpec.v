(** Reports of a Client that shares an arbitrary vector and proves honestly.
    Nothing here models a /repo function. *)
From Verif Require Export ForgeSpec FlpTestsSpec.
Open Scope nat_scope.

(** The joint randomness of a report, from its public share alone. *)
Definition derived_joint_rand (p : Prio3) (ctx : bytes) (public : option (list bytes)) : res (list (F (p3_field p))) :=
  match public with
  | Some parts => let* seed := joint_rand_seed p ctx parts in joint_rands p ctx seed
  | None => Ok []
  end.

(** The circuit accepts the vector under the joint randomness of every proof. *)
Definition lucky {P : NttFieldClass} (v : Valid P) (proofs : nat) (vector joint_rand : list (F P)) : Prop :=
  forall k, k < proofs -> circuit_zero v vector (piece (vJOINT_RAND_LEN v) k joint_rand).

(** What the Aggregators see of it: the output of the circuit, reduced with the
    query randomness, is zero in every proof. *)
Definition passes {P : NttFieldClass} (v : Valid P) (proofs : nat) (vector joint_rand query_rand : list (F P)) : bool :=
  forallb (fun k => feqb (reduced v (output v vector (piece (vJOINT_RAND_LEN v) k joint_rand))
    (piece (query_rand_len v) k query_rand)) f0) (seq 0 proofs).
