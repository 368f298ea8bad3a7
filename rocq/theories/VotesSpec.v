(** Vocabulary for C96: what a Client of Poplar1 can make the counts of the levels
    be.  Nothing here models a /repo function. *)
From Verif Require Export Poplar1Spec ForgeSpec.
Open Scope nat_scope.

(** The counts of a report that, at every level, either votes for the prefix of
    [m] or for nothing, as [votes] says. *)
Definition vote_counts (votes : nat -> bool) (level : nat) (m : list bool) (prefixes : list (list bool)) : list Z :=
  map (fun x => if list_eq_dec Bool.bool_dec x (firstn (S level) m) then (if votes level then 1 else 0) else 0)%Z prefixes.

(** The counts of the prefixes in a collection of strings. *)
Definition true_counts (strings : list (list bool)) (prefixes : list (list bool)) : list Z :=
  map (fun x => Z.of_nat (count_prefix x strings)) prefixes.
