(** Vocabulary for what the heavy hitters protocol reveals.  Nothing here models a
    /repo function. *)
From Verif Require Export HeavySpec.
Open Scope nat_scope.

(** [y] is in the prefix tree: it extends by one bit a string with which at least
    [T] of the strings start, or has one bit. *)
Definition in_tree (T : Z) (bits : nat) (strings : list (list bool)) (y : list bool) : Prop :=
  1 <= length y <= bits /\ (length y = 1 \/ (T <= Z.of_nat (count_prefix (firstn (length y - 1) y) strings))%Z).

(** What the Collector sees: the aggregation parameters and the answers. *)
Definition seen (query : Poplar1AggParam -> res (list Z)) (history : list Poplar1AggParam) : list (Poplar1AggParam * res (list Z)) :=
  map (fun ap => (ap, query ap)) history.
