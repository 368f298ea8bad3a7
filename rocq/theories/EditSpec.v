(** Vocabulary for the edits by which gen_test_vec.py makes reports invalid.  Nothing
    here models a /repo function. *)
From Verif Require Export NegVectors.
Open Scope nat_scope.

Definition byte_bits (x : Byte.byte) : list bool := map (fun i => Z.testbit (b2z x) (Z.of_nat i)) (seq 0 8).
Definition string_bits (b : bytes) : list bool := flat_map byte_bits b.

(** Two strings of equal length that differ in one bit. *)
Definition one_bit (b c : bytes) : Prop :=
  length b = length c /\ length (filter (fun '(x, y) => xorb x y) (combine (string_bits b) (string_bits c))) = 1.

(** Element [i] is increased by one, the others are the same. *)
Definition one_more {P : FieldClass} (i : nat) (l l' : list (F P)) : Prop :=
  i < length l /\ length l = length l' /\
  forall k, nth k l' f0 = if k =? i then fadd (nth k l f0) (fof 1) else nth k l f0.

(** What a test vector records of the input of the Aggregators. *)
Definition recorded {M R} (tv : test_vec M R) :=
  (tv_verify_key tv, tv_ctx tv, map (fun r => (rv_nonce r, rv_rand r, rv_public_share r, rv_input_shares r)) (tv_reports tv)).
