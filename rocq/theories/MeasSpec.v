(** Vocabulary for the validity circuits.  Nothing here models a /repo function. *)
From Verif Require Export Circuits CircuitSpec.
Open Scope nat_scope.

(** The circuit output is all-zero, for every joint randomness. *)
Definition accepts {P : NttFieldClass} (v : Valid P) (meas : list (F P)) : Prop :=
  forall joint_rand, length joint_rand = vJOINT_RAND_LEN v ->
    exists out, valid_eval_plain v meas joint_rand 1 = Ok out /\ allzero out.
(** The circuit output is all-zero, for this joint randomness. *)
Definition accepts_with {P : NttFieldClass} (v : Valid P) (meas joint_rand : list (F P)) : Prop :=
  length joint_rand = vJOINT_RAND_LEN v /\ exists out, valid_eval_plain v meas joint_rand 1 = Ok out /\ allzero out.

(** Weight of entry [l] of an encoding for [max]: powers of two, except the
    last, which makes the weights add up to [max]. *)
Definition rc_weight (max : Z) (l : nat) : Z :=
  (if (S l <? bit_length max)%nat then 2 ^ Z.of_nat l
   else max - (2 ^ Z.of_nat (bit_length max - 1) - 1))%Z.
(** The integer denoted by a 0/1 vector. *)
Definition rc_int {P : FieldClass} (max : Z) (e : list (F P)) : Z :=
  zsum (bit_length max) (fun l => rc_weight max l * val (nth l e f0))%Z.

(** A measurement of 0/1 entries whose reported weight is its weight. *)
Definition multihot_valid {P : NttFieldClass} (len mw : nat) (meas : list (F P)) : Prop :=
  Forall is_bit meas /\ zsuml (map val (firstn len meas)) = rc_int (Z.of_nat mw) (skipn len meas).

(** A circuit returned by one of the constructors, over a field with enough
    roots of unity. *)
Inductive std_circuit (P : NttFieldClass) : Valid P -> Prop :=
| std_Count : fits P Mul 1 -> std_circuit P (Count P)
| std_Histogram length chunk_length v :
    Histogram_init P length chunk_length = Ok v ->
    fits P (ParallelSum Mul (Z.to_nat chunk_length)) (Histogram_calls (Z.to_nat length) (Z.to_nat chunk_length)) ->
    std_circuit P v
| std_MultihotCountVec length max_weight chunk_length v :
    MultihotCountVec_init P length max_weight chunk_length = Ok v ->
    fits P (ParallelSum Mul (Z.to_nat chunk_length))
           (Multihot_calls (Z.to_nat length) (Z.to_nat max_weight) (Z.to_nat chunk_length)) ->
    std_circuit P v
| std_SumVec length max_measurement chunk_length v :
    SumVec_init P length max_measurement chunk_length = Ok v ->
    fits P (ParallelSum Mul (Z.to_nat chunk_length))
           (SumVec_calls (Z.to_nat length) (bit_length max_measurement) (Z.to_nat chunk_length)) ->
    std_circuit P v
| std_Sum max_measurement v :
    Sum_init P max_measurement = Ok v -> (0 < max_measurement)%Z ->
    fits P (Sum_gadget (bit_length max_measurement)) (bit_length max_measurement) ->
    std_circuit P v.

