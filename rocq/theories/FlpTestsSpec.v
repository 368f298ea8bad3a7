(** Vocabulary for the tests of the FLPs.  Nothing here models a /repo function. *)
From Verif Require Export FlpTests FlpSpec Spec.
Open Scope nat_scope.

(** [rand_vec] returns a vector of the length asked for. *)
Definition draw_ok {P : FieldClass} (d : draw P) : Prop := forall k n, length (d k n) = n.

(** The circuit output, and the value that query() checks to be zero: the output
    itself or its combination with the first elements of the query randomness. *)
Definition output {P : NttFieldClass} (v : Valid P) (meas joint_rand : list (F P)) : list (F P) :=
  match valid_eval_plain v meas joint_rand 1 with Ok out => out | Raise _ => [] end.
Definition reduced {P : NttFieldClass} (v : Valid P) (out query_rand : list (F P)) : F P :=
  if 1 <? EVAL_OUTPUT_LEN v then fsum (EVAL_OUTPUT_LEN v) (fun i => fmul (nth i query_rand f0) (nth i out f0)) else nth 0 out f0.
Definition all_zero {P : FieldClass} (out : list (F P)) : bool := forallb (fun x => feqb x f0) out.
Definition points_ok {P : NttFieldClass} (v : Valid P) (query_rand : list (F P)) : bool :=
  forallb (fun i => negb (feqb (npow (test_point v query_rand i) (wire_poly_len (nth i (GADGET_CALLS v) 0))) f1)) (seq 0 (length (GADGETS v))).

(** The outcome of one case. *)
Definition case_outcome {P : NttFieldClass} (v : Valid P) (meas : list (F P)) (expected : bool) (rand : draw P) : res unit :=
  let zero := all_zero (output v meas (rand 0 (vJOINT_RAND_LEN v))) in
  let query_rand := rand 3 (query_rand_len v) in
  let decision := feqb (reduced v (output v meas (rand 1 (vJOINT_RAND_LEN v))) query_rand) f0 in
  if negb (Bool.eqb zero expected) then Raise AssertionError
  else if negb (points_ok v query_rand) then Raise (ValueError "test point is a root of unity")
  else if negb (Bool.eqb decision expected) then Raise AssertionError
  else Ok tt.

(** A case labelled False is caught: neither the plain evaluation nor the honest
    proof of the vector is accepted. *)
Definition caught {P : NttFieldClass} (v : Valid P) (meas : list (F P)) (rand : draw P) : Prop :=
  all_zero (output v meas (rand 0 (vJOINT_RAND_LEN v))) = false /\
  reduced v (output v meas (rand 1 (vJOINT_RAND_LEN v))) (rand 3 (query_rand_len v)) <> f0.
Definition points {P : NttFieldClass} (v : Valid P) (rand : draw P) : Prop := points_ok v (rand 3 (query_rand_len v)) = true.
Definition case_passes {P : NttFieldClass} (v : Valid P) (c : list (F P) * bool) (rand : draw P) : Prop :=
  points v rand /\ (snd c = false -> caught v (fst c) rand).

(** The tests label [nt] vectors True and then the vectors [bad] False.  The test
    passes exactly if no test point is a root of unity and every vector labelled
    False is caught; otherwise it fails for one of these two reasons. *)
Definition suite {P : NttFieldClass} (v : Valid P) (t : res unit) (nt : nat) (bad : list (list (F P))) (draws : nat -> draw P) : Prop :=
  let good_points := forall k, k < nt + length bad -> points v (draws k) in
  let all_caught := forall j m, nth_error bad j = Some m -> caught v m (draws (nt + j)) in
  (t = Ok tt <-> good_points /\ all_caught) /\
  (t = Ok tt \/ (t = Raise AssertionError /\ ~ all_caught) \/
   (t = Raise (ValueError "test point is a root of unity") /\ ~ good_points)).

Definition draws_ok {P : FieldClass} (d : (nat -> F P * draw P) * (nat -> draw P)) : Prop :=
  (forall i, draw_ok (snd (fst d i))) /\ (forall k, draw_ok (snd d k)).

(** The vectors labelled False in the tests of MultihotCountVec. *)
Definition too_many_ints (len mw : nat) : list (list Z) :=
  map (fun i => repeat 1%Z i ++ repeat 0%Z (len - i) ++ repeat 1%Z (Multihot_bits mw)) (range (mw + 1) (len + 1)).
Definition not_bits_ints (len mw : nat) : list Z := [-1; 1]%Z ++ repeat 0%Z (len - 2 + Multihot_bits mw).
