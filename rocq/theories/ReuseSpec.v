(** Vocabulary for what the Aggregators learn when they verify the same report
    more than once.  Nothing here models a /repo function. *)
From Verif Require Export Prio3 Prio3Spec FlpSpec Poplar1CorrSpec.
Open Scope nat_scope.

(** The verifier shares that the Aggregators exchange under the verification key
    [key] add up to [total]. *)
Definition exchanged (p : Prio3) (key ctx nonce : bytes) (public : option (list bytes)) (iss : list (Prio3InputShare (p3_field p)))
  (total : list (F (p3_field p))) : Prop :=
  exists st ver, length ver = p3_SHARES p /\
    (forall j d, j < p3_SHARES p -> p3_verify_init p key ctx j tt nonce public (nth j iss d) = Ok (st j, nth j ver ([], None))) /\
    vsum (VERIFIER_LEN (p3_flp p) * p3_PROOFS p) (map fst ver) = total.

(** The test point of the first gadget of the [k]-th proof, for the query
    randomness [rands] of all proofs. *)
Definition point_of {P : NttFieldClass} (v : Valid P) (k : nat) (rands : res (list (F P))) : F P :=
  match rands with
  | Ok qr => test_point v (piece (query_rand_len v) k qr) 0
  | Raise _ => f0
  end.

(** What the difference of the masked sums of Poplar1 tells about two candidate
    prefixes of the same length. *)
Definition which_prefix {P : FieldClass} (x y m : list bool) (r : F P) : F P :=
  if list_eq_dec Bool.bool_dec x (firstn (length x) m) then r
  else if list_eq_dec Bool.bool_dec y (firstn (length y) m) then fneg r else f0.
