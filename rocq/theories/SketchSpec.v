(** What the two Aggregators see of each other when they verify a Poplar1 sketch.
    Nothing here models a /repo function. *)
From Verif Require Export Poplar1Spec.
Open Scope nat_scope.

(** The verifier shares the Aggregators exchange, in rounds one and two, when the
    verification randomness is [r] (compare [sketch_run]). *)
Definition sketch_messages (p : Poplar1) {P : FieldClass}
  (inj : list (F P) -> FieldVec (id_field_inner (p1_idpf p)) (id_field_leaf (p1_idpf p)))
  (ctx : bytes) (agg_param : Poplar1AggParam) (AB0 AB1 : F P * F P) (abc0 abc1 : F P * F P * F P)
  (v0 v1 : list (list (F P))) (r : list (F P))
  : res (list (FieldVec (id_field_inner (p1_idpf p)) (id_field_leaf (p1_idpf p)))) :=
  let* (s0, o0) := sketch_loop r v0 (fst (fst abc0)) (snd (fst abc0)) (snd abc0) in
  let* (s1, o1) := sketch_loop r v1 (fst (fst abc1)) (snd (fst abc1)) (snd abc1) in
  let* msg := p1_verifier_shares_to_message p ctx agg_param [inj s0; inj s1] in
  let* r0 := p1_verify_next p ctx (EVALUATE_SKETCH, fst agg_param, inj ([fst AB0; snd AB0; fof 0] ++ o0)) msg in
  let* r1 := p1_verify_next p ctx (EVALUATE_SKETCH, fst agg_param, inj ([fst AB1; snd AB1; fof 1] ++ o1)) msg in
  match r0, r1 with
  | inl (_, t0), inl (_, t1) => Ok [inj s0; inj s1; t0; t1]
  | _, _ => Raise AssertionError
  end.

(** The values of an honest client: the data parts add up to a vector that is one
    at a single place or nowhere, the authenticator parts to [k] times it. *)
Definition honest_values {P : FieldClass} (k : F P) (n : nat) (v0 v1 : list (list (F P))) : Prop :=
  length v0 = n /\ length v1 = n /\ Forall (fun v => length v = 2) v0 /\ Forall (fun v => length v = 2) v1 /\
  one_hot n (sum_part 0 v0 v1) /\ forall i, i < n -> sum_part 1 v0 v1 i = fmul k (sum_part 0 v0 v1 i).

(** The share of (A, B) that completes the share [AB] for the triples [abc0] and
    [abc1]. *)
Definition other_AB {P : FieldClass} (k : F P) (abc0 abc1 : F P * F P * F P) (AB : F P * F P) : F P * F P :=
  let '(a0, b0, c0) := abc0 in
  let '(a1, b1, c1) := abc1 in
  let AB' := corr_pair [fadd a0 a1; fadd b0 b1; fadd c0 c1] k in
  (fsub (nth 0 AB' f0) (fst AB), fsub (nth 1 AB' f0) (snd AB)).
