(** What query() would send without its check of the test points.  Nothing here
    models a /repo function. *)
From Verif Require Export FlpBBCGGI19 FlpSpec CircuitSpec Spec Prio3Spec.
Open Scope nat_scope.

(** [query_gadget] and [bbcggi19_query] with the check left out. *)
Definition query_gadget_unguarded {P : NttFieldClass} (verifier : list (F P)) (g : qgadget P) (t : F P) : res (list (F P)) :=
  let* wire_checks := lag_poly_eval_batched (firstn (qg_arity g) (qg_wires g)) t in
  let* gadget_check := lag_poly_eval (qg_poly g) t in
  Ok (verifier ++ wire_checks ++ [gadget_check]).
Definition query_unguarded {P : NttFieldClass} (v : Valid P)
  (meas proof query_rand joint_rand : list (F P)) (num_shares : nat) : res (list (F P)) :=
  let* _ := check (length meas =? vMEAS_LEN v) AssertionError in
  let* _ := check (length proof =? proof_len v) AssertionError in
  let* _ := check (length query_rand =? query_rand_len v) AssertionError in
  let* _ := check (length joint_rand =? vJOINT_RAND_LEN v) AssertionError in
  let* gs := QueryGadget_wrap v proof in
  let* (out, gs) := run query_handler (valid_eval v meas joint_rand num_shares) gs in
  let* _ := check (length out =? EVAL_OUTPUT_LEN v) AssertionError in
  let* (x, query_rand) := reduce_output v out query_rand in
  foldM (fun verifier '(g, t) => query_gadget_unguarded verifier g t) (combine gs query_rand) [x].

(** The verifier shares that [n] Aggregators with measurement shares [ms] and
    proof shares [ps] would exchange without the check add up to [total]. *)
Definition exchange_unguarded {P : NttFieldClass} (v : Valid P) (n : nat) (ms ps : list (list (F P)))
  (query_rand joint_rand total : list (F P)) : Prop :=
  exists vs, length vs = n /\
    (forall j, j < n -> query_unguarded v (nth j ms []) (nth j ps []) query_rand joint_rand n = Ok (nth j vs [])) /\
    vsum (verifier_len v) vs = total.

(** The test point of gadget [i] is the [k]-th power of the root of unity at
    whose powers its wire polynomials carry the inputs. *)
Definition at_root {P : NttFieldClass} (v : Valid P) (query_rand : list (F P)) (i k : nat) : Prop :=
  exists L, 2 ^ L = wire_poly_len (nth i (GADGET_CALLS v) 0) /\ k < 2 ^ L /\
    test_point v query_rand i = npow (nth_root P L) k.

(** How many elements of the encoded measurement one gadget call reads. *)
Definition elements_per_call {P : NttFieldClass} (v : Valid P) : nat :=
  match nth 0 (GADGETS v) Mul with ParallelSum _ n => n | _ => 1 end.
