(** Model of /repo/poc/vdaf_poc/flp_bbcggi19.py (line numbers refer to that
    file). *)
From Verif Require Export Flp.
Open Scope nat_scope.

(** The least power of two that is >= n, for n >= 1, as a length
    (common.py:34-37; the assertion [n > 0] holds at every use below). *)
Definition np2 (n : nat) : nat := 2 ^ bit_length (Z.of_nat n - 1).

(** 192-197 *)
Definition wire_poly_len (gadget_calls : nat) : nat := np2 (1 + gadget_calls).

(** 200-205; the wire polynomial length is at least 1. *)
Definition gadget_poly_len (gadget_degree wire_polynomial_len : nat) : nat :=
  gadget_degree * (wire_polynomial_len - 1) + 1.

(** ** Gadgets *)

(** 16-45, 523-650.  [PolyEval p n]: the attributes [p] (after stripping) and
    [n] of the instance. *)
Inductive gadget : Type :=
| Mul
| PolyEval (p : list Z) (n : nat)
| ParallelSum (subcircuit : gadget) (count : nat).

(** 550-554: strip leading zeros of an integer coefficient list; the list is
    left alone if every entry is zero. *)
Fixpoint strip_ints_loop (i : nat) (p : list Z) : list Z :=
  match i with
  | O => p
  | S i' => if (nth i' p 0 =? 0)%Z then strip_ints_loop i' p else firstn (S i') p
  end.

(** 546-565 *)
Definition PolyEval_init (p : list Z) (num_calls : nat) : res gadget :=
  let p := strip_ints_loop (length p) p in
  if length p <? 1 then Raise (ValueError "invalid polynomial: zero length")
  else
    let degree := length p - 1 in
    let wire_poly_length := wire_poly_len num_calls in
    let gadget_poly_length := gadget_poly_len degree wire_poly_length in
    Ok (PolyEval p (np2 gadget_poly_length)).

(** 524, 543, 617 *)
Fixpoint ARITY (g : gadget) : nat :=
  match g with
  | Mul => 2
  | PolyEval _ _ => 1
  | ParallelSum sub count => ARITY sub * count
  end.

(** 525, 559, 618 *)
Fixpoint DEGREE (g : gadget) : nat :=
  match g with
  | Mul => 2
  | PolyEval p _ => length p - 1
  | ParallelSum sub _ => DEGREE sub
  end.

(** 35-37 *)
Definition check_gadget_eval {P} (g : gadget) (inp : list (F P)) : res unit :=
  check (length inp =? ARITY g) (ValueError "input length must equal the gadget arity").

(** 39-44 *)
Definition check_gadget_eval_poly {P} (g : gadget) (inp_poly : list (list (F P))) : res unit :=
  let* _ := check (length inp_poly =? ARITY g)
                  (ValueError "number of inputs must equal the gadget arity") in
  check (forallb (fun q => length q =? length (nth 0 inp_poly [])) inp_poly)
        (ValueError "each input must have the same length").

(** 527-529, 567-570, 620-630 *)
Fixpoint gadget_eval {P : FieldClass} (g : gadget) (inp : list (F P)) : res (F P) :=
  match g with
  | Mul =>
    let* _ := check_gadget_eval g inp in
    let* a := get inp 0 in
    let* b := get inp 1 in
    Ok (fmul a b)
  | PolyEval p _ =>
    let* _ := check_gadget_eval g inp in
    let* p := mapM field_init p in
    let* x := get inp 0 in
    poly_eval p x
  | ParallelSum sub count =>
    let* _ := check_gadget_eval g inp in
    for_range 0 count f0 (fun out i =>
      let* o := gadget_eval sub (slice inp (i * ARITY sub) ((i + 1) * ARITY sub)) in
      Ok (fadd out o))
  end.

(** 531-536, 572-585, 632-650 *)
Fixpoint gadget_eval_poly {P : NttFieldClass} (g : gadget) (inp_poly : list (list (F P)))
  : res (list (F P)) :=
  match g with
  | Mul =>
    let* _ := check_gadget_eval_poly g inp_poly in
    let* a := get inp_poly 0 in
    let* b := get inp_poly 1 in
    lag_poly_mul a b
  | PolyEval p n =>
    let* _ := check_gadget_eval_poly g inp_poly in
    let* a := get inp_poly 0 in
    let inp_poly_len := length a in
    let* _ := assert_power_of_2 (Z.of_nat inp_poly_len) in
    let* inp_mon := inv_ntt a inp_poly_len in
    let* inp_lag := ntt inp_mon n false in
    let* p_mon := mapM field_init p in
    mapM (poly_eval p_mon) inp_lag
  | ParallelSum sub count =>
    let* _ := check_gadget_eval_poly g inp_poly in
    let* a := get inp_poly 0 in
    let output_poly_length := np2 (gadget_poly_len (DEGREE sub) (length a)) in
    let out_sum := repeat f0 output_poly_length in
    for_range 0 count out_sum (fun out_sum i =>
      let* out_current := gadget_eval_poly sub (slice inp_poly (i * ARITY sub) ((i + 1) * ARITY sub)) in
      for_range 0 output_poly_length out_sum (fun out_sum j =>
        let* s := get out_sum j in
        let* c := get out_current j in
        set out_sum j (fadd s c)))
  end.

(** ** Validity circuits *)

(** The evaluation of a circuit: a computation that may call
    [self.GADGETS[i].eval(field, inp)].  What a gadget call does depends on
    whether GADGETS holds plain gadgets or ProveGadget/QueryGadget wrappers. *)
Inductive prog (P : FieldClass) (A : Type) : Type :=
| Ret (a : A)
| Fail (e : exn)
| Call (i : nat) (inp : list (F P)) (k : F P -> prog P A).
Arguments Ret {P A} a.
Arguments Fail {P A} e.
Arguments Call {P A} i inp k.

Fixpoint pbind {P A B} (m : prog P A) (f : A -> prog P B) : prog P B :=
  match m with
  | Ret a => f a
  | Fail e => Fail e
  | Call i inp k => Call i inp (fun y => pbind (k y) f)
  end.
Definition plift {P A} (m : res A) : prog P A :=
  match m with Ok a => Ret a | Raise e => Fail e end.
Definition pcall {P} (i : nat) (inp : list (F P)) : prog P (F P) := Call i inp (fun y => Ret y).
Notation "'let+' x ':=' m 'in' k" := (pbind m (fun x => k))
  (at level 200, x pattern, m at level 100, k at level 200, right associativity) : py_scope.
Fixpoint pfold {P A B} (body : B -> A -> prog P B) (l : list A) (acc : B) : prog P B :=
  match l with
  | [] => Ret acc
  | x :: t => pbind (body acc x) (fun acc' => pfold body t acc')
  end.

(** Running a circuit where [h] says what a gadget call does to the state. *)
Fixpoint run {P St A} (h : St -> nat -> list (F P) -> res (F P * St)) (m : prog P A) (s : St)
  : res (A * St) :=
  match m with
  | Ret a => Ok (a, s)
  | Fail e => Raise e
  | Call i inp k => let* (y, s') := h s i inp in run h (k y) s'
  end.

(** 47-185: a validity circuit. *)
Record Valid (P : NttFieldClass) : Type := {
  vMeasurement : Type;
  vAggResult : Type;
  vMEAS_LEN : nat;
  vJOINT_RAND_LEN : nat;
  vOUTPUT_LEN : nat;
  EVAL_OUTPUT_LEN : nat;
  GADGETS : list gadget;
  GADGET_CALLS : list nat;
  valid_encode : vMeasurement -> res (list (F P));
  valid_truncate : list (F P) -> res (list (F P));
  valid_decode : list (F P) -> nat -> res vAggResult;
  (* meas, joint_rand, num_shares *)
  valid_eval : list (F P) -> list (F P) -> nat -> prog P (list (F P));
}.
Arguments vMeasurement {P} v.
Arguments vAggResult {P} v.
Arguments vMEAS_LEN {P} v.
Arguments vJOINT_RAND_LEN {P} v.
Arguments vOUTPUT_LEN {P} v.
Arguments EVAL_OUTPUT_LEN {P} v.
Arguments GADGETS {P} v.
Arguments GADGET_CALLS {P} v.
Arguments valid_encode {P} v.
Arguments valid_truncate {P} v.
Arguments valid_decode {P} v.
Arguments valid_eval {P} v.

Definition sum_nat (l : list nat) : nat := fold_right Nat.add 0 l.

(** 95-97 *)
Definition prove_rand_len {P} (v : Valid P) : nat := sum_nat (map ARITY (GADGETS v)).
(** 99-104 *)
Definition query_rand_len {P} (v : Valid P) : nat :=
  length (GADGETS v) + (if 1 <? EVAL_OUTPUT_LEN v then EVAL_OUTPUT_LEN v else 0).
(** 106-112 *)
Definition proof_len {P} (v : Valid P) : nat :=
  sum_nat (map (fun '(g, g_calls) => ARITY g + gadget_poly_len (DEGREE g) (wire_poly_len g_calls))
               (combine (GADGETS v) (GADGET_CALLS v))).
(** 114-119 *)
Definition verifier_len {P} (v : Valid P) : nat := 1 + sum_nat (map (fun g => ARITY g + 1) (GADGETS v)).

(** 121-128 *)
Definition check_valid_eval {P : FieldClass} (meas_len joint_rand_len : nat) (meas joint_rand : list (F P))
  : res unit :=
  let* _ := check (length meas =? meas_len) (ValueError "incorrect measurement length") in
  check (length joint_rand =? joint_rand_len) (ValueError "incorrect joint randomness length").

(** Running the circuit on the plain gadgets. *)
Definition plain_handler {P : FieldClass} (gs : list gadget) (i : nat) (inp : list (F P))
  : res (F P * list gadget) :=
  let* g := get gs i in
  let* y := gadget_eval g inp in
  Ok (y, gs).
Definition valid_eval_plain {P} (v : Valid P) (meas joint_rand : list (F P)) (num_shares : nat)
  : res (list (F P)) :=
  let* (out, _) := run plain_handler (valid_eval v meas joint_rand num_shares) (GADGETS v) in
  Ok out.

(** ** ProveGadget, 211-263 *)
Record pgadget (P : FieldClass) : Type := mkPG {
  pg_inner : gadget;
  pg_wires : list (list (F P));
  pg_k : nat;
}.
Arguments mkPG {P}.
Arguments pg_inner {P} p.
Arguments pg_wires {P} p.
Arguments pg_k {P} p.

(** 228-231 and 290-293: one zeroed wire per seed, entry 0 set to the seed. *)
Definition init_wires {P : FieldClass} (p : nat) (wire_seeds : list (F P)) : res (list (list (F P))) :=
  mapM (fun s => set (fzeros p) 0 s) wire_seeds.

(** 216-231 *)
Definition ProveGadget_init {P : FieldClass} (wire_seeds : list (F P)) (g : gadget) (g_calls : nat)
  : res (pgadget P) :=
  let* _ := check (length wire_seeds =? ARITY g) AssertionError in
  let p := wire_poly_len g_calls in
  let* wires := init_wires p wire_seeds in
  Ok (mkPG g wires 0).

(** 234-236 and 313-315: [self.k += 1; for j in range(len(inp)): self.wires[j][self.k] = inp[j]]
    (here [k] is the value after the increment). *)
Definition record_wires {P : FieldClass} (wires : list (list (F P))) (k : nat) (inp : list (F P))
  : res (list (list (F P))) :=
  foldM (fun wires '(j, x) =>
    let* w := get wires j in
    let* w' := set w k x in
    set wires j w') (enumerate inp) wires.

(** 233-237 *)
Definition ProveGadget_eval {P : FieldClass} (g : pgadget P) (inp : list (F P)) : res (F P * pgadget P) :=
  let k := pg_k g + 1 in
  let* wires := record_wires (pg_wires g) k inp in
  let* y := gadget_eval (pg_inner g) inp in
  Ok (y, mkPG (pg_inner g) wires k).

Definition prove_handler {P : FieldClass} (gs : list (pgadget P)) (i : nat) (inp : list (F P))
  : res (F P * list (pgadget P)) :=
  let* g := get gs i in
  let* (y, g') := ProveGadget_eval g inp in
  let* gs' := set gs i g' in
  Ok (y, gs').

(** 244-263 *)
Definition ProveGadget_wrap {P : NttFieldClass} (v : Valid P) (prove_rand : list (F P))
  : res (list (pgadget P)) :=
  let* _ := check (length prove_rand =? prove_rand_len v) AssertionError in
  let* (wrapped, rest) := foldM (fun '(wrapped, prove_rand) '(g, g_calls) =>
    let* (wire_seeds, prove_rand) := front (ARITY g) prove_rand in
    let* w := ProveGadget_init wire_seeds g g_calls in
    Ok (wrapped ++ [w], prove_rand))
    (combine (GADGETS v) (GADGET_CALLS v)) ([], prove_rand) in
  let* _ := check (length rest =? 0) AssertionError in
  Ok wrapped.

(** ** QueryGadget, 269-344 *)
Record qgadget (P : FieldClass) : Type := mkQG {
  qg_arity : nat;
  qg_wires : list (list (F P));
  qg_k : nat;
  qg_poly : list (F P);
  qg_step : nat;
}.
Arguments mkQG {P}.
Arguments qg_arity {P} q.
Arguments qg_wires {P} q.
Arguments qg_k {P} q.
Arguments qg_poly {P} q.
Arguments qg_step {P} q.

(** 303-304: [while len(gadget_poly) < size].  Each iteration doubles a
    non-empty list, so [size] units of fuel are enough. *)
Fixpoint double_until {P : NttFieldClass} (fuel size : nat) (gadget_poly : list (F P)) : res (list (F P)) :=
  if length gadget_poly <? size then
    match fuel with
    | O => Raise OutOfFuel
    | S fuel' =>
      let* gadget_poly := double_evaluations gadget_poly in
      double_until fuel' size gadget_poly
    end
  else Ok gadget_poly.

(** 276-310 *)
Definition QueryGadget_init {P : NttFieldClass} (wire_seeds gadget_poly : list (F P)) (g : gadget) (g_calls : nat)
  : res (qgadget P) :=
  let* _ := check (length wire_seeds =? ARITY g) AssertionError in
  let p := wire_poly_len g_calls in
  let* _ := check (GEN_ORDER P mod Z.of_nat p =? 0)%Z AssertionError in
  let* wires := init_wires p wire_seeds in
  let* n := next_power_of_2_nat (length gadget_poly) in
  let* gadget_poly := extend_values_to_power_of_2 gadget_poly n in
  let size := np2 (gadget_poly_len (DEGREE g) p) in
  let* gadget_poly := double_until size size gadget_poly in
  let* log_size := assert_power_of_2 (Z.of_nat size) in
  let* log_p := assert_power_of_2 (Z.of_nat p) in
  let* _ := check (log_p <=? log_size) (ValueError "negative shift count") in
  Ok (mkQG (ARITY g) wires 0 gadget_poly (2 ^ (log_size - log_p))).

(** 312-316 *)
Definition QueryGadget_eval {P : FieldClass} (g : qgadget P) (inp : list (F P)) : res (F P * qgadget P) :=
  let k := qg_k g + 1 in
  let* wires := record_wires (qg_wires g) k inp in
  let* y := get (qg_poly g) (k * qg_step g) in
  Ok (y, mkQG (qg_arity g) wires k (qg_poly g) (qg_step g)).

Definition query_handler {P : FieldClass} (gs : list (qgadget P)) (i : nat) (inp : list (F P))
  : res (F P * list (qgadget P)) :=
  let* g := get gs i in
  let* (y, g') := QueryGadget_eval g inp in
  let* gs' := set gs i g' in
  Ok (y, gs').

(** 324-344 *)
Definition QueryGadget_wrap {P : NttFieldClass} (v : Valid P) (proof : list (F P))
  : res (list (qgadget P)) :=
  let* _ := check (length proof =? proof_len v) AssertionError in
  let* (wrapped, rest) := foldM (fun '(wrapped, proof) '(g, g_calls) =>
    let p := wire_poly_len g_calls in
    let g_poly_len := gadget_poly_len (DEGREE g) p in
    let* (wire_seeds, proof) := front (ARITY g) proof in
    let* (gadget_poly, proof) := front g_poly_len proof in
    let* w := QueryGadget_init wire_seeds gadget_poly g g_calls in
    Ok (wrapped ++ [w], proof))
    (combine (GADGETS v) (GADGET_CALLS v)) ([], proof) in
  let* _ := check (length rest =? 0) AssertionError in
  Ok wrapped.

(** ** FlpBBCGGI19, 347-510 *)

(** 384-415, one iteration of the loop building the proof. *)
Definition prove_gadget {P : NttFieldClass} (proof : list (F P)) (g : pgadget P) (g_calls : nat)
  : res (list (F P)) :=
  let p := wire_poly_len g_calls in
  let* _ := check (GEN_ORDER P mod Z.of_nat p =? 0)%Z AssertionError in
  let* wire_polys := mapM (fun j => get (pg_wires g) j) (range 0 (ARITY (pg_inner g))) in
  let* _ := check (forallb (fun wp => length wp =? p) wire_polys) AssertionError in
  let* wire_seeds := mapM (fun j => let* w := get (pg_wires g) j in get w 0)
                          (range 0 (ARITY (pg_inner g))) in
  let* gadget_poly := gadget_eval_poly (pg_inner g) wire_polys in
  Ok (proof ++ wire_seeds ++ firstn (gadget_poly_len (DEGREE (pg_inner g)) p) gadget_poly).

(** 368-418 *)
Definition bbcggi19_prove {P : NttFieldClass} (v : Valid P) (meas prove_rand joint_rand : list (F P))
  : res (list (F P)) :=
  let* _ := check (length meas =? vMEAS_LEN v) AssertionError in
  let* _ := check (length prove_rand =? prove_rand_len v) AssertionError in
  let* _ := check (length joint_rand =? vJOINT_RAND_LEN v) AssertionError in
  let* gs := ProveGadget_wrap v prove_rand in
  let* (_, gs) := run prove_handler (valid_eval v meas joint_rand 1) gs in
  let* proof := foldM (fun proof '(g, g_calls) => prove_gadget proof g g_calls)
                      (combine gs (GADGET_CALLS v)) [] in
  let* _ := check (length proof =? proof_len v) AssertionError in
  Ok proof.

(** 438-448: reduce the circuit output. *)
Definition reduce_output {P : NttFieldClass} (v : Valid P) (out query_rand : list (F P))
  : res (F P * list (F P)) :=
  if 1 <? EVAL_OUTPUT_LEN v then
    let* (rand, query_rand) := front (EVAL_OUTPUT_LEN v) query_rand in
    Ok (fold_left (fun acc '(r, out_elem) => fadd acc (fmul r out_elem)) (combine rand out) f0, query_rand)
  else
    match out with
    | [x] => Ok (x, query_rand)
    | _ => Raise (ValueError "unpack")
    end.

(** 454-478, one iteration. *)
Definition query_gadget {P : NttFieldClass} (verifier : list (F P)) (g : qgadget P) (t : F P)
  : res (list (F P)) :=
  let* w0 := get (qg_wires g) 0 in
  let p := length w0 in
  if feqb (fpow t (N.of_nat p)) f1 then Raise (ValueError "test point is a root of unity")
  else
    let* wire_checks := lag_poly_eval_batched (firstn (qg_arity g) (qg_wires g)) t in
    let* gadget_check := lag_poly_eval (qg_poly g) t in
    Ok (verifier ++ wire_checks ++ [gadget_check]).

(** 420-480 *)
Definition bbcggi19_query {P : NttFieldClass} (v : Valid P)
  (meas proof query_rand joint_rand : list (F P)) (num_shares : nat) : res (list (F P)) :=
  let* _ := check (length meas =? vMEAS_LEN v) AssertionError in
  let* _ := check (length proof =? proof_len v) AssertionError in
  let* _ := check (length query_rand =? query_rand_len v) AssertionError in
  let* _ := check (length joint_rand =? vJOINT_RAND_LEN v) AssertionError in
  let* gs := QueryGadget_wrap v proof in
  let* (out, gs) := run query_handler (valid_eval v meas joint_rand num_shares) gs in
  let* _ := check (length out =? EVAL_OUTPUT_LEN v) AssertionError in
  let* (x, query_rand) := reduce_output v out query_rand in
  foldM (fun verifier '(g, t) => query_gadget verifier g t) (combine gs query_rand) [x].

(** 494-501, the loop over the gadgets. *)
Fixpoint decide_gadgets {P : NttFieldClass} (gs : list gadget) (verifier : list (F P)) : res bool :=
  match gs with
  | [] =>
    let* _ := check (length verifier =? 0) AssertionError in
    Ok true
  | g :: gs' =>
    let* (wire_checks, verifier) := front (ARITY g) verifier in
    let* (gadget_check, verifier) := front 1 verifier in
    let* y := gadget_eval g wire_checks in
    if negb (feqb y (nth 0 gadget_check f0)) then Ok false
    else decide_gadgets gs' verifier
  end.

(** 482-501 *)
Definition bbcggi19_decide {P : NttFieldClass} (v : Valid P) (verifier : list (F P)) : res bool :=
  let* _ := check (length verifier =? verifier_len v) AssertionError in
  let* (x, verifier) := front 1 verifier in
  if negb (feqb (nth 0 x f0) f0) then Ok false
  else decide_gadgets (GADGETS v) verifier.

(** 352-362, 503-510 *)
Definition FlpBBCGGI19 {P : NttFieldClass} (v : Valid P) : Flp P := {|
  Measurement := vMeasurement v;
  AggResult := vAggResult v;
  PROVE_RAND_LEN := prove_rand_len v;
  QUERY_RAND_LEN := query_rand_len v;
  JOINT_RAND_LEN := vJOINT_RAND_LEN v;
  MEAS_LEN := vMEAS_LEN v;
  OUTPUT_LEN := vOUTPUT_LEN v;
  PROOF_LEN := proof_len v;
  VERIFIER_LEN := verifier_len v;
  flp_encode := valid_encode v;
  flp_prove := bbcggi19_prove v;
  flp_query := bbcggi19_query v;
  flp_decide := bbcggi19_decide v;
  flp_truncate := valid_truncate v;
  flp_decode := valid_decode v;
|}.
