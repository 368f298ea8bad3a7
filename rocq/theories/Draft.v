(** Model of the Python listings in the text of the document,
    /repo/draft-irtf-cfrg-vdaf.md (line numbers refer to that file), where they
    differ from the reference code: the lines of the code that are marked
    "REMOVE ME" are not printed, and XofTurboShake128 is written differently.  A
    listing that agrees with the code is modelled by the model of the code. *)
From Verif Require Export Prio3 Poplar1.
Open Scope nat_scope.

(** 2467-2471: [stream = TurboSHAKE128(self.m, 1, self.l); return stream[-length:]],
    where [self.l] has been increased by [length]; [stream[-0:]] is [stream]. *)
Definition last_n {A} (l : list A) (n : nat) : list A := if n =? 0 then l else skipn (length l - n) l.
Definition draft_ts_next (turboshake128 : TurboShake) (st : bytes * nat) (len : nat) : res (bytes * (bytes * nat)) :=
  let '(m, l) := st in
  let l := l + len in
  Ok (last_n (stream_bytes (turboshake128 m 1%Z) 0 l) len, (m, l)).

(** 2448-2472.  In line 2457 a [+] is missing after [dst]; the model has it. *)
Definition DraftXofTurboShake128 (turboshake128 : TurboShake) (bound : nat) : XofClass :=
  {| SEED_SIZE := 32;
     xof_state := bytes * nat;
     xof_init := fun seed dst binder =>
       let* dst_len := to_le_bytes (Z.of_nat (length dst)) 2 in
       let* seed_len := to_le_bytes (Z.of_nat (length seed)) 1 in
       Ok (dst_len ++ dst ++ seed_len ++ seed ++ binder, 0);
     xof_next := draft_ts_next turboshake128;
     loop_bound := bound |}.

(** 2499-2558 *)
Definition DraftXofFixedKeyAes128 (turboshake128 : TurboShake) (aes128 : BlockCipher) (bound : nat) : XofClass :=
  {| SEED_SIZE := 16;
     xof_state := AesState;
     xof_init := fun seed dst binder =>
       let* _ := check (length seed =? 16)%nat (ValueError "incorrect seed size") in
       let* dst_length := to_le_bytes (Z.of_nat (length dst)) 2 in
       Ok {| fixed_key := stream_bytes (turboshake128 (dst_length ++ dst ++ binder) 2%Z) 0 16;
             aes_seed := seed; length_consumed := 0 |};
     xof_next := aes_next aes128;
     loop_bound := bound |}.

(** ** Gadgets, 6368-6484 *)
Fixpoint draft_gadget_eval {P : FieldClass} (g : gadget) (inp : list (F P)) : res (F P) :=
  match g with
  | Mul =>
    let* a := get inp 0 in
    let* b := get inp 1 in
    Ok (fmul a b)
  | PolyEval p _ =>
    let* p := mapM field_init p in
    let* x := get inp 0 in
    poly_eval p x
  | ParallelSum sub count =>
    for_range 0 count f0 (fun out i =>
      let* o := draft_gadget_eval sub (slice inp (i * ARITY sub) ((i + 1) * ARITY sub)) in
      Ok (fadd out o))
  end.

Fixpoint draft_gadget_eval_poly {P : NttFieldClass} (g : gadget) (inp_poly : list (list (F P))) : res (list (F P)) :=
  match g with
  | Mul =>
    let* a := get inp_poly 0 in
    let* b := get inp_poly 1 in
    lag_poly_mul a b
  | PolyEval p n =>
    let* a := get inp_poly 0 in
    let inp_poly_len := length a in
    let* _ := assert_power_of_2 (Z.of_nat inp_poly_len) in
    let* inp_mon := inv_ntt a inp_poly_len in
    let* inp_lag := ntt inp_mon n false in
    let* p_mon := mapM field_init p in
    mapM (poly_eval p_mon) inp_lag
  | ParallelSum sub count =>
    let* a := get inp_poly 0 in
    let output_poly_length := np2 (gadget_poly_len (DEGREE sub) (length a)) in
    let out_sum := repeat f0 output_poly_length in
    for_range 0 count out_sum (fun out_sum i =>
      let* out_current := draft_gadget_eval_poly sub (slice inp_poly (i * ARITY sub) ((i + 1) * ARITY sub)) in
      for_range 0 output_poly_length out_sum (fun out_sum j =>
        let* s := get out_sum j in
        let* c := get out_current j in
        set out_sum j (fadd s c)))
  end.

(** ** Circuits.  The attributes of a circuit are those of the code. *)
Definition relist {P} (v : Valid P) (encode : vMeasurement v -> res (list (F P)))
  (truncate : list (F P) -> res (list (F P))) (eval : list (F P) -> list (F P) -> nat -> prog P (list (F P))) : Valid P :=
  {| vMeasurement := vMeasurement v; vAggResult := vAggResult v; vMEAS_LEN := vMEAS_LEN v;
     vJOINT_RAND_LEN := vJOINT_RAND_LEN v; vOUTPUT_LEN := vOUTPUT_LEN v; EVAL_OUTPUT_LEN := EVAL_OUTPUT_LEN v;
     GADGETS := GADGETS v; GADGET_CALLS := GADGET_CALLS v; valid_encode := encode; valid_truncate := truncate;
     valid_decode := valid_decode v; valid_eval := eval |}.

(** 4117-4149 *)
Definition DraftCount (P : NttFieldClass) : Valid P := relist (Count P)
  (fun measurement => let* x := field_init measurement in Ok [x])
  (fun meas => Ok meas)
  (fun meas _ _ =>
    let+ m := plift (get meas 0) in
    let+ squared := pcall 0 [m; m] in
    Ret [fsub squared m]).

(** 4186-4229; __init__ does not check that 2 ** bits < MODULUS. *)
Definition DraftSum (P : NttFieldClass) (max_measurement : Z) : Valid P := relist (Sum P max_measurement)
  (fun measurement => encode_range_checked_int measurement max_measurement)
  (fun meas => let* x := decode_range_checked_int meas max_measurement in Ok [x])
  (fun meas _ _ => pfold (fun out b => let+ y := pcall 0 [b] in Ret (out ++ [y])) meas []).

(** 4348-4435; __init__ has no checks. *)
Definition DraftSumVec (P : NttFieldClass) (len : nat) (max_measurement : Z) (chunk_length : nat) : Valid P :=
  let bits := bit_length max_measurement in
  relist (SumVec P len max_measurement chunk_length)
  (fun measurement => foldM (fun encoded val =>
    let* e := encode_range_checked_int val max_measurement in
    Ok (encoded ++ e)) measurement [])
  (fun meas => mapM (fun i => decode_range_checked_int (slice meas (i * bits) ((i + 1) * bits)) max_measurement) (range 0 len))
  (fun meas joint_rand num_shares =>
    let+ sinv := plift (shares_inv num_shares) in
    let+ out := range_check_loop meas joint_rand sinv chunk_length (SumVec_calls len bits chunk_length) in
    Ret [out]).

(** 4498-4571; __init__ has no checks. *)
Definition DraftHistogram (P : NttFieldClass) (len chunk_length : nat) : Valid P := relist (Histogram P len chunk_length)
  (valid_encode (Histogram P len chunk_length))
  (fun meas => Ok meas)
  (fun meas joint_rand num_shares =>
    let+ sinv := plift (shares_inv num_shares) in
    let+ range_check := range_check_loop meas joint_rand sinv chunk_length (Histogram_calls len chunk_length) in
    let sum_check := fold_left fadd meas (fneg sinv) in
    Ret [range_check; sum_check]).

(** 4611-4740; __init__ checks only that length and max_weight are less than MODULUS. *)
Definition DraftMultihotCountVec (P : NttFieldClass) (len max_weight chunk_length : nat) : Valid P :=
  relist (MultihotCountVec P len max_weight chunk_length)
  (valid_encode (MultihotCountVec P len max_weight chunk_length))
  (fun meas => Ok (firstn len meas))
  (fun meas joint_rand num_shares =>
    let+ sinv := plift (shares_inv num_shares) in
    let+ range_check := range_check_loop meas joint_rand sinv chunk_length (Multihot_calls len max_weight chunk_length) in
    let count_vec := firstn len meas in
    let weight := fold_left fadd count_vec f0 in
    let+ weight_reported := plift (decode_range_checked_int (skipn len meas) (Z.of_nat max_weight)) in
    let weight_check := fsub weight weight_reported in
    Ret [range_check; weight_check]).

(** ** ProveGadget and QueryGadget, 6490-6604 *)
Definition draft_ProveGadget_init {P : FieldClass} (wire_seeds : list (F P)) (g : gadget) (g_calls : nat) : res (pgadget P) :=
  let p := wire_poly_len g_calls in
  let* wires := init_wires p wire_seeds in
  Ok (mkPG g wires 0).
Definition draft_ProveGadget_eval {P : FieldClass} (g : pgadget P) (inp : list (F P)) : res (F P * pgadget P) :=
  let k := pg_k g + 1 in
  let* wires := record_wires (pg_wires g) k inp in
  let* y := draft_gadget_eval (pg_inner g) inp in
  Ok (y, mkPG (pg_inner g) wires k).
Definition draft_prove_handler {P : FieldClass} (gs : list (pgadget P)) (i : nat) (inp : list (F P))
  : res (F P * list (pgadget P)) :=
  let* g := get gs i in
  let* (y, g') := draft_ProveGadget_eval g inp in
  let* gs' := set gs i g' in
  Ok (y, gs').
Definition draft_ProveGadget_wrap {P : NttFieldClass} (v : Valid P) (prove_rand : list (F P)) : res (list (pgadget P)) :=
  let* (wrapped, _) := foldM (fun '(wrapped, prove_rand) '(g, g_calls) =>
    let* (wire_seeds, prove_rand) := front (ARITY g) prove_rand in
    let* w := draft_ProveGadget_init wire_seeds g g_calls in
    Ok (wrapped ++ [w], prove_rand))
    (combine (GADGETS v) (GADGET_CALLS v)) ([], prove_rand) in
  Ok wrapped.

Definition draft_QueryGadget_init {P : NttFieldClass} (wire_seeds gadget_poly : list (F P)) (g : gadget) (g_calls : nat)
  : res (qgadget P) :=
  let p := wire_poly_len g_calls in
  let* wires := init_wires p wire_seeds in
  let* n := next_power_of_2_nat (length gadget_poly) in
  let* gadget_poly := extend_values_to_power_of_2 gadget_poly n in
  let size := np2 (gadget_poly_len (DEGREE g) p) in
  let* gadget_poly := double_until size size gadget_poly in
  let* log_size := assert_power_of_2 (Z.of_nat size) in
  let* log_p := assert_power_of_2 (Z.of_nat p) in
  let* _ := check (log_p <=? log_size) (ValueError "negative shift count") in
  Ok (mkQG (ARITY g) wires 0 gadget_poly (2 ^ (log_size - log_p))).
Definition draft_QueryGadget_wrap {P : NttFieldClass} (v : Valid P) (proof : list (F P)) : res (list (qgadget P)) :=
  let* (wrapped, _) := foldM (fun '(wrapped, proof) '(g, g_calls) =>
    let p := wire_poly_len g_calls in
    let g_poly_len := gadget_poly_len (DEGREE g) p in
    let* (wire_seeds, proof) := front (ARITY g) proof in
    let* (gadget_poly, proof) := front g_poly_len proof in
    let* w := draft_QueryGadget_init wire_seeds gadget_poly g g_calls in
    Ok (wrapped ++ [w], proof))
    (combine (GADGETS v) (GADGET_CALLS v)) ([], proof) in
  Ok wrapped.

(** ** FlpBBCGGI19 *)

(** 3905-3935: the loop over the gadgets. *)
Definition draft_prove_gadget {P : NttFieldClass} (proof : list (F P)) (g : pgadget P) (g_calls : nat) : res (list (F P)) :=
  let p := wire_poly_len g_calls in
  let* wire_polys := mapM (fun j => get (pg_wires g) j) (range 0 (ARITY (pg_inner g))) in
  let* wire_seeds := mapM (fun j => let* w := get (pg_wires g) j in get w 0) (range 0 (ARITY (pg_inner g))) in
  let* gadget_poly := draft_gadget_eval_poly (pg_inner g) wire_polys in
  Ok (proof ++ wire_seeds ++ firstn (gadget_poly_len (DEGREE (pg_inner g)) p) gadget_poly).

(** 3887-3936 *)
Definition draft_prove {P : NttFieldClass} (v : Valid P) (meas prove_rand joint_rand : list (F P)) : res (list (F P)) :=
  let* gs := draft_ProveGadget_wrap v prove_rand in
  let* (_, gs) := run draft_prove_handler (valid_eval v meas joint_rand 1) gs in
  foldM (fun proof '(g, g_calls) => draft_prove_gadget proof g g_calls) (combine gs (GADGET_CALLS v)) [].

(** 3991-4046 *)
Definition draft_query {P : NttFieldClass} (v : Valid P)
  (meas proof query_rand joint_rand : list (F P)) (num_shares : nat) : res (list (F P)) :=
  let* gs := draft_QueryGadget_wrap v proof in
  let* (out, gs) := run query_handler (valid_eval v meas joint_rand num_shares) gs in
  let* (x, query_rand) := reduce_output v out query_rand in
  foldM (fun verifier '(g, t) => query_gadget verifier g t) (combine gs query_rand) [x].

(** 4074-4093 *)
Fixpoint draft_decide_gadgets {P : NttFieldClass} (gs : list gadget) (verifier : list (F P)) : res bool :=
  match gs with
  | [] => Ok true
  | g :: gs' =>
    let* (wire_checks, verifier) := front (ARITY g) verifier in
    let* (gadget_check, verifier) := front 1 verifier in
    let* y := draft_gadget_eval g wire_checks in
    if negb (feqb y (nth 0 gadget_check f0)) then Ok false
    else draft_decide_gadgets gs' verifier
  end.
Definition draft_decide {P : NttFieldClass} (v : Valid P) (verifier : list (F P)) : res bool :=
  let* (x, verifier) := front 1 verifier in
  if negb (feqb (nth 0 x f0) f0) then Ok false
  else draft_decide_gadgets (GADGETS v) verifier.

(** 3810-3855: the other methods and the attributes are those of the circuit. *)
Definition DraftFlp {P : NttFieldClass} (v : Valid P) : Flp P := {|
  Measurement := vMeasurement v;
  AggResult := vAggResult v;
  PROVE_RAND_LEN := prove_rand_len v;
  QUERY_RAND_LEN := query_rand_len v;
  JOINT_RAND_LEN := vJOINT_RAND_LEN v;
  MEAS_LEN := vMEAS_LEN v;
  OUTPUT_LEN := vOUTPUT_LEN v;
  PROOF_LEN := proof_len v;
  VERIFIER_LEN := verifier_len v;
  flp_encode := valid_encode v;
  flp_prove := draft_prove v;
  flp_query := draft_query v;
  flp_decide := draft_decide v;
  flp_truncate := valid_truncate v;
  flp_decode := valid_decode v;
|}.

(** 1615-1710 *)
Definition draft_run_vdaf (vdaf : Vdaf) (verify_key : bytes) (agg_param : vd_AggParam vdaf) (ctx : bytes)
  (measurements : list (vd_Measurement vdaf * bytes * bytes)) : res (vd_AggResult vdaf) :=
  let* agg_shares := mapM (fun _ => vd_agg_init vdaf agg_param) (range 0 (vd_SHARES vdaf)) in
  let* agg_shares := foldM (run_report vdaf verify_key ctx agg_param) measurements agg_shares in
  vd_unshard vdaf agg_param agg_shares (length measurements).

(** Prio3 and Poplar1 (2690-5660), whose methods are listed as in the code, built from
    the parts above. *)
Definition draft_prio3 {P : NttFieldClass} (ID : Z) (v : Valid P) (ts : TurboShake) (bound shares proofs : nat) : Prio3 :=
  {| p3_field := P; p3_flp := DraftFlp v; p3_xof := DraftXofTurboShake128 ts bound; p3_ID := ID;
     p3_VERIFY_KEY_SIZE := 32; p3_SHARES := shares; p3_PROOFS := proofs |}.
Definition draft_poplar1 (ts : TurboShake) (aes : BlockCipher) (bound bits : nat) : Poplar1 :=
  {| p1_idpf := {| id_field_inner := Field64; id_field_leaf := Field255;
       id_xof_inner := DraftXofFixedKeyAes128 ts aes bound; id_xof_leaf := DraftXofTurboShake128 ts bound;
       id_VALUE_LEN := 2; id_BITS := bits |};
     p1_xof := DraftXofTurboShake128 ts bound |}.
