(** Model of the circuits, FLPs, Prio3 variants and the DAF that the test suite
    defines: /repo/poc/tests/test_flp_bbcggi19.py, test_flp.py, test_vdaf_prio3.py
    and test_daf.py. *)
From Verif Require Export Circuits Prio3 Daf Xof Prio3Spec.
Open Scope nat_scope.

(** test_flp_bbcggi19.py:16-45 *)
Definition MultiGadget : Valid Field64 := {|
  vMeasurement := Z; vAggResult := Z;
  GADGETS := [Mul; Mul]; GADGET_CALLS := [1; 2];
  vMEAS_LEN := 1; vJOINT_RAND_LEN := 0; vOUTPUT_LEN := 1; EVAL_OUTPUT_LEN := 1;
  valid_encode := fun measurement => let* x := field_init measurement in Ok [x];
  valid_eval := fun meas joint_rand _ =>
    let+ _ := plift (check_valid_eval 1 0 meas joint_rand) in
    let+ m := plift (get meas 0) in
    let+ x := pcall 0 [m; m] in
    let+ y := pcall 1 [m; x] in
    let+ z := pcall 1 [x; y] in
    Ret [z];
  valid_truncate := fun meas => Ok meas;
  valid_decode := fun output _ => let* x := get output 0 in Ok (fint x);
|}.

(** test_flp_bbcggi19.py:48-78.  The class attribute [PolyEval([0, 2, -3, 1], 1)]
    is [PolyEval [0; 2; -3; 1] n]. *)
Definition HigherDegree_gadget : gadget := PolyEval [0; 2; -3; 1]%Z (np2 (gadget_poly_len 3 (wire_poly_len 1))).
Definition HigherDegree : Valid Field64 := {|
  vMeasurement := Z; vAggResult := Z;
  GADGETS := [HigherDegree_gadget]; GADGET_CALLS := [1];
  vMEAS_LEN := 1; vJOINT_RAND_LEN := 0; vOUTPUT_LEN := 1; EVAL_OUTPUT_LEN := 1;
  valid_encode := fun measurement => let* x := field_init measurement in Ok [x];
  valid_eval := fun meas joint_rand _ =>
    let+ _ := plift (check_valid_eval 1 0 meas joint_rand) in
    let+ m := plift (get meas 0) in
    let+ y := pcall 0 [m] in
    Ret [y];
  valid_truncate := fun meas => Ok meas;
  valid_decode := fun output _ => let* x := get output 0 in Ok (fint x);
|}.

(** test_flp_bbcggi19.py:81-89: Sum with another decode(). *)
Definition TestAverage (P : NttFieldClass) (max_measurement : Z) : Valid P :=
  let s := Sum P max_measurement in {|
  vMeasurement := Z; vAggResult := Z;
  GADGETS := GADGETS s; GADGET_CALLS := GADGET_CALLS s;
  vMEAS_LEN := vMEAS_LEN s; vJOINT_RAND_LEN := vJOINT_RAND_LEN s; vOUTPUT_LEN := vOUTPUT_LEN s;
  EVAL_OUTPUT_LEN := EVAL_OUTPUT_LEN s;
  valid_encode := valid_encode s; valid_eval := valid_eval s; valid_truncate := valid_truncate s;
  valid_decode := fun output num_measurements =>
    let* total := valid_decode s output num_measurements in
    if num_measurements =? 0 then Raise ZeroDivisionError
    else Ok (total / Z.of_nat num_measurements)%Z;
|}.

(** test_flp.py:11-55 *)
Definition FlpTest (P : FieldClass) (joint_rand_len : nat) : Flp P := {|
  Measurement := Z; AggResult := Z;
  JOINT_RAND_LEN := joint_rand_len;
  PROVE_RAND_LEN := 2; QUERY_RAND_LEN := 3; MEAS_LEN := 2; OUTPUT_LEN := 1; PROOF_LEN := 2; VERIFIER_LEN := 2;
  flp_encode := fun measurement => let* x := field_init measurement in Ok [x; x];
  flp_prove := fun meas _ _ => Ok meas;
  flp_query := fun _ proof _ _ _ => Ok proof;
  (* the conditions are evaluated from left to right; the last one is membership
     in range(5) *)
  flp_decide := fun verifier =>
    if negb (length verifier =? 2) then Ok false
    else
      let* a := get verifier 0 in
      let* b := get verifier 1 in
      if negb (feqb a b) then Ok false
      else Ok ((0 <=? fint a)%Z && (fint a <? 5)%Z);
  flp_truncate := fun meas => let* x := get meas 0 in Ok [x];
  flp_decode := fun output _ => let* x := get output 0 in Ok (fint x);
|}.

(** test_vdaf_prio3.py:16-30 ([bits] is passed on as max_measurement). *)
Definition Prio3Average (ts : TurboShake) (bound shares : nat) (bits : Z) : Prio3 :=
  prio3_obj Field128 0xFFFFFFFF (TestAverage Field128 bits) ts bound shares 1.
(** test_vdaf_prio3.py:33-46 *)
Definition Prio3HigherDegree (ts : TurboShake) (bound shares : nat) : Prio3 :=
  prio3_obj Field64 0xFFFFFFFF HigherDegree ts bound shares 1.
(** test_vdaf_prio3.py:49-56 *)
Definition Prio3FlpTest (ts : TurboShake) (bound joint_rand_len : nat) : Prio3 := {|
  p3_field := Field128; p3_flp := FlpTest Field128 joint_rand_len; p3_xof := XofTurboShake128 ts bound; p3_ID := 0xFFFFFFFF;
  p3_VERIFY_KEY_SIZE := 32; p3_SHARES := 2; p3_PROOFS := 1 |}.

(** [reduce(lambda x, y: x + y, l)] *)
Definition reduce_add {P : FieldClass} (l : list (F P)) : res (F P) :=
  match l with
  | [] => Raise TypeError
  | x :: l => Ok (fold_left fadd l x)
  end.

(** test_daf.py:10-86 *)
Definition TestDaf (ts : TurboShake) (bound : nat) : Daf := {|
  df_Measurement := Z; df_AggParam := unit; df_PublicShare := unit;
  df_InputShare := F Field128; df_OutShare := F Field128; df_AggShare := F Field128; df_AggResult := Z;
  df_ID := 0xFFFFFFFF; df_SHARES := 2; df_NONCE_SIZE := 0; df_RAND_SIZE := 32;
  df_shard := fun _ measurement nonce rand =>
    let* _ := check (length nonce =? 0) (ValueError "incorrect nonce size") in
    let* _ := check (length rand =? 32) (ValueError "incorrect size of random bytes argument") in
    let* helper_shares := expand_into_vec (XofTurboShake128 ts bound) Field128 rand [] [] (2 - 1) in
    let* leader_share := field_init measurement in
    Ok (tt, fold_left fsub helper_shares leader_share :: helper_shares);
  df_is_valid := fun _ _ => Ok true;
  df_prep := fun _ _ _ nonce _ input_share =>
    let* _ := check (length nonce =? 0) (ValueError "incorrect nonce size") in
    Ok input_share;
  df_agg_init := fun _ => field_init 0;
  df_agg_update := fun _ agg_share out_share => Ok (fadd agg_share out_share);
  df_merge := fun _ agg_shares => reduce_add agg_shares;
  df_unshard := fun _ agg_shares _ => let* x := reduce_add agg_shares in Ok (fint x);
|}.
