(** Model of the validity circuits of /repo/poc/vdaf_poc/flp_bbcggi19.py
    (lines 653-1206). *)
From Verif Require Export FlpBBCGGI19.
Open Scope nat_scope.

(** 1146-1184.  For max_measurement = 0, [2 ** (bits - 1) - 1] is the float
    -0.5, so [value <= rest_all_ones_value] means [value < 0] and the loop body
    never runs. *)
Definition encode_range_checked_int {P : FieldClass} (value max_measurement : Z) : res (list (F P)) :=
  if (max_measurement <? value)%Z then Raise (ValueError "measurement is too large")
  else
    let bits := bit_length max_measurement in
    if bits =? 0 then Ok [if (value <? 0)%Z then f0 else f1]
    else
      let rest_all_ones_value := (2 ^ Z.of_nat (bits - 1) - 1)%Z in
      let last_weight := (max_measurement - rest_all_ones_value)%Z in
      let '(rest, last_elem) :=
        if (value <=? rest_all_ones_value)%Z then (value, f0) else ((value - last_weight)%Z, f1) in
      let* encoded := mapM (fun l => field_init (Z.land (Z.shiftr rest (Z.of_nat l)) 1)) (range 0 (bits - 1)) in
      Ok (encoded ++ [last_elem]).

(** 1187-1206.  Not modelled: max_measurement = 0, where the code multiplies a
    field element made from the float 0.5. *)
Definition decode_range_checked_int {P : FieldClass} (encoded : list (F P)) (max_measurement : Z) : res (F P) :=
  let bits := bit_length max_measurement in
  if bits =? 0 then Raise TypeError
  else
    let rest_all_ones_value := (2 ^ Z.of_nat (bits - 1) - 1)%Z in
    let last_weight := (max_measurement - rest_all_ones_value)%Z in
    let* decoded := foldM (fun decoded '(l, bit) =>
      let* w := field_init (Z.shiftl 1 (Z.of_nat l)) in
      Ok (fadd decoded (fmul w bit))) (enumerate (firstn (bits - 1) encoded)) f0 in
    let* w := field_init last_weight in
    let* last := get encoded (bits - 1) in
    Ok (fadd decoded (fmul w last)).

(** 660-695 *)
Definition Count (P : NttFieldClass) : Valid P := {|
  vMeasurement := Z; vAggResult := Z;
  GADGETS := [Mul]; GADGET_CALLS := [1];
  vMEAS_LEN := 1; vJOINT_RAND_LEN := 0; vOUTPUT_LEN := 1; EVAL_OUTPUT_LEN := 1;
  valid_encode := fun measurement =>
    if (0 <=? measurement)%Z && (measurement <? 2)%Z then
      let* x := field_init measurement in Ok [x]
    else Raise (ValueError "measurement out of range");
  valid_eval := fun meas joint_rand _ =>
    let+ _ := plift (check_valid_eval 1 0 meas joint_rand) in
    let+ m := plift (get meas 0) in
    let+ squared := pcall 0 [m; m] in
    Ret [fsub squared m];
  valid_truncate := fun meas =>
    if length meas =? 1 then Ok meas else Raise (ValueError "incorrect measurement length");
  valid_decode := fun output _ => let* x := get output 0 in Ok (fint x);
|}.

(** 748-761 (Histogram), 896-909 (MultihotCountVec), 1022-1035 (SumVec): the
    input list of the [i]-th gadget call.  The code writes the entries
    [inputs[2*j]], [inputs[2*j+1]] of a preallocated list in order of [j]; here
    they are appended. *)
Definition chunk_inputs {P : FieldClass} (meas : list (F P)) (shares_inv : F P) (chunk_length i : nat) (r : F P)
  : list (F P) :=
  snd (fold_left (fun '(r_power, inputs) j =>
    let index := i * chunk_length + j in
    let meas_elem := if index <? length meas then nth index meas f0 else f0 in
    (fmul r_power r, inputs ++ [fmul r_power meas_elem; fsub meas_elem shares_inv]))
    (range 0 chunk_length) (r, [])).

(** 744-766, 892-914, 1018-1040: the loop over gadget calls, common to the
    three circuits that use joint randomness. *)
Definition range_check_loop {P : FieldClass} (meas joint_rand : list (F P)) (shares_inv : F P)
  (chunk_length gadget_calls : nat) : prog P (F P) :=
  pfold (fun acc i =>
    let+ r := plift (get joint_rand i) in
    let+ y := pcall 0 (chunk_inputs meas shares_inv chunk_length i r) in
    Ret (fadd acc y)) (range 0 gadget_calls) f0.

(** 745, 893, 1019: [field(num_shares).inv()] *)
Definition shares_inv {P : FieldClass} (num_shares : nat) : res (F P) :=
  let* n := field_init (Z.of_nat num_shares) in Ok (finv n).

(** 701-783.  [length] and [chunk_length] positive (checked by __init__,
    716-719; see [Histogram_init]). *)
Definition Histogram_calls (length chunk_length : nat) : nat := (length + chunk_length - 1) / chunk_length.
Definition Histogram (P : NttFieldClass) (len chunk_length : nat) : Valid P := {|
  vMeasurement := Z; vAggResult := list Z;
  GADGETS := [ParallelSum Mul chunk_length];
  GADGET_CALLS := [Histogram_calls len chunk_length];
  vMEAS_LEN := len; vOUTPUT_LEN := len;
  vJOINT_RAND_LEN := Histogram_calls len chunk_length;
  EVAL_OUTPUT_LEN := 2;
  (* 731-734: list item assignment; a negative index counts from the end *)
  valid_encode := fun measurement =>
    let encoded := repeat f0 len in
    if (0 <=? measurement)%Z then set encoded (Z.to_nat measurement) f1
    else if (0 <=? Z.of_nat len + measurement)%Z
         then set encoded (Z.to_nat (Z.of_nat len + measurement)) f1
         else Raise IndexError;
  valid_eval := fun meas joint_rand num_shares =>
    let+ _ := plift (check_valid_eval len (Histogram_calls len chunk_length) meas joint_rand) in
    let+ sinv := plift (shares_inv num_shares) in
    let+ range_check := range_check_loop meas joint_rand sinv chunk_length (Histogram_calls len chunk_length) in
    let sum_check := fold_left fadd meas (fneg sinv) in
    Ret [range_check; sum_check];
  valid_truncate := fun meas => Ok meas;
  valid_decode := fun output _ => Ok (map fint output);
|}.

(** 707-729: __init__ with its argument checks. *)
Definition Histogram_init (P : NttFieldClass) (length chunk_length : Z) : res (Valid P) :=
  let* _ := check (0 <? length)%Z (ValueError "invalid length") in
  let* _ := check (0 <? chunk_length)%Z (ValueError "invalid chunk_length") in
  Ok (Histogram P (Z.to_nat length) (Z.to_nat chunk_length)).

(** 794-937 *)
Definition Multihot_bits (max_weight : nat) : nat := bit_length (Z.of_nat max_weight).
Definition Multihot_calls (length max_weight chunk_length : nat) : nat :=
  (length + Multihot_bits max_weight + chunk_length - 1) / chunk_length.
Definition MultihotCountVec (P : NttFieldClass) (len max_weight chunk_length : nat) : Valid P := {|
  vMeasurement := list bool; vAggResult := list Z;
  GADGETS := [ParallelSum Mul chunk_length];
  GADGET_CALLS := [Multihot_calls len max_weight chunk_length];
  vMEAS_LEN := len + Multihot_bits max_weight; vOUTPUT_LEN := len;
  vJOINT_RAND_LEN := Multihot_calls len max_weight chunk_length;
  EVAL_OUTPUT_LEN := 2;
  valid_encode := fun measurement =>
    if negb (length measurement =? len) then Raise (ValueError "invalid Client measurement length")
    else
      let* count_vec := mapM (fun x : bool => field_init (if x then 1 else 0)%Z) measurement in
      let weight_reported := fold_left (fun (a : Z) (x : bool) => (a + (if x then 1 else 0))%Z) measurement 0%Z in
      let* w := encode_range_checked_int weight_reported (Z.of_nat max_weight) in
      Ok (count_vec ++ w);
  valid_eval := fun meas joint_rand num_shares =>
    let+ _ := plift (check_valid_eval (len + Multihot_bits max_weight)
                       (Multihot_calls len max_weight chunk_length) meas joint_rand) in
    let+ sinv := plift (shares_inv num_shares) in
    let+ range_check := range_check_loop meas joint_rand sinv chunk_length
                          (Multihot_calls len max_weight chunk_length) in
    let count_vec := firstn len meas in
    let weight := fold_left fadd count_vec f0 in
    let+ weight_reported := plift (decode_range_checked_int (skipn len meas) (Z.of_nat max_weight)) in
    let weight_check := fsub weight weight_reported in
    Ret [range_check; weight_check];
  valid_truncate := fun meas => Ok (firstn len meas);
  valid_decode := fun output _ => Ok (map fint output);
|}.

(** 813-863: __init__ with its argument checks. *)
Definition MultihotCountVec_init (P : NttFieldClass) (length max_weight chunk_length : Z) : res (Valid P) :=
  let* _ := check (0 <? length)%Z (ValueError "invalid length") in
  let* _ := check ((0 <? max_weight)%Z && (max_weight <=? length)%Z) (ValueError "invalid max_weight") in
  let* _ := check (0 <? chunk_length)%Z (ValueError "invalid chunk_length") in
  let* _ := check (length <? MODULUS P)%Z (ValueError "length is too large for the current field size") in
  let* _ := check (max_weight <? MODULUS P)%Z (ValueError "max_weight is too large for the current field size") in
  Ok (MultihotCountVec P (Z.to_nat length) (Z.to_nat max_weight) (Z.to_nat chunk_length)).

(** 949-1060 *)
Definition SumVec_calls (length bits chunk_length : nat) : nat := (length * bits + chunk_length - 1) / chunk_length.
Definition SumVec (P : NttFieldClass) (len : nat) (max_measurement : Z) (chunk_length : nat) : Valid P :=
  let bits := bit_length max_measurement in {|
  vMeasurement := list Z; vAggResult := list Z;
  GADGETS := [ParallelSum Mul chunk_length];
  GADGET_CALLS := [SumVec_calls len bits chunk_length];
  vMEAS_LEN := len * bits; vOUTPUT_LEN := len;
  vJOINT_RAND_LEN := SumVec_calls len bits chunk_length;
  EVAL_OUTPUT_LEN := 1;
  valid_encode := fun measurement =>
    if negb (length measurement =? len) then Raise (ValueError "incorrect measurement length")
    else
      foldM (fun encoded val =>
        if (val <? 0)%Z || (max_measurement <? val)%Z
        then Raise (ValueError "entry of measurement vector is out of range")
        else
          let* e := encode_range_checked_int val max_measurement in
          Ok (encoded ++ e)) measurement [];
  valid_eval := fun meas joint_rand num_shares =>
    let+ _ := plift (check_valid_eval (len * bits) (SumVec_calls len bits chunk_length) meas joint_rand) in
    let+ sinv := plift (shares_inv num_shares) in
    let+ out := range_check_loop meas joint_rand sinv chunk_length (SumVec_calls len bits chunk_length) in
    Ret [out];
  valid_truncate := fun meas =>
    mapM (fun i => decode_range_checked_int (slice meas (i * bits) ((i + 1) * bits)) max_measurement) (range 0 len);
  valid_decode := fun output _ => Ok (map fint output);
|}.

(** 956-989: __init__ with its argument checks. *)
Definition SumVec_init (P : NttFieldClass) (length max_measurement chunk_length : Z) : res (Valid P) :=
  let* _ := check (0 <? length)%Z (ValueError "invalid length") in
  let* _ := check (0 <? chunk_length)%Z (ValueError "invalid chunk_length") in
  let* _ := check (0 <? max_measurement)%Z (ValueError "invalid max_measurement") in
  let* _ := check (2 ^ Z.of_nat (bit_length max_measurement) <? MODULUS P)%Z
                  (ValueError "bound exceeds field modulus") in
  Ok (SumVec P (Z.to_nat length) max_measurement (Z.to_nat chunk_length)).

(** 1073-1139.  [PolyEval([0, -1, 1], bits)] is [PolyEval [0;-1;1] n]. *)
Definition Sum_gadget (bits : nat) : gadget :=
  PolyEval [0; -1; 1]%Z (np2 (gadget_poly_len 2 (wire_poly_len bits))).
Definition Sum (P : NttFieldClass) (max_measurement : Z) : Valid P :=
  let bits := bit_length max_measurement in {|
  vMeasurement := Z; vAggResult := Z;
  GADGETS := [Sum_gadget bits];
  GADGET_CALLS := [bits];
  vMEAS_LEN := bits; vJOINT_RAND_LEN := 0; vOUTPUT_LEN := 1; EVAL_OUTPUT_LEN := bits;
  valid_encode := fun measurement => encode_range_checked_int measurement max_measurement;
  valid_eval := fun meas joint_rand _ =>
    let+ _ := plift (check_valid_eval bits 0 meas joint_rand) in
    pfold (fun out b => let+ y := pcall 0 [b] in Ret (out ++ [y])) meas [];
  valid_truncate := fun meas => let* x := decode_range_checked_int meas max_measurement in Ok [x];
  valid_decode := fun output _ => let* x := get output 0 in Ok (fint x);
|}.

(** 1078-1107: __init__ with its argument check. *)
Definition Sum_init (P : NttFieldClass) (max_measurement : Z) : res (Valid P) :=
  let* _ := check (2 ^ Z.of_nat (bit_length max_measurement) <? MODULUS P)%Z
                  (ValueError "bound exceeds field modulus") in
  let* g := PolyEval_init [0; -1; 1]%Z (bit_length max_measurement) in
  Ok (Sum P max_measurement).
