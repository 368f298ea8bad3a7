(** Model of the generation of test vectors by /repo/poc/vdaf_poc/test_utils.py and
    of their check by /repo/poc/tests/test_test_vectors.py.  The test vector is kept
    as a value; writing it to a JSON file and reading it back is not modelled. *)
From Coq Require Import Strings.String Strings.Ascii.
From Verif Require Export Vdaf.
Open Scope nat_scope.

(** Python's [b.hex()]. *)
Definition hex_char (n : Z) : ascii := ascii_of_N (Z.to_N (if n <? 10 then n + 48 else n + 87)%Z).
Fixpoint to_hex (b : bytes) : string :=
  match b with
  | [] => EmptyString
  | x :: b => String (hex_char (b2z x / 16)) (String (hex_char (b2z x mod 16)) (to_hex b))
  end.

(** Python's [bytes.fromhex(s)]: white space between bytes is skipped, letters may
    be upper-case. *)
Definition hex_value (c : ascii) : option Z :=
  let n := Z.of_N (N_of_ascii c) in
  (if (48 <=? n) && (n <=? 57) then Some (n - 48)
   else if (97 <=? n) && (n <=? 102) then Some (n - 87)
   else if (65 <=? n) && (n <=? 70) then Some (n - 55)
   else None)%Z.
Definition hex_space (c : ascii) : bool :=
  let n := N_of_ascii c in ((n =? 32) || (9 <=? n) && (n <=? 13))%N.
Fixpoint fromhex (s : string) : res bytes :=
  match s with
  | EmptyString => Ok []
  | String c s' =>
    if hex_space c then fromhex s' else
    match s' with
    | EmptyString => Raise (ValueError "non-hexadecimal number found in fromhex() arg")
    | String d s'' =>
      match hex_value c, hex_value d with
      | Some x, Some y => let* b := fromhex s'' in Ok (z2b (16 * x + y) :: b)
      | _, _ => Raise (ValueError "non-hexadecimal number found in fromhex() arg")
      end
    end
  end.

(** test_utils.py:73-111.  Keys that are [NotRequired] are optional. *)
Record operation : Type := {
  op_operation : string;
  op_round : option nat;
  op_aggregator_id : option nat;
  op_report_index : option nat;
  op_success : bool;
}.

(** test_utils.py:114-148 *)
Record report_vec (M : Type) : Type := {
  rv_measurement : M;
  rv_nonce : string;
  rv_rand : string;
  rv_public_share : string;
  rv_input_shares : list string;
  rv_verifier_shares : list (list string);
  rv_verifier_messages : list string;
  rv_out_shares : list string;
}.
Arguments rv_measurement {M}. Arguments rv_nonce {M}. Arguments rv_rand {M}. Arguments rv_public_share {M}.
Arguments rv_input_shares {M}. Arguments rv_verifier_shares {M}. Arguments rv_verifier_messages {M}. Arguments rv_out_shares {M}.

(** test_utils.py:151-194, without the parameters that test_vec_set_type_param()
    adds, which check_test_vector() does not read. *)
Record test_vec (M R : Type) : Type := {
  tv_operations : list operation;
  tv_shares : nat;
  tv_verify_key : string;
  tv_agg_param : string;
  tv_ctx : string;
  tv_reports : list (report_vec M);
  tv_agg_shares : list string;
  tv_agg_result : option R;
}.
Arguments tv_operations {M R}. Arguments tv_shares {M R}. Arguments tv_verify_key {M R}. Arguments tv_agg_param {M R}.
Arguments tv_ctx {M R}. Arguments tv_reports {M R}. Arguments tv_agg_shares {M R}. Arguments tv_agg_result {M R}.

(** test_utils.py:27-34 *)
Definition test_vec_gen_rand (len : nat) : bytes := map (fun i => z2b (Z.of_nat i mod 256)) (range 0 len).

Section TV.
Context (vdaf : Vdaf).
Notation State := (vd_VerifyState vdaf).
Notation VShare := (vd_VerifierShare vdaf).
Notation Out := (vd_OutShare vdaf).
Notation Meas := (vd_Measurement vdaf).
Notation Result := (vd_AggResult vdaf).

(** The dictionaries that are appended to [operations]. *)
Definition op_shard (r : nat) : operation :=
  {| op_operation := "shard"; op_round := None; op_aggregator_id := None; op_report_index := Some r; op_success := true |}.
Definition op_verify_init (r j : nat) : operation :=
  {| op_operation := "verify_init"; op_round := None; op_aggregator_id := Some j; op_report_index := Some r; op_success := true |}.
Definition op_to_message (r i : nat) : operation :=
  {| op_operation := "verifier_shares_to_message"; op_round := Some i; op_aggregator_id := None; op_report_index := Some r; op_success := true |}.
Definition op_verify_next (r i j : nat) : operation :=
  {| op_operation := "verify_next"; op_round := Some i; op_aggregator_id := Some j; op_report_index := Some r; op_success := true |}.
Definition op_aggregate (j : nat) : operation :=
  {| op_operation := "aggregate"; op_round := None; op_aggregator_id := Some j; op_report_index := None; op_success := true |}.
Definition op_unshard : operation :=
  {| op_operation := "unshard"; op_round := None; op_aggregator_id := None; op_report_index := None; op_success := true |}.

(** [vdaf.encode_...(x).hex()] *)
Definition hexed {A} (encode : A -> res bytes) (x : A) : res string := let* b := encode x in Ok (to_hex b).

(** test_utils.py:241-357: the body of the loop over the reports.  Returns the
    operations it appends, the report's test vector and the output shares. *)
Definition gen_report (verify_key ctx : bytes) (agg_param : vd_AggParam vdaf) (report_index : nat) (nonce : bytes)
  (measurement : Meas) : res (list operation * report_vec Meas * list Out) :=
  let* _ := check (length nonce =? vd_NONCE_SIZE vdaf) AssertionError in
  let rand := test_vec_gen_rand (vd_RAND_SIZE vdaf) in
  let* (public_share, input_shares) := vd_shard vdaf ctx measurement nonce rand in
  let operations := [op_shard report_index] in
  let* pub_share_hex := hexed (vd_encode_public_share vdaf) public_share in
  let* input_shares_hex := mapM (hexed (vd_encode_input_share vdaf)) input_shares in
  (* 271-286 *)
  let* (verify_states, outbound_verifier_shares, operations) :=
    for_range 0 (vd_SHARES vdaf) ([], [], operations) (fun '(verify_states, outbound_verifier_shares, operations) j =>
      let* input_share := get input_shares j in
      let* (state, share) := vd_verify_init vdaf verify_key ctx j agg_param nonce public_share input_share in
      Ok (verify_states ++ [state], outbound_verifier_shares ++ [share], operations ++ [op_verify_init report_index j])) in
  (* 288-290; the list of rounds exists up to ROUNDS *)
  let* row := mapM (fun share => let* s := hexed (vd_encode_verifier_share vdaf) share in
                                 let* _ := check (0 <? vd_ROUNDS vdaf) IndexError in Ok s) outbound_verifier_shares in
  (* 293-321 *)
  let* (verify_states, outbound_verifier_shares, messages, rows, operations) :=
    for_range 0 (vd_ROUNDS vdaf - 1) (verify_states, outbound_verifier_shares, [], [row], operations)
      (fun '(verify_states, outbound_verifier_shares, messages, rows, operations) i =>
        let* verifier_message := vd_verifier_shares_to_message vdaf ctx agg_param outbound_verifier_shares in
        let* message_hex := hexed (vd_encode_verifier_message vdaf) verifier_message in
        let operations := operations ++ [op_to_message report_index i] in
        let* (verify_states, outbound_verifier_shares, row, operations) :=
          for_range 0 (vd_SHARES vdaf) (verify_states, [], [], operations)
            (fun '(verify_states, outbound_verifier_shares, row, operations) j =>
              let* state := get verify_states j in
              let* out := vd_verify_next vdaf ctx state verifier_message in
              match out with
              | inl (state, verifier_share) =>
                let* verify_states := set verify_states j state in
                let* s := hexed (vd_encode_verifier_share vdaf) verifier_share in
                Ok (verify_states, outbound_verifier_shares ++ [verifier_share], row ++ [s],
                    operations ++ [op_verify_next report_index (i + 1) j])
              | inr _ => Raise AssertionError
              end) in
        Ok (verify_states, outbound_verifier_shares, messages ++ [message_hex], rows ++ [row], operations)) in
  (* 324-353 *)
  let* verifier_message := vd_verifier_shares_to_message vdaf ctx agg_param outbound_verifier_shares in
  let* message_hex := hexed (vd_encode_verifier_message vdaf) verifier_message in
  let operations := operations ++ [op_to_message report_index (vd_ROUNDS vdaf - 1)] in
  let* (outbound_out_shares, out_shares_hex, operations) :=
    for_range 0 (vd_SHARES vdaf) ([], [], operations) (fun '(outbound_out_shares, out_shares_hex, operations) j =>
      let* state := get verify_states j in
      let* out_share := vd_verify_next vdaf ctx state verifier_message in
      match out_share with
      | inr out_share =>
        let* s := hexed (vd_encode_out_share vdaf) out_share in
        Ok (outbound_out_shares ++ [out_share], out_shares_hex ++ [s],
            operations ++ [op_verify_next report_index (vd_ROUNDS vdaf) j])
      | inl _ => Raise AssertionError
      end) in
  Ok (operations,
      {| rv_measurement := measurement; rv_nonce := to_hex nonce; rv_rand := to_hex rand; rv_public_share := pub_share_hex;
         rv_input_shares := input_shares_hex; rv_verifier_shares := rows; rv_verifier_messages := messages ++ [message_hex];
         rv_out_shares := out_shares_hex |},
      outbound_out_shares).

(** test_utils.py:197-394 [gen_test_vec_for_vdaf], without printing and writing. *)
Definition gen_test_vec_for_vdaf (agg_param : vd_AggParam vdaf) (ctx : bytes) (measurements : list Meas)
  : res (test_vec Meas Result) :=
  let nonces := map (fun _ => test_vec_gen_rand (vd_NONCE_SIZE vdaf)) (range 0 (length measurements)) in
  let verify_key := test_vec_gen_rand (vd_VERIFY_KEY_SIZE vdaf) in
  let* agg_param_hex := hexed (vd_encode_agg_param vdaf) agg_param in
  (* 238-357 *)
  let* (operations, reports, out_shares) :=
    foldM (fun '(operations, reports, out_shares) '(report_index, (nonce, measurement)) =>
      let* (ops, report, outs) := gen_report verify_key ctx agg_param report_index nonce measurement in
      Ok (operations ++ ops, reports ++ [report], out_shares ++ [outs]))
      (combine (range 0 (length measurements)) (combine nonces measurements)) ([], [], []) in
  (* 362-373 *)
  let* (agg_shares, agg_shares_hex, operations) :=
    for_range 0 (vd_SHARES vdaf) ([], [], operations) (fun '(agg_shares, agg_shares_hex, operations) j =>
      let* out_shares_j := mapM (fun out => get out j) out_shares in
      let* agg_share_j := vd_agg_init vdaf agg_param in
      let* agg_share_j := foldM (vd_agg_update vdaf agg_param) out_shares_j agg_share_j in
      let* s := hexed (vd_encode_agg_share vdaf) agg_share_j in
      Ok (agg_shares ++ [agg_share_j], agg_shares_hex ++ [s], operations ++ [op_aggregate j])) in
  (* 376-383 *)
  let* agg_result := vd_unshard vdaf agg_param agg_shares (length measurements) in
  Ok {| tv_operations := operations ++ [op_unshard]; tv_shares := vd_SHARES vdaf; tv_verify_key := to_hex verify_key;
        tv_agg_param := agg_param_hex; tv_ctx := to_hex ctx; tv_reports := reports; tv_agg_shares := agg_shares_hex;
        tv_agg_result := Some agg_result |}.

(** [self.assertEqual] on byte strings, [self.assertRaises(Exception, ...)]; the
    latter lets the model's [OutOfFuel] through. *)
Definition assert_equal (x y : bytes) : res unit := check (bytes_eqb x y) AssertionError.
Definition assert_raises {A} (m : res A) : res unit :=
  match m with
  | Ok _ => Raise AssertionError
  | Raise OutOfFuel => Raise OutOfFuel
  | Raise _ => Ok tt
  end.

(** test_test_vectors.py:243-279 *)
Definition check_shard_success (ctx : bytes) (measurement : Meas) (nonce rand expected_public_share : bytes)
  (expected_input_shares : list bytes) : res unit :=
  let* (public_share, input_shares) := vd_shard vdaf ctx measurement nonce rand in
  let* encoded_public_share := vd_encode_public_share vdaf public_share in
  let* _ := assert_equal encoded_public_share expected_public_share in
  let* _ := check (length input_shares =? length expected_input_shares) AssertionError in
  foldM (fun _ '(input_share, expected_input_share) =>
    let* encoded_input_share := vd_encode_input_share vdaf input_share in
    assert_equal encoded_input_share expected_input_share) (combine input_shares expected_input_shares) tt.
(** test_test_vectors.py:281-302 *)
Definition check_shard_failure (ctx : bytes) (measurement : Meas) (nonce rand : bytes) : res unit :=
  assert_raises (vd_shard vdaf ctx measurement nonce rand).

(** test_test_vectors.py:304-343 *)
Definition check_verify_init_success (verify_key ctx : bytes) (aggregator_id : nat)
  (agg_param_bytes nonce public_share_bytes input_share_bytes expected_verifier_share : bytes) : res State :=
  let* agg_param := vd_decode_agg_param vdaf agg_param_bytes in
  let* public_share := vd_decode_public_share vdaf public_share_bytes in
  let* input_share := vd_decode_input_share vdaf aggregator_id input_share_bytes in
  let* (verify_state, verifier_share) := vd_verify_init vdaf verify_key ctx aggregator_id agg_param nonce public_share input_share in
  let* encoded_verifier_share := vd_encode_verifier_share vdaf verifier_share in
  let* _ := assert_equal encoded_verifier_share expected_verifier_share in
  Ok verify_state.
(** test_test_vectors.py:345-383 *)
Definition check_verify_init_failure (verify_key ctx : bytes) (aggregator_id : nat)
  (agg_param_bytes nonce public_share_bytes input_share_bytes : bytes) : res unit :=
  let* agg_param := vd_decode_agg_param vdaf agg_param_bytes in
  let* public_share := vd_decode_public_share vdaf public_share_bytes in
  let* input_share := vd_decode_input_share vdaf aggregator_id input_share_bytes in
  assert_raises (vd_verify_init vdaf verify_key ctx aggregator_id agg_param nonce public_share input_share).

(** test_test_vectors.py:385-419 *)
Definition check_verifier_shares_to_message_success (ctx agg_param_bytes : bytes) (verify_states : list State)
  (verifier_shares_bytes : list bytes) (expected_verifier_message : bytes) : res unit :=
  let* agg_param := vd_decode_agg_param vdaf agg_param_bytes in
  let* verifier_shares := mapM (fun '(verify_state, b) => vd_decode_verifier_share vdaf verify_state b)
    (combine verify_states verifier_shares_bytes) in
  let* verifier_message := vd_verifier_shares_to_message vdaf ctx agg_param verifier_shares in
  let* encoded_verifier_message := vd_encode_verifier_message vdaf verifier_message in
  assert_equal encoded_verifier_message expected_verifier_message.
(** test_test_vectors.py:421-454 *)
Definition check_verifier_shares_to_message_failure (ctx agg_param_bytes : bytes) (verify_states : list State)
  (verifier_shares_bytes : list bytes) : res unit :=
  let* agg_param := vd_decode_agg_param vdaf agg_param_bytes in
  let* verifier_shares := mapM (fun '(verify_state, b) => vd_decode_verifier_share vdaf verify_state b)
    (combine verify_states verifier_shares_bytes) in
  assert_raises (vd_verifier_shares_to_message vdaf ctx agg_param verifier_shares).

(** test_test_vectors.py:456-495.  In the last case, encode_out_share() of a tuple
    is taken to raise. *)
Definition check_verify_next_success (ctx : bytes) (round : nat) (verify_state : State) (verifier_message_bytes : bytes)
  (expected_verifier_share expected_out_share : bytes) : res (option State) :=
  let* verifier_message := vd_decode_verifier_message vdaf verify_state verifier_message_bytes in
  let* result := vd_verify_next vdaf ctx verify_state verifier_message in
  if round <? vd_ROUNDS vdaf then
    match result with
    | inl (next_verify_state, verifier_share) =>
      let* encoded_verifier_share := vd_encode_verifier_share vdaf verifier_share in
      let* _ := assert_equal encoded_verifier_share expected_verifier_share in
      Ok (Some next_verify_state)
    | inr _ => Raise AssertionError
    end
  else
    match result with
    | inr out_share =>
      let* encoded_out_share := vd_encode_out_share vdaf out_share in
      let* _ := assert_equal encoded_out_share expected_out_share in
      Ok None
    | inl _ => Raise TypeError
    end.
(** test_test_vectors.py:497-524 *)
Definition check_verify_next_failure (ctx : bytes) (verify_state : State) (verifier_message_bytes : bytes) : res unit :=
  let* verifier_message := vd_decode_verifier_message vdaf verify_state verifier_message_bytes in
  assert_raises (vd_verify_next vdaf ctx verify_state verifier_message).

(** test_test_vectors.py:526-552 *)
Definition check_aggregate_success (agg_param_bytes : bytes) (out_shares_bytes : list bytes) (expected_agg_share : bytes) : res unit :=
  let* agg_param := vd_decode_agg_param vdaf agg_param_bytes in
  let* out_shares := mapM (vd_decode_out_share vdaf agg_param) out_shares_bytes in
  let* agg_share := vd_agg_init vdaf agg_param in
  let* agg_share := foldM (vd_agg_update vdaf agg_param) out_shares agg_share in
  let* encoded_agg_share := vd_encode_agg_share vdaf agg_share in
  assert_equal encoded_agg_share expected_agg_share.
(** test_test_vectors.py:554-582 *)
Definition check_aggregate_failure (agg_param_bytes : bytes) (out_shares_bytes : list bytes) : res unit :=
  let* agg_param := vd_decode_agg_param vdaf agg_param_bytes in
  let* out_shares := mapM (vd_decode_out_share vdaf agg_param) out_shares_bytes in
  assert_raises (let* agg_share := vd_agg_init vdaf agg_param in foldM (vd_agg_update vdaf agg_param) out_shares agg_share).

(** [==] on aggregate results; a missing result is None, which no result equals. *)
Context (result_eqb : Result -> Result -> bool).

(** test_test_vectors.py:584-608 *)
Definition check_unshard_success (agg_param_bytes : bytes) (agg_shares_bytes : list bytes) (num_measurements : nat)
  (expected_agg_result : option Result) : res unit :=
  let* agg_param := vd_decode_agg_param vdaf agg_param_bytes in
  let* agg_shares := mapM (vd_decode_agg_share vdaf agg_param) agg_shares_bytes in
  let* agg_result := vd_unshard vdaf agg_param agg_shares num_measurements in
  check (match expected_agg_result with Some r => result_eqb agg_result r | None => false end) AssertionError.
(** test_test_vectors.py:610-635 *)
Definition check_unshard_failure (agg_param_bytes : bytes) (agg_shares_bytes : list bytes) (num_measurements : nat) : res unit :=
  let* agg_param := vd_decode_agg_param vdaf agg_param_bytes in
  let* agg_shares := mapM (vd_decode_agg_share vdaf agg_param) agg_shares_bytes in
  assert_raises (vd_unshard vdaf agg_param agg_shares num_measurements).

(** test_test_vectors.py:46-49: verification states by report index, Aggregator and
    round; the dictionary of the rounds is an association list. *)
Definition states := list (list (list (nat * State))).
Definition states_get (s : states) (report_index aggregator_id round : nat) : res State :=
  let* r := get s report_index in
  let* d := get r aggregator_id in
  match find (fun x => fst x =? round) d with Some x => Ok (snd x) | None => Raise KeyError end.
Definition states_set (s : states) (report_index aggregator_id round : nat) (st : State) : res states :=
  let* r := get s report_index in
  let* d := get r aggregator_id in
  let* r := set r aggregator_id ((round, st) :: d) in
  set s report_index r.
(** A [NotRequired] key of an operation. *)
Definition field_of {A} (x : option A) : res A := match x with Some x => Ok x | None => Raise KeyError end.

(** test_test_vectors.py:51-241: the body of the loop over the operations. *)
Definition check_operation (test_vector : test_vec Meas Result) (verify_states : states) (op : operation) : res states :=
  if (op_operation op =? "shard")%string then
    let* report_index := field_of (op_report_index op) in
    let* report := get (tv_reports test_vector) report_index in
    let* ctx := fromhex (tv_ctx test_vector) in
    let* nonce := fromhex (rv_nonce report) in
    let* rand := fromhex (rv_rand report) in
    if op_success op then
      let* public_share := fromhex (rv_public_share report) in
      let* input_shares := mapM fromhex (rv_input_shares report) in
      let* _ := check_shard_success ctx (rv_measurement report) nonce rand public_share input_shares in
      Ok verify_states
    else
      let* _ := check_shard_failure ctx (rv_measurement report) nonce rand in
      Ok verify_states
  else if (op_operation op =? "verify_init")%string then
    let* report_index := field_of (op_report_index op) in
    let* report := get (tv_reports test_vector) report_index in
    let* aggregator_id := field_of (op_aggregator_id op) in
    let* verify_key := fromhex (tv_verify_key test_vector) in
    let* ctx := fromhex (tv_ctx test_vector) in
    let* agg_param := fromhex (tv_agg_param test_vector) in
    let* nonce := fromhex (rv_nonce report) in
    let* public_share := fromhex (rv_public_share report) in
    let* input_share := get (rv_input_shares report) aggregator_id in
    let* input_share := fromhex input_share in
    if op_success op then
      let* row := get (rv_verifier_shares report) 0 in
      let* verifier_share := get row aggregator_id in
      let* verifier_share := fromhex verifier_share in
      let* state := check_verify_init_success verify_key ctx aggregator_id agg_param nonce public_share input_share verifier_share in
      states_set verify_states report_index aggregator_id 0 state
    else
      let* _ := check_verify_init_failure verify_key ctx aggregator_id agg_param nonce public_share input_share in
      Ok verify_states
  else if (op_operation op =? "verifier_shares_to_message")%string then
    let* report_index := field_of (op_report_index op) in
    let* report := get (tv_reports test_vector) report_index in
    let* round := field_of (op_round op) in
    let* ctx := fromhex (tv_ctx test_vector) in
    let* agg_param := fromhex (tv_agg_param test_vector) in
    let* sts := mapM (fun i => states_get verify_states report_index i round) (range 0 (vd_SHARES vdaf)) in
    let* row := get (rv_verifier_shares report) round in
    let* verifier_shares := mapM fromhex row in
    if op_success op then
      let* message := get (rv_verifier_messages report) round in
      let* message := fromhex message in
      let* _ := check_verifier_shares_to_message_success ctx agg_param sts verifier_shares message in
      Ok verify_states
    else
      let* _ := check_verifier_shares_to_message_failure ctx agg_param sts verifier_shares in
      Ok verify_states
  else if (op_operation op =? "verify_next")%string then
    let* report_index := field_of (op_report_index op) in
    let* report := get (tv_reports test_vector) report_index in
    let* aggregator_id := field_of (op_aggregator_id op) in
    let* round := field_of (op_round op) in
    let* ctx := fromhex (tv_ctx test_vector) in
    (* no dictionary has the key -1 *)
    let* _ := check (0 <? round) KeyError in
    let* verify_state := states_get verify_states report_index aggregator_id (round - 1) in
    let* message := get (rv_verifier_messages report) (round - 1) in
    let* verifier_message := fromhex message in
    if op_success op then
      if round <? vd_ROUNDS vdaf then
        let* row := get (rv_verifier_shares report) round in
        let* verifier_share := get row aggregator_id in
        let* verifier_share := fromhex verifier_share in
        let* result := check_verify_next_success ctx round verify_state verifier_message verifier_share [] in
        match result with
        | Some state => states_set verify_states report_index aggregator_id round state
        | None => Ok verify_states
        end
      else
        let* out_share := get (rv_out_shares report) aggregator_id in
        let* out_share := fromhex out_share in
        let* _ := check_verify_next_success ctx round verify_state verifier_message [] out_share in
        Ok verify_states
    else
      let* _ := check_verify_next_failure ctx verify_state verifier_message in
      Ok verify_states
  else if (op_operation op =? "aggregate")%string then
    let* aggregator_id := field_of (op_aggregator_id op) in
    let* agg_param := fromhex (tv_agg_param test_vector) in
    let* out_shares := mapM (fun report => let* s := get (rv_out_shares report) aggregator_id in fromhex s) (tv_reports test_vector) in
    if op_success op then
      let* agg_share := get (tv_agg_shares test_vector) aggregator_id in
      let* agg_share := fromhex agg_share in
      let* _ := check_aggregate_success agg_param out_shares agg_share in
      Ok verify_states
    else
      let* _ := check_aggregate_failure agg_param out_shares in
      Ok verify_states
  else if (op_operation op =? "unshard")%string then
    let* agg_param := fromhex (tv_agg_param test_vector) in
    let* agg_shares := mapM fromhex (tv_agg_shares test_vector) in
    if op_success op then
      let* _ := check_unshard_success agg_param agg_shares (length (tv_reports test_vector)) (tv_agg_result test_vector) in
      Ok verify_states
    else
      let* _ := check_unshard_failure agg_param agg_shares (length (tv_reports test_vector)) in
      Ok verify_states
  else Raise (Exception_ "unexpected operation").

(** test_test_vectors.py:29-241 [check_test_vector] *)
Definition check_test_vector (test_vector : test_vec Meas Result) : res unit :=
  let verify_states := map (fun _ => map (fun _ => []) (range 0 (vd_SHARES vdaf))) (tv_reports test_vector) in
  let* _ := foldM (check_operation test_vector) (tv_operations test_vector) verify_states in
  Ok tt.
End TV.
