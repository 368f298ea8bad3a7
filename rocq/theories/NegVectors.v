(** Model of the generation of negative test vectors, /repo/poc/gen_test_vec.py:107-610.
    As in [TestVectors], printing and writing to files is not modelled, and the
    parameters that test_vec_set_type_param() adds are left out. *)
From Coq Require Import Strings.String.
From Verif Require Export TestVectors Prio3 Poplar1.
Open Scope nat_scope.

(** [try: m; except ValueError: pass; else: raise Exception(msg)], 282-287, 384-390,
    510-522 *)
Definition should_fail {A} (m : res A) (msg : string) : res unit :=
  match m with
  | Ok _ => Raise (Exception_ msg)
  | Raise (ValueError _) => Ok tt
  | Raise e => Raise e
  end.

(** The dictionaries of an operation that fails, 405-410, 296-302, 557-562. *)
Definition op_to_message_fails (r i : nat) : operation :=
  {| op_operation := "verifier_shares_to_message"; op_round := Some i; op_aggregator_id := None; op_report_index := Some r; op_success := false |}.
Definition op_verify_next_fails (r i j : nat) : operation :=
  {| op_operation := "verify_next"; op_round := Some i; op_aggregator_id := Some j; op_report_index := Some r; op_success := false |}.

(** [list[0] += field(1)] and [list[-1] += field(1)], 128, 149, 170, 473 *)
Definition add_one_first {P : FieldClass} (l : list (F P)) : res (list (F P)) :=
  match l with [] => Raise IndexError | x :: l => Ok (fadd x (fof 1) :: l) end.
Definition add_one_last {P : FieldClass} (l : list (F P)) : res (list (F P)) :=
  match rev l with [] => Raise IndexError | x :: l => Ok (rev (fadd x (fof 1) :: l)) end.
(** [b = bytearray(...); b[0] ^= 1], 188-189, 216-217, 235-236, 255-256 *)
Definition flip_first (b : bytes) : res bytes :=
  match b with [] => Raise IndexError | x :: b => Ok (z2b (Z.lxor (b2z x) 1) :: b) end.

Section P3.
Context (p : Prio3).
Notation InputShare := (Prio3InputShare (p3_field p)).
Notation Meas := (Measurement (p3_flp p)).
Notation Result := (AggResult (p3_flp p)).
Notation Vec := (test_vec Meas Result).
(** The value of the key 'measurement' is None in these test vectors; it stands
    here for an arbitrary measurement, which is not read. *)
Context (none : Meas).

(** 350-448 [_prio3_verifier_shares_to_message_failure] *)
Definition prio3_message_failure (verify_key nonce rand ctx : bytes) (public_share : option (list bytes))
  (input_share_0 input_share_1 : InputShare) : res Vec :=
  let* (_, verifier_share_0) := p3_verify_init p verify_key ctx 0 tt nonce public_share input_share_0 in
  let* (_, verifier_share_1) := p3_verify_init p verify_key ctx 1 tt nonce public_share input_share_1 in
  let* _ := should_fail (p3_verifier_shares_to_message p ctx tt [verifier_share_0; verifier_share_1])
              "verifier_shares_to_message should fail" in
  let* ps := hexed p3_encode_public_share public_share in
  let* is0 := hexed (p3_encode_input_share p) input_share_0 in
  let* is1 := hexed (p3_encode_input_share p) input_share_1 in
  let* vs0 := hexed (p3_encode_verifier_share p) verifier_share_0 in
  let* vs1 := hexed (p3_encode_verifier_share p) verifier_share_1 in
  Ok {| tv_operations := [op_verify_init 0 0; op_verify_init 0 1; op_to_message_fails 0 0];
        tv_shares := 2; tv_verify_key := to_hex verify_key; tv_agg_param := ""; tv_ctx := to_hex ctx;
        tv_reports := [{| rv_measurement := none; rv_nonce := to_hex nonce; rv_rand := to_hex rand;
          rv_public_share := ps; rv_input_shares := [is0; is1]; rv_verifier_shares := [[vs0; vs1]];
          rv_verifier_messages := []; rv_out_shares := [] |}];
        tv_agg_shares := []; tv_agg_result := None |}.

(** The edits of the Leader's and the Helper's input share, 123-131, 145-151, 165-172,
    186-191, 214-219, 233-238.  [tuple[2]] of a share without that entry, or with
    None there, raises. *)
Definition bad_meas_share (s : InputShare) : res InputShare :=
  match s with
  | Leader meas proofs blind => let* meas := add_one_first meas in Ok (Leader meas proofs blind)
  | Helper _ _ => Raise TypeError
  end.
Definition bad_wire_seed (s : InputShare) : res InputShare :=
  match s with
  | Leader meas proofs blind => let* proofs := add_one_first proofs in Ok (Leader meas proofs blind)
  | Helper _ _ => Raise TypeError
  end.
Definition bad_gadget_poly (s : InputShare) : res InputShare :=
  match s with
  | Leader meas proofs blind => let* proofs := add_one_last proofs in Ok (Leader meas proofs blind)
  | Helper _ _ => Raise TypeError
  end.
Definition bad_helper_seed (s : InputShare) : res InputShare :=
  match s with
  | Helper share blind => let* share := flip_first share in Ok (Helper share blind)
  | Leader _ _ _ => Raise TypeError
  end.
Definition bad_leader_jr_blind (s : InputShare) : res InputShare :=
  match s with
  | Leader meas proofs (Some blind) => let* blind := flip_first blind in Ok (Leader meas proofs (Some blind))
  | Leader _ _ None => Raise TypeError
  | Helper _ _ => Raise IndexError
  end.
Definition bad_helper_jr_blind (s : InputShare) : res InputShare :=
  match s with
  | Helper share (Some blind) => let* blind := flip_first blind in Ok (Helper share (Some blind))
  | Helper _ None => Raise TypeError
  | Leader _ _ _ => Raise TypeError
  end.
(** 252-257 *)
Definition bad_public_share (public_share : option (list bytes)) : res (option (list bytes)) :=
  match public_share with
  | None => Raise AssertionError
  | Some parts =>
    let* part := get parts 0 in
    let* part := flip_first part in
    let* parts := set parts 0 part in
    Ok (Some parts)
  end.

(** [public_share, [input_share_0, input_share_1] = vdaf.shard(...)], 115-120, 207-212 *)
Definition shard_two (ctx : bytes) (measurement : Meas) (nonce rand : bytes)
  : res (option (list bytes) * InputShare * InputShare) :=
  let* (public_share, input_shares) := p3_shard p ctx measurement nonce rand in
  match input_shares with
  | [input_share_0; input_share_1] => Ok (public_share, input_share_0, input_share_1)
  | _ => Raise (ValueError "unpack")
  end.

(** 112-203: the vectors for Prio3Count(2) *)
Definition gen_negative_count (ctx : bytes) (measurement : Meas) : res (list Vec) :=
  let nonce := test_vec_gen_rand p3_NONCE_SIZE in
  let rand := test_vec_gen_rand (RAND_SIZE p) in
  let* (public_share, input_share_0, input_share_1) := shard_two ctx measurement nonce rand in
  let verify_key := test_vec_gen_rand (p3_VERIFY_KEY_SIZE p) in
  let* bad := bad_meas_share input_share_0 in
  let* v0 := prio3_message_failure verify_key nonce rand ctx public_share bad input_share_1 in
  let* bad := bad_wire_seed input_share_0 in
  let* v1 := prio3_message_failure verify_key nonce rand ctx public_share bad input_share_1 in
  let* bad := bad_gadget_poly input_share_0 in
  let* v2 := prio3_message_failure verify_key nonce rand ctx public_share bad input_share_1 in
  let* bad := bad_helper_seed input_share_1 in
  let* v3 := prio3_message_failure verify_key nonce rand ctx public_share input_share_0 bad in
  Ok [v0; v1; v2; v3].

(** 271-347: the joint randomness seed in the verifier message is replaced by zeros *)
Definition bad_verifier_message (verify_key nonce rand ctx : bytes) (public_share : option (list bytes))
  (input_share_0 input_share_1 : InputShare) : res Vec :=
  let* (verify_state_0, verifier_share_0) := p3_verify_init p verify_key ctx 0 tt nonce public_share input_share_0 in
  let bad_verifier_message := zeros (SEED_SIZE (p3_xof p)) in
  let* _ := should_fail (p3_verify_next p ctx verify_state_0 (Some bad_verifier_message)) "pep_next should fail" in
  let* ps := hexed p3_encode_public_share public_share in
  let* is0 := hexed (p3_encode_input_share p) input_share_0 in
  let* is1 := hexed (p3_encode_input_share p) input_share_1 in
  let* vs0 := hexed (p3_encode_verifier_share p) verifier_share_0 in
  Ok {| tv_operations := [op_verify_init 0 0; op_verify_next_fails 0 1 0];
        tv_shares := 2; tv_verify_key := to_hex verify_key; tv_agg_param := ""; tv_ctx := to_hex ctx;
        tv_reports := [{| rv_measurement := none; rv_nonce := to_hex nonce; rv_rand := to_hex rand;
          rv_public_share := ps; rv_input_shares := [is0; is1]; rv_verifier_shares := [[vs0]];
          rv_verifier_messages := [to_hex bad_verifier_message]; rv_out_shares := [] |}];
        tv_agg_shares := []; tv_agg_result := None |}.

(** 205-347: the vectors for Prio3Histogram(2, 5, 2); nonce and verification key are
    those of Prio3Count. *)
Definition gen_negative_histogram (verify_key nonce ctx : bytes) (measurement : Meas) : res (list Vec) :=
  let rand := test_vec_gen_rand (RAND_SIZE p) in
  let* (public_share, input_share_0, input_share_1) := shard_two ctx measurement nonce rand in
  let* bad := bad_leader_jr_blind input_share_0 in
  let* v0 := prio3_message_failure verify_key nonce rand ctx public_share bad input_share_1 in
  let* bad := bad_helper_jr_blind input_share_1 in
  let* v1 := prio3_message_failure verify_key nonce rand ctx public_share input_share_0 bad in
  let* bad := bad_public_share public_share in
  let* v2 := prio3_message_failure verify_key nonce rand ctx bad input_share_0 input_share_1 in
  let* v3 := bad_verifier_message verify_key nonce rand ctx public_share input_share_0 input_share_1 in
  Ok [v0; v1; v2; v3].
End P3.

Section P1.
Context (p : Poplar1).
Notation FVec := (FieldVec (id_field_inner (p1_idpf p)) (id_field_leaf (p1_idpf p))).
Context (none : list bool).

(** 469-476 *)
Definition bad_corr_inner (s : Poplar1InputShare p) : res (Poplar1InputShare p) :=
  let '(key, seed, corr_inner, corr_leaf) := s in
  let* corr_inner := add_one_first corr_inner in
  Ok (key, seed, corr_inner, corr_leaf).

(** 477-610.  [verify_next] returning an output share instead of a tuple is an
    error of unpacking. *)
Definition poplar1_message_failure (verify_key nonce rand ctx : bytes) (agg_param : Poplar1AggParam)
  (public_share : Poplar1PublicShare p) (input_share_0 input_share_1 : Poplar1InputShare p)
  : res (test_vec (list bool) (list Z)) :=
  let next (state : Poplar1VerifyState p) (msg : option FVec) : res (Poplar1VerifyState p * FVec) :=
    let* r := p1_verify_next p ctx state msg in
    match r with inl x => Ok x | inr _ => Raise TypeError end in
  let* (state_r0_a0, share_r0_a0) := p1_verify_init p verify_key ctx 0 agg_param nonce public_share input_share_0 in
  let* (state_r0_a1, share_r0_a1) := p1_verify_init p verify_key ctx 1 agg_param nonce public_share input_share_1 in
  let* verifier_message := p1_verifier_shares_to_message p ctx agg_param [share_r0_a0; share_r0_a1] in
  let* (_, share_r1_a0) := next state_r0_a0 verifier_message in
  let* (_, share_r1_a1) := next state_r0_a1 verifier_message in
  let* _ := should_fail (p1_verifier_shares_to_message p ctx agg_param [share_r1_a0; share_r1_a1])
              "verifier_shares_to_message should fail" in
  let* ap := hexed p1_encode_agg_param agg_param in
  let* ps := hexed (p1_encode_public_share p) public_share in
  let* is0 := hexed (p1_encode_input_share p) input_share_0 in
  let* is1 := hexed (p1_encode_input_share p) input_share_1 in
  let* vs00 := hexed (encode_idpf_field_vec p) share_r0_a0 in
  let* vs01 := hexed (encode_idpf_field_vec p) share_r0_a1 in
  let* vs10 := hexed (encode_idpf_field_vec p) share_r1_a0 in
  let* vs11 := hexed (encode_idpf_field_vec p) share_r1_a1 in
  let* m0 := hexed (p1_encode_verifier_message p) verifier_message in
  Ok {| tv_operations := [op_verify_init 0 0; op_verify_init 0 1; op_to_message 0 0; op_verify_next 0 1 0; op_verify_next 0 1 1;
          op_to_message_fails 0 1];
        tv_shares := 2; tv_verify_key := to_hex verify_key; tv_agg_param := ap; tv_ctx := to_hex ctx;
        tv_reports := [{| rv_measurement := none; rv_nonce := to_hex nonce; rv_rand := to_hex rand;
          rv_public_share := ps; rv_input_shares := [is0; is1]; rv_verifier_shares := [[vs00; vs01]; [vs10; vs11]];
          rv_verifier_messages := [m0]; rv_out_shares := [] |}];
        tv_agg_shares := []; tv_agg_result := None |}.

(** 451-610 [gen_poplar1_negative_test_vec]; there for Poplar1(2), the measurement
    (False, True) and the aggregation parameter (0, [(False,), (True,)]). *)
Definition gen_poplar1_negative (ctx : bytes) (measurement : list bool) (agg_param : Poplar1AggParam)
  : res (test_vec (list bool) (list Z)) :=
  let nonce := test_vec_gen_rand p1_NONCE_SIZE in
  let rand := test_vec_gen_rand (p1_RAND_SIZE p) in
  let* (public_share, input_shares) := p1_shard p ctx measurement nonce rand in
  match input_shares with
  | [input_share_0; input_share_1] =>
    let verify_key := test_vec_gen_rand (p1_VERIFY_KEY_SIZE p) in
    let* bad := bad_corr_inner input_share_0 in
    poplar1_message_failure verify_key nonce rand ctx agg_param public_share bad input_share_1
  | _ => Raise (ValueError "unpack")
  end.
End P1.
