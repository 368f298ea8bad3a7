(** Model of /repo/poc/vdaf_poc/vdaf_prio3.py. *)
From Verif Require Export Vdaf Xof Flp FlpBBCGGI19 Circuits.
Open Scope nat_scope.

(** vdaf_prio3.py:13-19 *)
Definition USAGE_MEAS_SHARE : Z := 1.
Definition USAGE_PROOF_SHARE : Z := 2.
Definition USAGE_JOINT_RANDOMNESS : Z := 3.
Definition USAGE_PROVE_RANDOMNESS : Z := 4.
Definition USAGE_QUERY_RANDOMNESS : Z := 5.
Definition USAGE_JOINT_RAND_SEED : Z := 6.
Definition USAGE_JOINT_RAND_PART : Z := 7.

(** The attributes of a Prio3 object (vdaf_prio3.py:61-87).  RAND_SIZE is
    computed below.  [PROOFS] is a natural number (the code documents the range
    1..255 and does not check it). *)
Record Prio3 : Type := {
  p3_field : FieldClass;
  p3_flp : Flp p3_field;
  p3_xof : XofClass;
  p3_ID : Z;
  p3_VERIFY_KEY_SIZE : nat;
  p3_SHARES : nat;
  p3_PROOFS : nat;
}.

(** vdaf_prio3.py:68-87 [__init__] *)
Definition Prio3_init (field : FieldClass) (xof : XofClass) (ID : Z) (verify_key_size : nat)
  (shares : Z) (flp : Flp field) (num_proofs : nat) : res Prio3 :=
  if ((2 <=? shares) && (shares <? 256))%Z then
    Ok {| p3_field := field; p3_flp := flp; p3_xof := xof; p3_ID := ID;
          p3_VERIFY_KEY_SIZE := verify_key_size; p3_SHARES := Z.to_nat shares;
          p3_PROOFS := num_proofs |}
  else Raise (ValueError "invalid number of shares").

(** vdaf_prio3.py:25-34: leader and helper input shares are tuples of length
    three and two. *)
Inductive Prio3InputShare (P : FieldClass) : Type :=
| Leader (meas_share proofs_share : list (F P)) (blind : option bytes)
| Helper (share : bytes) (blind : option bytes).
Arguments Leader {P} meas_share proofs_share blind.
Arguments Helper {P} share blind.

(** [x != y] on optional byte strings. *)
Definition opt_bytes_eqb (x y : option bytes) : bool :=
  match x, y with
  | None, None => true
  | Some a, Some b => bytes_eqb a b
  | _, _ => false
  end.

Section P3.
Context (p : Prio3).
Notation field := (p3_field p).
Notation flp := (p3_flp p).
Notation xof := (p3_xof p).
Notation SHARES := (p3_SHARES p).
Notation PROOFS := (p3_PROOFS p).
Notation FP := (F (p3_field p)).
Notation InputShare := (Prio3InputShare (p3_field p)).

(** vdaf_prio3.py:84-87 *)
Definition RAND_SIZE : nat :=
  SHARES * SEED_SIZE xof + (if 0 <? JOINT_RAND_LEN flp then SHARES * SEED_SIZE xof else 0).

(** vdaf.py:203-212 *)
Definition p3_dst (usage : Z) (ctx : bytes) : res bytes := domain_separation_tag (p3_ID p) usage ctx.

(** vdaf_prio3.py:413-424 *)
Definition helper_meas_share (ctx : bytes) (agg_id : nat) (share : bytes) : res (list FP) :=
  let* dst := p3_dst USAGE_MEAS_SHARE ctx in
  let* binder := byte_of (Z.of_nat agg_id) in
  expand_into_vec xof field share dst binder (MEAS_LEN flp).

(** vdaf_prio3.py:426-437 *)
Definition helper_proofs_share (ctx : bytes) (agg_id : nat) (share : bytes) : res (list FP) :=
  let* dst := p3_dst USAGE_PROOF_SHARE ctx in
  let* b0 := byte_of (Z.of_nat PROOFS) in
  let* b1 := byte_of (Z.of_nat agg_id) in
  expand_into_vec xof field share dst (b0 ++ b1) (PROOF_LEN flp * PROOFS).

(** vdaf_prio3.py:439-455 *)
Definition expand_input_share (ctx : bytes) (agg_id : nat) (input_share : InputShare)
  : res (list FP * list FP * option bytes) :=
  if 0 <? agg_id then
    match input_share with
    | Helper share blind =>
      let* meas_share := helper_meas_share ctx agg_id share in
      let* proofs_share := helper_proofs_share ctx agg_id share in
      Ok (meas_share, proofs_share, blind)
    | Leader _ _ _ => Raise AssertionError
    end
  else
    match input_share with
    | Leader meas_share proofs_share blind => Ok (meas_share, proofs_share, blind)
    | Helper _ _ => Raise AssertionError
    end.

(** vdaf_prio3.py:457-464 *)
Definition prove_rands (ctx prove_seed : bytes) : res (list FP) :=
  let* dst := p3_dst USAGE_PROVE_RANDOMNESS ctx in
  let* binder := byte_of (Z.of_nat PROOFS) in
  expand_into_vec xof field prove_seed dst binder (PROVE_RAND_LEN flp * PROOFS).

(** vdaf_prio3.py:466-477 *)
Definition query_rands (verify_key ctx nonce : bytes) : res (list FP) :=
  let* dst := p3_dst USAGE_QUERY_RANDOMNESS ctx in
  let* b0 := byte_of (Z.of_nat PROOFS) in
  expand_into_vec xof field verify_key dst (b0 ++ nonce) (QUERY_RAND_LEN flp * PROOFS).

(** vdaf_prio3.py:479-490 *)
Definition joint_rand_part (ctx : bytes) (agg_id : nat) (blind : bytes) (meas_share : list FP)
  (nonce : bytes) : res bytes :=
  let* dst := p3_dst USAGE_JOINT_RAND_PART ctx in
  let* b0 := byte_of (Z.of_nat agg_id) in
  let* e := encode_vec meas_share in
  derive_seed xof blind dst (b0 ++ nonce ++ e).

(** vdaf_prio3.py:492-500 *)
Definition joint_rand_seed (ctx : bytes) (joint_rand_parts : list bytes) : res bytes :=
  let* dst := p3_dst USAGE_JOINT_RAND_SEED ctx in
  derive_seed xof (zeros (SEED_SIZE xof)) dst (concat_bytes joint_rand_parts).

(** vdaf_prio3.py:502-512 *)
Definition joint_rands (ctx joint_rand_seed : bytes) : res (list FP) :=
  let* dst := p3_dst USAGE_JOINT_RANDOMNESS ctx in
  let* binder := byte_of (Z.of_nat PROOFS) in
  expand_into_vec xof field joint_rand_seed dst binder (JOINT_RAND_LEN flp * PROOFS).

(** vdaf_prio3.py:301-309 and 380-388: subtract the helpers' proof shares. *)
Definition leader_proofs (ctx : bytes) (helper_shares : list bytes) (leader_proofs_share : list FP)
  : res (list FP) :=
  for_range 0 (SHARES - 1) leader_proofs_share (fun leader_proofs_share j =>
    let* share := get helper_shares j in
    let* h := helper_proofs_share ctx (j + 1) share in
    vec_sub leader_proofs_share h).

(** vdaf_prio3.py:276-324 *)
Definition shard_without_joint_rand (ctx : bytes) (meas : list FP) (seeds : list bytes)
  : res (option (list bytes) * list InputShare) :=
  let* (helper_shares, seeds) := front (SHARES - 1) seeds in
  let* (prove_seed_, seeds) := front 1 seeds in
  let* prove_seed := get prove_seed_ 0 in
  let* leader_meas_share := for_range 0 (SHARES - 1) meas (fun leader_meas_share j =>
    let* share := get helper_shares j in
    let* h := helper_meas_share ctx (j + 1) share in
    vec_sub leader_meas_share h) in
  let* prove_rands := prove_rands ctx prove_seed in
  let* (leader_proofs_share, _) := for_range 0 PROOFS ([], prove_rands)
    (fun '(leader_proofs_share, prove_rands) _ =>
      let* (prove_rand, prove_rands) := front (PROVE_RAND_LEN flp) prove_rands in
      let* proof := flp_prove flp meas prove_rand [] in
      Ok (leader_proofs_share ++ proof, prove_rands)) in
  let* leader_proofs_share := leader_proofs ctx helper_shares leader_proofs_share in
  let* input_shares := for_range 0 (SHARES - 1) [Leader leader_meas_share leader_proofs_share None]
    (fun input_shares j =>
      let* share := get helper_shares j in
      Ok (input_shares ++ [Helper share None])) in
  Ok (None, input_shares).

(** vdaf_prio3.py:331-404 *)
Definition shard_with_joint_rand (ctx : bytes) (meas : list FP) (nonce : bytes) (seeds : list bytes)
  : res (option (list bytes) * list InputShare) :=
  let* (helper_seeds, seeds) := front ((SHARES - 1) * 2) seeds in
  let* even := range_step 0 ((SHARES - 1) * 2) 2 in
  let* helper_shares := mapM (get helper_seeds) even in
  let* odd := range_step 1 ((SHARES - 1) * 2) 2 in
  let* helper_blinds := mapM (get helper_seeds) odd in
  let* (last_seeds, seeds) := front 2 seeds in
  let* leader_blind := get last_seeds 0 in
  let* prove_seed := get last_seeds 1 in
  let* (leader_meas_share, joint_rand_parts) := for_range 0 (SHARES - 1) (meas, [])
    (fun '(leader_meas_share, joint_rand_parts) j =>
      let* share := get helper_shares j in
      let* h := helper_meas_share ctx (j + 1) share in
      let* leader_meas_share := vec_sub leader_meas_share h in
      let* blind := get helper_blinds j in
      let* part := joint_rand_part ctx (j + 1) blind h nonce in
      Ok (leader_meas_share, joint_rand_parts ++ [part])) in
  let* part := joint_rand_part ctx 0 leader_blind leader_meas_share nonce in
  let joint_rand_parts := part :: joint_rand_parts in
  let* prove_rands := prove_rands ctx prove_seed in
  let* seed := joint_rand_seed ctx joint_rand_parts in
  let* joint_rands := joint_rands ctx seed in
  let* (leader_proofs_share, _, _) := for_range 0 PROOFS ([], prove_rands, joint_rands)
    (fun '(leader_proofs_share, prove_rands, joint_rands) _ =>
      let* (prove_rand, prove_rands) := front (PROVE_RAND_LEN flp) prove_rands in
      let* (joint_rand, joint_rands) := front (JOINT_RAND_LEN flp) joint_rands in
      let* proof := flp_prove flp meas prove_rand joint_rand in
      Ok (leader_proofs_share ++ proof, prove_rands, joint_rands)) in
  let* leader_proofs_share := leader_proofs ctx helper_shares leader_proofs_share in
  let* input_shares := for_range 0 (SHARES - 1)
    [Leader leader_meas_share leader_proofs_share (Some leader_blind)]
    (fun input_shares j =>
      let* share := get helper_shares j in
      let* blind := get helper_blinds j in
      Ok (input_shares ++ [Helper share (Some blind)])) in
  Ok (Some joint_rand_parts, input_shares).

(** vdaf_prio3.py:61 *)
Definition p3_NONCE_SIZE : nat := 16.

(** vdaf_prio3.py:94-114 *)
Definition p3_shard (ctx : bytes) (measurement : Measurement flp) (nonce rand : bytes)
  : res (option (list bytes) * list InputShare) :=
  let* _ := check (length nonce =? p3_NONCE_SIZE) (ValueError "incorrect nonce size") in
  let* _ := check (length rand =? RAND_SIZE) (ValueError "incorrect size of random bytes argument") in
  let l := SEED_SIZE xof in
  let* starts := range_step 0 RAND_SIZE l in
  let seeds := map (fun i => slice rand i (i + l)) starts in
  let* meas := flp_encode flp measurement in
  if 0 <? JOINT_RAND_LEN flp then shard_with_joint_rand ctx meas nonce seeds
  else shard_without_joint_rand ctx meas seeds.

(** vdaf_prio3.py:121-125 *)
Definition p3_is_valid (agg_param : unit) (previous_agg_params : list unit) : res bool :=
  Ok (length previous_agg_params =? 0).

(** vdaf_prio3.py:149-162: the joint randomness of an Aggregator: corrected
    seed, own part, and the expanded randomness (unbound in the code when no
    joint randomness is used). *)
Definition verify_joint_rand (ctx : bytes) (agg_id : nat) (blind : option bytes) (meas_share : list FP)
  (nonce : bytes) (joint_rand_parts : option (list bytes))
  : res (option bytes * option bytes * list FP) :=
  if 0 <? JOINT_RAND_LEN flp then
    match blind, joint_rand_parts with
    | Some blind, Some joint_rand_parts =>
      let* part := joint_rand_part ctx agg_id blind meas_share nonce in
      let* joint_rand_parts := set joint_rand_parts agg_id part in
      let* corrected := joint_rand_seed ctx joint_rand_parts in
      let* joint_rands := joint_rands ctx corrected in
      Ok (Some corrected, Some part, joint_rands)
    | _, _ => Raise AssertionError
    end
  else Ok (None, None, []).

(** vdaf_prio3.py:133-185 *)
Definition p3_verify_init (verify_key ctx : bytes) (agg_id : nat) (agg_param : unit) (nonce : bytes)
  (public_share : option (list bytes)) (input_share : InputShare)
  : res ((list FP * option bytes) * (list FP * option bytes)) :=
  let* (meas_share, proofs_share, blind) := expand_input_share ctx agg_id input_share in
  let* out_share := flp_truncate flp meas_share in
  let* (corrected_joint_rand_seed, joint_rand_part, joint_rands) :=
    verify_joint_rand ctx agg_id blind meas_share nonce public_share in
  let* query_rands := query_rands verify_key ctx nonce in
  let* (verifiers_share, _, _, _) := for_range 0 PROOFS ([], proofs_share, query_rands, joint_rands)
    (fun '(verifiers_share, proofs_share, query_rands, joint_rands) _ =>
      let* (proof_share, proofs_share) := front (PROOF_LEN flp) proofs_share in
      let* (query_rand, query_rands) := front (QUERY_RAND_LEN flp) query_rands in
      let* (joint_rand, joint_rands) :=
        (if 0 <? JOINT_RAND_LEN flp then front (JOINT_RAND_LEN flp) joint_rands else Ok ([], joint_rands)) in
      let* v := flp_query flp meas_share proof_share query_rand joint_rand SHARES in
      Ok (verifiers_share ++ v, proofs_share, query_rands, joint_rands)) in
  Ok ((out_share, corrected_joint_rand_seed), (verifiers_share, joint_rand_part)).

(** vdaf_prio3.py:187-215 *)
Definition p3_verifier_shares_to_message (ctx : bytes) (agg_param : unit)
  (verifier_shares : list (list FP * option bytes)) : res (option bytes) :=
  let* (verifiers, joint_rand_parts) := foldM
    (fun '(verifiers, joint_rand_parts) '(verifiers_share, joint_rand_part) =>
      let* verifiers := vec_add verifiers verifiers_share in
      if 0 <? JOINT_RAND_LEN flp then
        match joint_rand_part with
        | Some part => Ok (verifiers, joint_rand_parts ++ [part])
        | None => Raise AssertionError
        end
      else Ok (verifiers, joint_rand_parts))
    verifier_shares (fzeros (VERIFIER_LEN flp * PROOFS), []) in
  let* _ := for_range 0 PROOFS verifiers (fun verifiers _ =>
    let* (verifier, verifiers) := front (VERIFIER_LEN flp) verifiers in
    let* ok := flp_decide flp verifier in
    let* _ := check ok (ValueError "proof verifier check failed") in
    Ok verifiers) in
  if 0 <? JOINT_RAND_LEN flp then
    let* seed := joint_rand_seed ctx joint_rand_parts in
    Ok (Some seed)
  else Ok None.

(** vdaf_prio3.py:217-231 *)
Definition p3_verify_next (ctx : bytes) (verify_state : list FP * option bytes)
  (verifier_message : option bytes)
  : res (((list FP * option bytes) * (list FP * option bytes)) + list FP) :=
  let joint_rand_seed := verifier_message in
  let '(out_share, corrected_joint_rand_seed) := verify_state in
  let* _ := check (opt_bytes_eqb joint_rand_seed corrected_joint_rand_seed)
                  (ValueError "joint randomness check failed") in
  Ok (inr out_share).

(** vdaf_prio3.py:239-240 *)
Definition p3_agg_init (agg_param : unit) : res (list FP) := Ok (fzeros (OUTPUT_LEN flp)).

(** vdaf_prio3.py:242-246 *)
Definition p3_agg_update (agg_param : unit) (agg_share out_share : list FP) : res (list FP) :=
  vec_add agg_share out_share.

(** vdaf_prio3.py:248-254 *)
Definition p3_merge (agg_param : unit) (agg_shares : list (list FP)) : res (list FP) :=
  let* agg := p3_agg_init tt in
  foldM vec_add agg_shares agg.

(** vdaf_prio3.py:261-267 *)
Definition p3_unshard (agg_param : unit) (agg_shares : list (list FP)) (num_measurements : nat)
  : res (AggResult flp) :=
  let* agg := p3_merge tt agg_shares in
  flp_decode flp agg num_measurements.

(** vdaf_prio3.py:514-519 *)
Definition p3_encode_agg_param (agg_param : unit) : res bytes := Ok [].
Definition p3_decode_agg_param (encoded : bytes) : res unit :=
  match encoded with
  | [] => Ok tt
  | _ => Raise (ValueError "invalid encoded aggregation parameter")
  end.

(** vdaf_prio3.py:534-535, 570-571, 596-597, 617-618: [if x is not None: encoded += x] *)
Definition app_opt (encoded : bytes) (x : option bytes) : bytes :=
  match x with Some b => encoded ++ b | None => encoded end.

(** vdaf_prio3.py:524-536 *)
Definition p3_encode_input_share (input_share : InputShare) : res bytes :=
  match input_share with
  | Leader meas_share proofs_share blind =>
    let* _ := check (length proofs_share =? PROOF_LEN flp * PROOFS) AssertionError in
    let* a := encode_vec meas_share in
    let* b := encode_vec proofs_share in
    Ok (app_opt (a ++ b) blind)
  | Helper share blind => Ok (app_opt share blind)
  end.

(** vdaf_prio3.py:551-554, 558-561, 606-609 *)
Definition decode_blind (encoded : bytes) : res (option bytes * bytes) :=
  if 0 <? JOINT_RAND_LEN flp then
    let* (blind, encoded) := front (SEED_SIZE xof) encoded in
    Ok (Some blind, encoded)
  else Ok (None, encoded).

(** vdaf_prio3.py:538-565 *)
Definition p3_decode_input_share (agg_id : nat) (encoded : bytes) : res InputShare :=
  if agg_id =? 0 then
    let* (meas_bytes, encoded) := front (ENCODED_SIZE field * MEAS_LEN flp) encoded in
    let* (proofs_bytes, encoded) := front (ENCODED_SIZE field * PROOF_LEN flp * PROOFS) encoded in
    let* meas := decode_vec meas_bytes in
    let* proofs := decode_vec proofs_bytes in
    let* (blind, encoded) := decode_blind encoded in
    let* _ := check (length encoded =? 0) (ValueError "input share is too long") in
    Ok (Leader meas proofs blind)
  else
    let* (share, encoded) := front (SEED_SIZE xof) encoded in
    let* (blind, encoded) := decode_blind encoded in
    let* _ := check (length encoded =? 0) (ValueError "input share is too long") in
    Ok (Helper share blind).

(** vdaf_prio3.py:567-572 *)
Definition p3_encode_public_share (public_share : option (list bytes)) : res bytes :=
  match public_share with
  | Some joint_rand_parts => Ok (concat_bytes joint_rand_parts)
  | None => Ok []
  end.

(** vdaf_prio3.py:574-583 *)
Definition p3_decode_public_share (encoded : bytes) : res (option (list bytes)) :=
  if JOINT_RAND_LEN flp =? 0 then Ok None
  else
    let* (joint_rand_parts, encoded) := for_range 0 SHARES ([], encoded)
      (fun '(joint_rand_parts, encoded) _ =>
        let* (joint_rand_part, encoded) := front (SEED_SIZE xof) encoded in
        Ok (joint_rand_parts ++ [joint_rand_part], encoded)) in
    let* _ := check (length encoded =? 0) (ValueError "public share is too long") in
    Ok (Some joint_rand_parts).

(** vdaf_prio3.py:585-589 *)
Definition p3_encode_agg_share (agg_share : list FP) : res bytes := encode_vec agg_share.
Definition p3_decode_agg_share (agg_param : unit) (encoded : bytes) : res (list FP) := decode_vec encoded.

(** vdaf_prio3.py:591-598 *)
Definition p3_encode_verifier_share (verifier_share : list FP * option bytes) : res bytes :=
  let '(verifiers_share, joint_rand_part) := verifier_share in
  let* _ := check (length verifiers_share =? VERIFIER_LEN flp * PROOFS) AssertionError in
  let* e := encode_vec verifiers_share in
  Ok (app_opt e joint_rand_part).

(** vdaf_prio3.py:600-612 *)
Definition p3_decode_verifier_share (verify_state : list FP * option bytes) (encoded : bytes)
  : res (list FP * option bytes) :=
  let* (verifiers_share_bytes, encoded) := front (ENCODED_SIZE field * VERIFIER_LEN flp * PROOFS) encoded in
  let* verifiers_share := decode_vec verifiers_share_bytes in
  let* (joint_rand_part, encoded) := decode_blind encoded in
  let* _ := check (length encoded =? 0) (ValueError "verifier share is too long") in
  Ok (verifiers_share, joint_rand_part).

(** vdaf_prio3.py:614-619 *)
Definition p3_encode_verifier_message (verifier_message : option bytes) : res bytes :=
  Ok (app_opt [] verifier_message).

(** vdaf_prio3.py:621-624 *)
Definition p3_decode_verifier_message (verify_state : list FP * option bytes) (encoded : bytes)
  : res (option bytes) :=
  Ok (match encoded with [] => None | _ => Some encoded end).

(** vdaf_prio3.py:626-630 *)
Definition p3_encode_out_share (out_share : list FP) : res bytes := encode_vec out_share.
Definition p3_decode_out_share (agg_param : unit) (encoded : bytes) : res (list FP) := decode_vec encoded.

(** vdaf_prio3.py:45-62 *)
Definition Prio3Vdaf : Vdaf := {|
  vd_Measurement := Measurement flp;
  vd_AggParam := unit;
  vd_PublicShare := option (list bytes);
  vd_InputShare := InputShare;
  vd_OutShare := list FP;
  vd_AggShare := list FP;
  vd_AggResult := AggResult flp;
  vd_VerifyState := list FP * option bytes;
  vd_VerifierShare := list FP * option bytes;
  vd_VerifierMessage := option bytes;
  vd_ID := p3_ID p;
  vd_VERIFY_KEY_SIZE := p3_VERIFY_KEY_SIZE p;
  vd_NONCE_SIZE := p3_NONCE_SIZE;
  vd_RAND_SIZE := RAND_SIZE;
  vd_SHARES := SHARES;
  vd_ROUNDS := 1;
  vd_shard := p3_shard;
  vd_is_valid := p3_is_valid;
  vd_verify_init := p3_verify_init;
  vd_verify_next := p3_verify_next;
  vd_verifier_shares_to_message := p3_verifier_shares_to_message;
  vd_agg_init := p3_agg_init;
  vd_agg_update := p3_agg_update;
  vd_merge := p3_merge;
  vd_unshard := p3_unshard;
  vd_encode_agg_param := p3_encode_agg_param;
  vd_decode_agg_param := p3_decode_agg_param;
  vd_encode_input_share := p3_encode_input_share;
  vd_decode_input_share := p3_decode_input_share;
  vd_encode_public_share := p3_encode_public_share;
  vd_decode_public_share := p3_decode_public_share;
  vd_encode_agg_share := p3_encode_agg_share;
  vd_decode_agg_share := p3_decode_agg_share;
  vd_encode_verifier_share := p3_encode_verifier_share;
  vd_decode_verifier_share := p3_decode_verifier_share;
  vd_encode_verifier_message := p3_encode_verifier_message;
  vd_decode_verifier_message := p3_decode_verifier_message;
  vd_encode_out_share := p3_encode_out_share;
  vd_decode_out_share := p3_decode_out_share;
|}.
End P3.

Section Instances.
(** The primitive TurboSHAKE128 and the model's loop bound. *)
Context (ts : TurboShake) (bound : nat).
Notation xof := (XofTurboShake128 ts bound).

(** vdaf_prio3.py:637-649 *)
Definition Prio3Count (shares : Z) : res Prio3 :=
  Prio3_init Field64 xof 1 (SEED_SIZE xof) shares (FlpBBCGGI19 (Count Field64)) 1.

(** vdaf_prio3.py:652-664 *)
Definition Prio3Sum (shares max_measurement : Z) : res Prio3 :=
  let* v := Sum_init Field64 max_measurement in
  Prio3_init Field64 xof 2 (SEED_SIZE xof) shares (FlpBBCGGI19 v) 1.

(** vdaf_prio3.py:667-684 *)
Definition Prio3SumVec (shares length max_measurement chunk_length : Z) : res Prio3 :=
  let* v := SumVec_init Field128 length max_measurement chunk_length in
  Prio3_init Field128 xof 3 (SEED_SIZE xof) shares (FlpBBCGGI19 v) 1.

(** vdaf_prio3.py:687-699 *)
Definition Prio3Histogram (shares length chunk_length : Z) : res Prio3 :=
  let* v := Histogram_init Field128 length chunk_length in
  Prio3_init Field128 xof 4 (SEED_SIZE xof) shares (FlpBBCGGI19 v) 1.

(** vdaf_prio3.py:702-732 *)
Definition Prio3SumVecWithMultiproof (shares : Z) (field : NttFieldClass) (num_proofs : nat)
  (length max_measurement chunk_length : Z) : res Prio3 :=
  let* v := SumVec_init field length max_measurement chunk_length in
  Prio3_init field xof (Z.of_N 0xFFFFFFFF) (SEED_SIZE xof) shares (FlpBBCGGI19 v) num_proofs.

(** vdaf_prio3.py:735-754 *)
Definition Prio3MultihotCountVec (shares length max_weight chunk_length : Z) : res Prio3 :=
  let* v := MultihotCountVec_init Field128 length max_weight chunk_length in
  Prio3_init Field128 xof 5 (SEED_SIZE xof) shares (FlpBBCGGI19 v) 1.
End Instances.
