(** Model of /repo/poc/vdaf_poc/vdaf.py. *)
From Verif Require Export Common.
Open Scope nat_scope.

(** vdaf.py:23-268: the attributes and methods of a VDAF.  Every method may
    raise.  [vd_verify_next] returns either the next state and verifier share
    (a tuple in the code) or an output share (not a tuple). *)
Record Vdaf : Type := {
  vd_Measurement : Type;
  vd_AggParam : Type;
  vd_PublicShare : Type;
  vd_InputShare : Type;
  vd_OutShare : Type;
  vd_AggShare : Type;
  vd_AggResult : Type;
  vd_VerifyState : Type;
  vd_VerifierShare : Type;
  vd_VerifierMessage : Type;
  (* vdaf.py:51-67 *)
  vd_ID : Z;
  vd_VERIFY_KEY_SIZE : nat;
  vd_NONCE_SIZE : nat;
  vd_RAND_SIZE : nat;
  vd_SHARES : nat;
  vd_ROUNDS : nat;
  (* vdaf.py:74-79: ctx, measurement, nonce, rand *)
  vd_shard : bytes -> vd_Measurement -> bytes -> bytes -> res (vd_PublicShare * list vd_InputShare);
  (* vdaf.py:93-94 *)
  vd_is_valid : vd_AggParam -> list vd_AggParam -> res bool;
  (* vdaf.py:102-110: verify_key, ctx, agg_id, agg_param, nonce, public_share, input_share *)
  vd_verify_init : bytes -> bytes -> nat -> vd_AggParam -> bytes -> vd_PublicShare -> vd_InputShare ->
    res (vd_VerifyState * vd_VerifierShare);
  (* vdaf.py:128-132: ctx, verify_state, verifier_message *)
  vd_verify_next : bytes -> vd_VerifyState -> vd_VerifierMessage ->
    res ((vd_VerifyState * vd_VerifierShare) + vd_OutShare);
  (* vdaf.py:141-144: ctx, agg_param, verifier_shares *)
  vd_verifier_shares_to_message : bytes -> vd_AggParam -> list vd_VerifierShare -> res vd_VerifierMessage;
  (* vdaf.py:154-155 *)
  vd_agg_init : vd_AggParam -> res vd_AggShare;
  (* vdaf.py:163-166 *)
  vd_agg_update : vd_AggParam -> vd_AggShare -> vd_OutShare -> res vd_AggShare;
  (* vdaf.py:175-177 *)
  vd_merge : vd_AggParam -> list vd_AggShare -> res vd_AggShare;
  (* vdaf.py:185-188 *)
  vd_unshard : vd_AggParam -> list vd_AggShare -> nat -> res vd_AggResult;
  (* vdaf.py:214-268 *)
  vd_encode_agg_param : vd_AggParam -> res bytes;
  vd_decode_agg_param : bytes -> res vd_AggParam;
  vd_encode_input_share : vd_InputShare -> res bytes;
  vd_decode_input_share : nat -> bytes -> res vd_InputShare;
  vd_encode_public_share : vd_PublicShare -> res bytes;
  vd_decode_public_share : bytes -> res vd_PublicShare;
  vd_encode_agg_share : vd_AggShare -> res bytes;
  vd_decode_agg_share : vd_AggParam -> bytes -> res vd_AggShare;
  vd_encode_verifier_share : vd_VerifierShare -> res bytes;
  vd_decode_verifier_share : vd_VerifyState -> bytes -> res vd_VerifierShare;
  vd_encode_verifier_message : vd_VerifierMessage -> res bytes;
  vd_decode_verifier_message : vd_VerifyState -> bytes -> res vd_VerifierMessage;
  vd_encode_out_share : vd_OutShare -> res bytes;
  vd_decode_out_share : vd_AggParam -> bytes -> res vd_OutShare;
}.

(** vdaf.py:203-212 *)
Definition domain_separation_tag (ID usage : Z) (ctx : bytes) : res bytes :=
  let* d := format_dst 0 ID usage in
  Ok (d ++ ctx).

Section Run.
Context (vdaf : Vdaf).
Notation State := (vd_VerifyState vdaf).
Notation VShare := (vd_VerifierShare vdaf).

(** vdaf.py:324-333: every Aggregator initializes verification. *)
Definition run_verify_init (verify_key ctx : bytes) (agg_param : vd_AggParam vdaf) (nonce : bytes)
  (public_share : vd_PublicShare vdaf) (input_shares : list (vd_InputShare vdaf))
  : res (list State * list VShare) :=
  for_range 0 (vd_SHARES vdaf) ([], []) (fun '(verify_states, outbound_verifier_shares) j =>
    let* input_share := get input_shares j in
    let* (state, share) := vd_verify_init vdaf verify_key ctx j agg_param nonce public_share input_share in
    Ok (verify_states ++ [state], outbound_verifier_shares ++ [share])).

(** vdaf.py:340-351: all rounds but the last. *)
Definition run_rounds (ctx : bytes) (agg_param : vd_AggParam vdaf)
  (verify_states : list State) (outbound_verifier_shares : list VShare) : res (list State * list VShare) :=
  for_range 0 (vd_ROUNDS vdaf - 1) (verify_states, outbound_verifier_shares)
    (fun '(verify_states, outbound_verifier_shares) _ =>
      let* verifier_message :=
        vd_verifier_shares_to_message vdaf ctx agg_param outbound_verifier_shares in
      for_range 0 (vd_SHARES vdaf) (verify_states, [])
        (fun '(verify_states, outbound_verifier_shares) j =>
          let* state := get verify_states j in
          let* out := vd_verify_next vdaf ctx state verifier_message in
          match out with
          | inl (state, verifier_share) =>
            let* verify_states := set verify_states j state in
            Ok (verify_states, outbound_verifier_shares ++ [verifier_share])
          | inr _ => Raise AssertionError
          end)).

(** vdaf.py:353-364: the last round and aggregation. *)
Definition run_finish (ctx : bytes) (agg_param : vd_AggParam vdaf)
  (verify_states : list State) (outbound_verifier_shares : list VShare)
  (agg_shares : list (vd_AggShare vdaf)) : res (list (vd_AggShare vdaf)) :=
  let* verifier_message :=
    vd_verifier_shares_to_message vdaf ctx agg_param outbound_verifier_shares in
  for_range 0 (vd_SHARES vdaf) agg_shares (fun agg_shares j =>
    let* state := get verify_states j in
    let* out_share := vd_verify_next vdaf ctx state verifier_message in
    match out_share with
    | inl _ => Raise AssertionError
    | inr out_share =>
      let* agg_share := get agg_shares j in
      let* agg_share := vd_agg_update vdaf agg_param agg_share out_share in
      set agg_shares j agg_share
    end).

(** vdaf.py:313-364: the body of the loop over the measurements.  [nonce] and
    [rand] are the results of the two calls of [gen_rand]. *)
Definition run_report (verify_key ctx : bytes) (agg_param : vd_AggParam vdaf)
  (agg_shares : list (vd_AggShare vdaf)) (report : vd_Measurement vdaf * bytes * bytes)
  : res (list (vd_AggShare vdaf)) :=
  let '(measurement, nonce, rand) := report in
  let* (public_share, input_shares) := vd_shard vdaf ctx measurement nonce rand in
  let* (verify_states, outbound_verifier_shares) :=
    run_verify_init verify_key ctx agg_param nonce public_share input_shares in
  let* (verify_states, outbound_verifier_shares) :=
    run_rounds ctx agg_param verify_states outbound_verifier_shares in
  run_finish ctx agg_param verify_states outbound_verifier_shares agg_shares.

(** vdaf.py:284-371 [run_vdaf].  Each measurement comes with the nonce and the
    randomness that [gen_rand] returned for it. *)
Definition run_vdaf (verify_key : bytes) (agg_param : vd_AggParam vdaf) (ctx : bytes)
  (measurements : list (vd_Measurement vdaf * bytes * bytes)) : res (vd_AggResult vdaf) :=
  let* _ := check (length verify_key =? vd_VERIFY_KEY_SIZE vdaf) (ValueError "incorrect verify_key size") in
  let* agg_shares := mapM (fun _ => vd_agg_init vdaf agg_param) (range 0 (vd_SHARES vdaf)) in
  let* agg_shares := foldM (run_report verify_key ctx agg_param) measurements agg_shares in
  vd_unshard vdaf agg_param agg_shares (length measurements).
End Run.
