(** Vocabulary for Clients and Aggregators that disagree on the parameters of the
    circuit.  Nothing here models a /repo function. *)
From Verif Require Export Vdaf Prio3 Prio3Spec Circuits MeasSpec.
Open Scope nat_scope.

(** The VDAF with other Clients. *)
Definition with_clients (V : Vdaf) (M : Type) (shard : bytes -> M -> bytes -> bytes -> res (vd_PublicShare V * list (vd_InputShare V))) : Vdaf := {|
  vd_Measurement := M;
  vd_AggParam := vd_AggParam V; vd_PublicShare := vd_PublicShare V; vd_InputShare := vd_InputShare V;
  vd_OutShare := vd_OutShare V; vd_AggShare := vd_AggShare V; vd_AggResult := vd_AggResult V;
  vd_VerifyState := vd_VerifyState V; vd_VerifierShare := vd_VerifierShare V; vd_VerifierMessage := vd_VerifierMessage V;
  vd_ID := vd_ID V; vd_VERIFY_KEY_SIZE := vd_VERIFY_KEY_SIZE V; vd_NONCE_SIZE := vd_NONCE_SIZE V;
  vd_RAND_SIZE := vd_RAND_SIZE V; vd_SHARES := vd_SHARES V; vd_ROUNDS := vd_ROUNDS V;
  vd_shard := shard;
  vd_is_valid := vd_is_valid V; vd_verify_init := vd_verify_init V; vd_verify_next := vd_verify_next V;
  vd_verifier_shares_to_message := vd_verifier_shares_to_message V;
  vd_agg_init := vd_agg_init V; vd_agg_update := vd_agg_update V; vd_merge := vd_merge V; vd_unshard := vd_unshard V;
  vd_encode_agg_param := vd_encode_agg_param V; vd_decode_agg_param := vd_decode_agg_param V;
  vd_encode_input_share := vd_encode_input_share V; vd_decode_input_share := vd_decode_input_share V;
  vd_encode_public_share := vd_encode_public_share V; vd_decode_public_share := vd_decode_public_share V;
  vd_encode_agg_share := vd_encode_agg_share V; vd_decode_agg_share := vd_decode_agg_share V;
  vd_encode_verifier_share := vd_encode_verifier_share V; vd_decode_verifier_share := vd_decode_verifier_share V;
  vd_encode_verifier_message := vd_encode_verifier_message V; vd_decode_verifier_message := vd_decode_verifier_message V;
  vd_encode_out_share := vd_encode_out_share V; vd_decode_out_share := vd_decode_out_share V |}.

(** Two circuits that check the same thing: they may differ in how measurements
    are encoded, truncated and decoded. *)
Record same_check {P : NttFieldClass} (v v' : Valid P) : Prop := {
  sc_gadgets : GADGETS v = GADGETS v';
  sc_calls : GADGET_CALLS v = GADGET_CALLS v';
  sc_meas : vMEAS_LEN v = vMEAS_LEN v';
  sc_joint : vJOINT_RAND_LEN v = vJOINT_RAND_LEN v';
  sc_out : EVAL_OUTPUT_LEN v = EVAL_OUTPUT_LEN v';
  sc_eval : valid_eval v = valid_eval v' }.

(** The integers that a vector of bits denotes, [len] of them with maximum [max]. *)
Definition reading {P : FieldClass} (len : nat) (max : Z) (bits : list (F P)) : list Z :=
  map (fun i => rc_int max (piece (bit_length max) i bits)) (seq 0 len).
(** What the Aggregators read for the measurement [m] of a Client. *)
Definition misread {P : NttFieldClass} (v : Valid P) (len : nat) (max : Z) (m : vMeasurement v) : list Z :=
  match valid_encode v m with Ok bits => reading len max bits | Raise _ => [] end.
(** The number with the given digits, least significant first, in base 2^b. *)
Definition number (b : nat) (digits : list Z) : Z :=
  fold_right (fun d n => d + 2 ^ Z.of_nat b * n)%Z 0%Z digits.
(** An entry read with another maximum of the same number of bits. *)
Definition shifted (max max' x : Z) : Z :=
  (if x <? 2 ^ Z.of_nat (bit_length max - 1) then x else x - max + max')%Z.

(** A run with the Clients' [shard] ends with [r], unless the derived query
    randomness of a report is rejected or a rejection-sampling loop hits the
    model's bound. *)
Definition outcome (p : Prio3) (good : list (F (p3_field p)) -> Prop) {M} shard key ctx (ms : list (M * bytes * bytes)) (r : res (AggResult (p3_flp p))) : Prop :=
  let run := run_vdaf (with_clients (Prio3Vdaf p) M shard) key tt ctx ms in
  run = r \/ (run = Raise OutOfFuel /\ ran_out p) \/
  (exists msg, run = Raise (ValueError msg) /\ exists m nonce rand, In (m, nonce, rand) ms /\ bad_query p good key ctx nonce).
