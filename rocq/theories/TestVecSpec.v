(** Vocabulary for the properties of test vectors.  Nothing here models a /repo
    function. *)
From Verif Require Export TestVectors RunSpec.
Open Scope nat_scope.

(** [a] has an encoding, which is read back as [a]. *)
Definition reads_back {A} (enc : A -> res bytes) (dec : bytes -> res A) (a : A) : Prop :=
  exists b, enc a = Ok b /\ dec b = Ok a.

(** [l] is a list of hexadecimal strings whose first items are the byte strings
    [bs]. *)
Definition shows_at (l : list string) (bs : list bytes) : Prop :=
  forall j b, nth_error bs j = Some b -> exists s, nth_error l j = Some s /\ fromhex s = Ok b.

Section S.
Context (vdaf : Vdaf) (ctx key : bytes) (ap : vd_AggParam vdaf).
Notation State := (vd_VerifyState vdaf).
Notation VShare := (vd_VerifierShare vdaf).
Notation Out := (vd_OutShare vdaf).
Notation Report := (vd_Measurement vdaf * bytes * bytes)%type.

(** Everything that the Aggregators exchange about these reports has an encoding
    that is read back; [I] holds of the state and verifier share of an Aggregator in
    every round. *)
Record CodecOk (I : State -> VShare -> Prop) (reports : list Report) : Prop := {
  co_ap : reads_back (vd_encode_agg_param vdaf) (vd_decode_agg_param vdaf) ap;
  co_public : forall m nonce rand ps iss, In (m, nonce, rand) reports -> vd_shard vdaf ctx m nonce rand = Ok (ps, iss) ->
    reads_back (vd_encode_public_share vdaf) (vd_decode_public_share vdaf) ps;
  co_input : forall m nonce rand ps iss j is, In (m, nonce, rand) reports -> vd_shard vdaf ctx m nonce rand = Ok (ps, iss) ->
    nth_error iss j = Some is -> reads_back (vd_encode_input_share vdaf) (vd_decode_input_share vdaf j) is;
  co_shares : forall m nonce rand ps iss, In (m, nonce, rand) reports -> vd_shard vdaf ctx m nonce rand = Ok (ps, iss) ->
    length iss = vd_SHARES vdaf;
  co_init : forall m nonce rand ps iss j is st sh, In (m, nonce, rand) reports -> vd_shard vdaf ctx m nonce rand = Ok (ps, iss) ->
    nth_error iss j = Some is -> vd_verify_init vdaf key ctx j ap nonce ps is = Ok (st, sh) -> I st sh;
  co_share : forall st sh, I st sh -> reads_back (vd_encode_verifier_share vdaf) (vd_decode_verifier_share vdaf st) sh;
  co_message : forall sts shs msg st, Forall2 I sts shs -> vd_verifier_shares_to_message vdaf ctx ap shs = Ok msg -> In st sts ->
    reads_back (vd_encode_verifier_message vdaf) (vd_decode_verifier_message vdaf st) msg;
  co_next : forall sts shs msg st st' sh', Forall2 I sts shs -> vd_verifier_shares_to_message vdaf ctx ap shs = Ok msg -> In st sts ->
    vd_verify_next vdaf ctx st msg = Ok (inl (st', sh')) -> I st' sh';
  co_out : forall sts shs msg st o, Forall2 I sts shs -> vd_verifier_shares_to_message vdaf ctx ap shs = Ok msg -> In st sts ->
    vd_verify_next vdaf ctx st msg = Ok (inr o) -> reads_back (vd_encode_out_share vdaf) (vd_decode_out_share vdaf ap) o;
  co_agg : forall outs a, (let* a := vd_agg_init vdaf ap in foldM (vd_agg_update vdaf ap) outs a) = Ok a ->
    reads_back (vd_encode_agg_share vdaf) (vd_decode_agg_share vdaf ap) a;
}.

(** The encoded verifier shares and verifier message of each round and the encoded
    output shares: [k] rounds before the last one. *)
Fixpoint round_messages (k : nat) (sts : list State) (shs : list VShare) : res (list (list bytes) * list bytes * list bytes) :=
  let* row := mapM (vd_encode_verifier_share vdaf) shs in
  let* msg := vd_verifier_shares_to_message vdaf ctx ap shs in
  let* b := vd_encode_verifier_message vdaf msg in
  match k with
  | O =>
    let* outs := mapM (fun st => let* r := vd_verify_next vdaf ctx st msg in
      match r with inr o => Ok o | inl _ => Raise AssertionError end) sts in
    let* outs := mapM (vd_encode_out_share vdaf) outs in
    Ok ([row], [b], outs)
  | S k =>
    let* next := mapM (fun st => let* r := vd_verify_next vdaf ctx st msg in
      match r with inl x => Ok x | inr _ => Raise AssertionError end) sts in
    let* (rows, msgs, outs) := round_messages k (map fst next) (map snd next) in
    Ok (row :: rows, b :: msgs, outs)
  end.

(** All encoded messages about one report: public share, input shares, verifier
    shares, verifier messages, output shares. *)
Definition report_messages (report : Report) : res (bytes * list bytes * list (list bytes) * list bytes * list bytes) :=
  let '(measurement, nonce, rand) := report in
  let* (ps, iss) := vd_shard vdaf ctx measurement nonce rand in
  let* public := vd_encode_public_share vdaf ps in
  let* inputs := mapM (vd_encode_input_share vdaf) iss in
  let* init := mapM (fun j => let* is := get iss j in vd_verify_init vdaf key ctx j ap nonce ps is) (range 0 (vd_SHARES vdaf)) in
  let* (rows, msgs, outs) := round_messages (vd_ROUNDS vdaf - 1) (map fst init) (map snd init) in
  Ok (public, inputs, rows, msgs, outs).

(** The operations on one report and on a batch of [n] reports when nothing fails. *)
Definition report_operations (r : nat) : list operation :=
  op_shard r :: map (op_verify_init r) (range 0 (vd_SHARES vdaf)) ++
  flat_map (fun i => op_to_message r i :: map (op_verify_next r (S i)) (range 0 (vd_SHARES vdaf))) (range 0 (vd_ROUNDS vdaf)).
Definition all_operations (n : nat) : list operation :=
  flat_map report_operations (range 0 n) ++ map op_aggregate (range 0 (vd_SHARES vdaf)) ++ [op_unshard].

(** A report's test vector records these inputs and the messages that result from
    them. *)
Definition report_inputs (report : Report) (rv : report_vec (vd_Measurement vdaf)) : Prop :=
  let '(measurement, nonce, rand) := report in
  rv_measurement rv = measurement /\ fromhex (rv_nonce rv) = Ok nonce /\ fromhex (rv_rand rv) = Ok rand.
Definition report_recorded (report : Report) (rv : report_vec (vd_Measurement vdaf)) : Prop :=
  exists public inputs rows msgs outs, report_messages report = Ok (public, inputs, rows, msgs, outs) /\
    fromhex (rv_public_share rv) = Ok public /\ mapM fromhex (rv_input_shares rv) = Ok inputs /\
    (forall i row, nth_error rows i = Some row -> exists l extra, nth_error (rv_verifier_shares rv) i = Some l /\ mapM fromhex l = Ok (row ++ extra)) /\
    shows_at (rv_verifier_messages rv) msgs /\ shows_at (rv_out_shares rv) outs.

(** The reports for which a test vector is generated. *)
Definition gen_reports (measurements : list (vd_Measurement vdaf)) : list Report :=
  map (fun m => (m, test_vec_gen_rand (vd_NONCE_SIZE vdaf), test_vec_gen_rand (vd_RAND_SIZE vdaf))) measurements.

(** A test vector records these inputs: verification key, context, aggregation
    parameter, reports. *)
Definition vector_inputs (reports : list Report) (tv : test_vec (vd_Measurement vdaf) (vd_AggResult vdaf)) : Prop :=
  fromhex (tv_verify_key tv) = Ok key /\ fromhex (tv_ctx tv) = Ok ctx /\
  (exists b, fromhex (tv_agg_param tv) = Ok b /\ vd_decode_agg_param vdaf b = Ok ap) /\
  Forall2 report_inputs reports (tv_reports tv).

(** It records the messages and the result of running the VDAF on them. *)
Definition vector_records (result_eqb : vd_AggResult vdaf -> vd_AggResult vdaf -> bool) (reports : list Report)
  (tv : test_vec (vd_Measurement vdaf) (vd_AggResult vdaf)) : Prop :=
  Forall2 report_recorded reports (tv_reports tv) /\
  exists outs aggs encs r expected, mapM (vdaf_outputs vdaf ctx ap key) reports = Ok outs /\
    fold_all (vd_SHARES vdaf) (vd_agg_init vdaf ap) (vd_agg_update vdaf ap) outs = Ok aggs /\
    mapM (vd_encode_agg_share vdaf) aggs = Ok encs /\ mapM fromhex (tv_agg_shares tv) = Ok encs /\
    vd_unshard vdaf ap aggs (length reports) = Ok r /\ tv_agg_result tv = Some expected /\ result_eqb r expected = true.
End S.
