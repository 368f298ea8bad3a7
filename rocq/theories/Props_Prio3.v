(** Properties C28-C33 and C48-C50: Prio3 (vdaf_prio3.py, vdaf.py). *)
From Coq Require Import Permutation.
From Verif Require Import Prio3Sound Prio3Props Prio3Inst Prio3Run Prio3Facts VdafFacts FlpInstances FlpProofs FlpSpec
  FlpPropProofs FlpFacts MeasFacts CircuitInstances RangeInt VecFacts Prio3Spec Prio3 Vdaf Xof XofFacts XofSpec
  CircuitSpec Circuits Flp FlpBBCGGI19 Field Spec Roots FieldProofs CodecProofs.
Open Scope nat_scope.

(** The fields of the Prio3 variants satisfy the assumptions of the theorems. *)
Lemma fields_wf : wf_field Field64 /\ wf_field Field128.
Proof. repeat split; vm_compute; (discriminate || lia). Qed.

(** The number of shares and small bounds are below the moduli. *)
Lemma small_64 : forall n, n < 256 -> (Z.of_nat n < MODULUS Field64)%Z.
Proof. intros n H. change (MODULUS Field64) with 18446744069414584321%Z. lia. Qed.

Lemma small_128 : forall n, n < 256 -> (Z.of_nat n < MODULUS Field128)%Z.
Proof. intros n H. change (MODULUS Field128) with 340282366920938462946865773367900766209%Z. lia. Qed.

Lemma id_range : forall z, (0 <=? z)%Z = true -> (z <? 4294967296)%Z = true -> (0 <= z < 2 ^ 32)%Z.
Proof. intros z H1 H2. apply Z.leb_le in H1. apply Z.ltb_lt in H2. change (2 ^ 32)%Z with 4294967296%Z. lia. Qed.

Lemma fields_ntt : NttOk Field64 /\ NttOk Field128.
Proof. exact (conj NttOk_Field64 NttOk_Field128). Qed.

Lemma one_proof : 1 < 256.
Proof. lia. Qed.

Ltac side small := lazymatch goal with
  | |- (0 <= _ < 2 ^ 32)%Z => apply id_range; reflexivity
  | |- 1 < 256 => exact one_proof
  | |- _ => first [assumption | eapply small; eapply proj2; eassumption | vm_compute; discriminate]
  end.

(** C28.  shard returns a report: one input share per Aggregator; the
    measurement shares add up to the encoded measurement and the proof shares
    to the proofs, the proofs are those made with the derived prove and joint
    randomness, and the public share lists the joint randomness parts (see
    [Report]).  It fails only if the model's loop bound is hit. *)
Theorem C28_shard : forall (p : Prio3) (lim : Z) (good : list (F (p3_field p)) -> Prop)
  (valid : list (F (p3_field p)) -> list (F (p3_field p)) -> Prop) (ctx : bytes)
  (m : Measurement (p3_flp p)) (meas : list (F (p3_field p))) (nonce rand : bytes),
  Prio3Ok p lim -> FlpOk (p3_flp p) good valid -> ctx_ok ctx ->
  length nonce = p3_NONCE_SIZE -> length rand = RAND_SIZE p ->
  flp_encode (p3_flp p) m = Ok meas -> length meas = MEAS_LEN (p3_flp p) ->
  match p3_shard p ctx m nonce rand with
  | Ok (public_share, input_shares) =>
    exists meas_shares proof_shares blinds prove_seed prove_rand joint_rand proofs,
      Report p ctx meas nonce rand public_share input_shares meas_shares proof_shares blinds
        prove_seed prove_rand joint_rand proofs
  | Raise e => e = OutOfFuel /\ ran_out p
  end.
Proof.
  intros p lim good valid ctx m meas nonce rand HO HF Hc Hn Hr He Hl.
  pose proof (shard_post p lim HO good valid HF ctx m meas nonce rand Hc Hn Hr He Hl) as H.
  destruct (p3_shard p ctx m nonce rand) as [[a b]|e]; exact H.
Qed.
Print Assumptions C28_shard.

(** C28.  The Prio3 variants satisfy the assumptions. *)
Theorem C28_instances : forall (P : NttFieldClass) (v : Valid P) (ID : Z) (ts : TurboShake) (bound shares proofs : nat),
  NttOk P -> wf_field P -> std_circuit P v -> (0 <= ID < 2 ^ 32)%Z -> 2 <= shares < 256 ->
  (Z.of_nat shares < MODULUS P)%Z -> proofs < 256 ->
  let p := prio3_obj P ID v ts bound shares proofs in
  (exists lim, Prio3Ok p lim) /\ FlpOk (p3_flp p) (test_points_ok v) (circuit_zero v).
Proof.
  intros P v ID ts bound shares proofs HP HW Hv HID Hs HsM Hpr p. split.
  - eexists. now apply obj_ok.
  - now apply std_flp.
Qed.
Print Assumptions C28_instances.

(** C29.  Prio3Count. *)
Theorem C29_count : forall (ts : TurboShake) (bound shares : nat) (key ctx : bytes) (ms : list (Z * bytes * bytes)),
  2 <= shares < 256 ->
  let p := prio3_obj Field64 1 (Count Field64) ts bound shares 1 in
  Prio3Count ts bound (Z.of_nat shares) = Ok p /\
  (ctx_ok ctx -> length key = 32 -> sizes_ok p ms ->
   Forall (fun m => m = 0 \/ m = 1)%Z (map meas_of ms) ->
   run_result p (test_points_ok (Count Field64)) key ctx ms (zsuml (map meas_of ms) mod MODULUS Field64)%Z).
Proof.
  intros ts bound shares key ctx ms Hs p. split.
  - unfold Prio3Count, Prio3_init. rewrite (proj2 (Z.leb_le _ _)), (proj2 (Z.ltb_lt _ _)), Nat2Z.id by lia. reflexivity.
  - intros. apply (run_count Field64 NttOk_Field64 (proj1 fields_wf)); side small_64.
Qed.
Print Assumptions C29_count.

(** C29.  Prio3Sum. *)
Theorem C29_sum : forall (ts : TurboShake) (bound shares : nat) (max : Z) (key ctx : bytes) (ms : list (Z * bytes * bytes)),
  2 <= shares < 256 -> (0 < max)%Z -> (2 ^ Z.of_nat (bit_length max) < MODULUS Field64)%Z ->
  fits Field64 (Sum_gadget (bit_length max)) (bit_length max) ->
  let p := prio3_obj Field64 2 (Sum Field64 max) ts bound shares 1 in
  Prio3Sum ts bound (Z.of_nat shares) max = Ok p /\
  (ctx_ok ctx -> length key = 32 -> sizes_ok p ms ->
   Forall (fun m => 0 <= m <= max)%Z (map meas_of ms) ->
   run_result p (test_points_ok (Sum Field64 max)) key ctx ms (zsuml (map meas_of ms) mod MODULUS Field64)%Z).
Proof.
  intros ts bound shares max key ctx ms Hs H0 H1 Hf p. split.
  - unfold Prio3Sum. rewrite (proj2 (Sum_init_Ok max _)) by (split; [exact H1 | reflexivity]). cbn [bind].
    unfold Prio3_init. rewrite (proj2 (Z.leb_le _ _)), (proj2 (Z.ltb_lt _ _)), Nat2Z.id by lia. reflexivity.
  - intros. apply (run_sum Field64 NttOk_Field64 (proj1 fields_wf)); side small_64.
Qed.
Print Assumptions C29_sum.

(** C29.  Prio3SumVec. *)
Theorem C29_sumvec : forall (ts : TurboShake) (bound shares len : nat) (max : Z) (chunk : nat) (key ctx : bytes)
  (ms : list (list Z * bytes * bytes)),
  2 <= shares < 256 -> 1 <= len -> 1 <= chunk -> (0 < max)%Z -> (2 ^ Z.of_nat (bit_length max) < MODULUS Field128)%Z ->
  fits Field128 (ParallelSum Mul chunk) (SumVec_calls len (bit_length max) chunk) ->
  let p := prio3_obj Field128 3 (SumVec Field128 len max chunk) ts bound shares 1 in
  Prio3SumVec ts bound (Z.of_nat shares) (Z.of_nat len) max (Z.of_nat chunk) = Ok p /\
  (ctx_ok ctx -> length key = 32 -> sizes_ok p ms ->
   Forall (fun m => length m = len /\ Forall (fun x => 0 <= x <= max)%Z m) (map meas_of ms) ->
   run_result p (test_points_ok (SumVec Field128 len max chunk)) key ctx ms
     (map (fun x => x mod MODULUS Field128)%Z (col_totals len (map meas_of ms)))).
Proof.
  intros ts bound shares len max chunk key ctx ms Hs Hl Hch H0 H1 Hf p. split.
  - unfold Prio3SumVec. rewrite (proj2 (SumVec_init_Ok (Z.of_nat len) max (Z.of_nat chunk) (SumVec Field128 len max chunk))).
    + cbn [bind]. unfold Prio3_init. rewrite (proj2 (Z.leb_le _ _)), (proj2 (Z.ltb_lt _ _)), Nat2Z.id by lia. reflexivity.
    + rewrite !Nat2Z.id. repeat split; try easy; lia.
  - intros. apply (run_sumvec Field128 NttOk_Field128 (proj2 fields_wf)); side small_128.
Qed.
Print Assumptions C29_sumvec.

(** C29.  Prio3SumVecWithMultiproof, over any suitable field. *)
Theorem C29_multiproof : forall (P : NttFieldClass) (ts : TurboShake) (bound shares proofs len : nat) (max : Z) (chunk : nat)
  (key ctx : bytes) (ms : list (list Z * bytes * bytes)),
  NttOk P -> wf_field P -> (Z.of_nat shares < MODULUS P)%Z -> proofs < 256 ->
  2 <= shares < 256 -> 1 <= len -> 1 <= chunk -> (0 < max)%Z -> (2 ^ Z.of_nat (bit_length max) < MODULUS P)%Z ->
  fits P (ParallelSum Mul chunk) (SumVec_calls len (bit_length max) chunk) ->
  let p := prio3_obj P (Z.of_N 0xFFFFFFFF) (SumVec P len max chunk) ts bound shares proofs in
  Prio3SumVecWithMultiproof ts bound (Z.of_nat shares) P proofs (Z.of_nat len) max (Z.of_nat chunk) = Ok p /\
  (ctx_ok ctx -> length key = 32 -> sizes_ok p ms ->
   Forall (fun m => length m = len /\ Forall (fun x => 0 <= x <= max)%Z m) (map meas_of ms) ->
   run_result p (test_points_ok (SumVec P len max chunk)) key ctx ms
     (map (fun x => x mod MODULUS P)%Z (col_totals len (map meas_of ms)))).
Proof.
  intros P ts bound shares proofs len max chunk key ctx ms HP HW HsM Hpr Hs Hl Hch H0 H1 Hf p. split.
  - unfold Prio3SumVecWithMultiproof. rewrite (proj2 (SumVec_init_Ok (Z.of_nat len) max (Z.of_nat chunk) (SumVec P len max chunk))).
    + cbn [bind]. unfold Prio3_init. rewrite (proj2 (Z.leb_le _ _)), (proj2 (Z.ltb_lt _ _)), Nat2Z.id by lia. reflexivity.
    + rewrite !Nat2Z.id. repeat split; try easy; lia.
  - intros. now apply run_sumvec.
Qed.
Print Assumptions C29_multiproof.

(** C29.  Prio3Histogram. *)
Theorem C29_histogram : forall (ts : TurboShake) (bound shares len chunk : nat) (key ctx : bytes)
  (ms : list (Z * bytes * bytes)),
  2 <= shares < 256 -> 1 <= len -> 1 <= chunk ->
  fits Field128 (ParallelSum Mul chunk) (Histogram_calls len chunk) ->
  let p := prio3_obj Field128 4 (Histogram Field128 len chunk) ts bound shares 1 in
  Prio3Histogram ts bound (Z.of_nat shares) (Z.of_nat len) (Z.of_nat chunk) = Ok p /\
  (ctx_ok ctx -> length key = 32 -> sizes_ok p ms ->
   Forall (fun m => 0 <= m < Z.of_nat len)%Z (map meas_of ms) ->
   run_result p (test_points_ok (Histogram Field128 len chunk)) key ctx ms
     (map (fun i => Z.of_nat (count_occ Z.eq_dec (map meas_of ms) (Z.of_nat i)) mod MODULUS Field128)%Z (seq 0 len))).
Proof.
  intros ts bound shares len chunk key ctx ms Hs Hl Hch Hf p. split.
  - unfold Prio3Histogram. rewrite (proj2 (Histogram_init_Ok (Z.of_nat len) (Z.of_nat chunk) (Histogram Field128 len chunk))).
    + cbn [bind]. unfold Prio3_init. rewrite (proj2 (Z.leb_le _ _)), (proj2 (Z.ltb_lt _ _)), Nat2Z.id by lia. reflexivity.
    + rewrite !Nat2Z.id. repeat split; try easy; lia.
  - intros. apply (run_histogram Field128 NttOk_Field128 (proj2 fields_wf)); side small_128.
Qed.
Print Assumptions C29_histogram.

(** C29.  Prio3MultihotCountVec. *)
Theorem C29_multihot : forall (ts : TurboShake) (bound shares len mw chunk : nat) (key ctx : bytes)
  (ms : list (list bool * bytes * bytes)),
  2 <= shares < 256 -> 1 <= len -> 1 <= mw <= len -> (Z.of_nat len < MODULUS Field128)%Z -> 1 <= chunk ->
  fits Field128 (ParallelSum Mul chunk) (Multihot_calls len mw chunk) ->
  let p := prio3_obj Field128 5 (MultihotCountVec Field128 len mw chunk) ts bound shares 1 in
  Prio3MultihotCountVec ts bound (Z.of_nat shares) (Z.of_nat len) (Z.of_nat mw) (Z.of_nat chunk) = Ok p /\
  (ctx_ok ctx -> length key = 32 -> sizes_ok p ms ->
   Forall (fun m => length m = len /\ (weight m <= Z.of_nat mw)%Z) (map meas_of ms) ->
   run_result p (test_points_ok (MultihotCountVec Field128 len mw chunk)) key ctx ms
     (map (fun i => Z.of_nat (length (filter (fun m => nth i m false) (map meas_of ms))) mod MODULUS Field128)%Z (seq 0 len))).
Proof.
  intros ts bound shares len mw chunk key ctx ms Hs Hl Hmw HlM Hch Hf p. split.
  - unfold Prio3MultihotCountVec.
    rewrite (proj2 (MultihotCountVec_init_Ok (Z.of_nat len) (Z.of_nat mw) (Z.of_nat chunk) (MultihotCountVec Field128 len mw chunk))).
    + cbn [bind]. unfold Prio3_init. rewrite (proj2 (Z.leb_le _ _)), (proj2 (Z.ltb_lt _ _)), Nat2Z.id by lia. reflexivity.
    + rewrite !Nat2Z.id. repeat split; try easy; lia.
  - intros. apply (run_multihot Field128 NttOk_Field128 (proj2 fields_wf)); side small_128.
Qed.
Print Assumptions C29_multihot.

(** C29.  A run succeeds unless a rejected query randomness or the loop bound
    intervenes: with a toy XOF, three reports are counted. *)
Definition toy_ts : TurboShake := fun m _ i => nth (i * i mod 97) (m ++ zeros 97) x07.
Example C29_example :
  let p := prio3_obj Field64 1 (Count Field64) toy_ts 50 2 1 in
  run_vdaf (Prio3Vdaf p) (zeros 32) tt [x01]
    [(1%Z, zeros 16, zeros 64); (0%Z, repeat x01 16, repeat x02 64); (1%Z, repeat x01 16, repeat x03 64)] = Ok 2%Z.
Proof. vm_compute. reflexivity. Qed.

(** C30.  verify_next releases an output share iff the verifier message is the
    joint randomness seed the Aggregator derived itself. *)
Theorem C30_verify_next : forall (p : Prio3) (ctx : bytes) out seed msg r,
  p3_verify_next p ctx (out, seed) msg = Ok r <-> msg = seed /\ r = inr out.
Proof. exact verify_next_iff. Qed.
Print Assumptions C30_verify_next.

(** C30.  Binding: whatever public share and input shares arrive, if every
    Aggregator accepts, then the public share consists of the parts the
    Aggregators derived from their own input shares, and all of them used the
    same seed and joint randomness -- or two inputs of the seed derivation
    collide. *)
Theorem C30_binding : forall (p : Prio3) (lim : Z), Prio3Ok p lim ->
  forall key ctx nonce (public : list bytes) (is : nat -> Prio3InputShare (p3_field p)) st sh msg,
  0 < JOINT_RAND_LEN (p3_flp p) ->
  length public = p3_SHARES p -> Forall (fun x => length x = SEED_SIZE (p3_xof p)) public ->
  (forall j, j < p3_SHARES p -> p3_verify_init p key ctx j tt nonce (Some public) (is j) = Ok (st j, sh j)) ->
  p3_verifier_shares_to_message p ctx tt (map sh (seq 0 (p3_SHARES p))) = Ok msg ->
  (forall j, j < p3_SHARES p -> exists o, p3_verify_next p ctx (st j) msg = Ok o) ->
  (exists seed jr, joint_rand_seed p ctx public = Ok seed /\ msg = Some seed /\
     joint_rands p ctx seed = Ok jr /\
     forall j, j < p3_SHARES p -> exists ms ps blind,
       expand_input_share p ctx j (is j) = Ok (ms, ps, Some blind) /\
       joint_rand_part p ctx j blind ms nonce = Ok (nth j public []) /\
       verify_joint_rand p ctx j (Some blind) ms nonce (Some public) = Ok (Some seed, Some (nth j public []), jr))
  \/ seed_collision (p3_xof p).
Proof. exact joint_binding. Qed.
Print Assumptions C30_binding.

(** C31.  The codecs of Prio3: round-trip, and every accepted string is the
    encoding of the decoded value. *)
Theorem C31_input_share : forall p : Prio3, wf_field (p3_field p) -> forall j,
  canonical_codec (input_share_wf p j) (p3_encode_input_share p) (p3_decode_input_share p j).
Proof. exact input_share_codec. Qed.
Print Assumptions C31_input_share.

Theorem C31_verifier_share : forall p : Prio3, wf_field (p3_field p) -> forall st,
  canonical_codec (verifier_share_wf p) (p3_encode_verifier_share p) (p3_decode_verifier_share p st).
Proof. exact verifier_share_codec. Qed.
Print Assumptions C31_verifier_share.

Theorem C31_public_share : forall p : Prio3, 0 < JOINT_RAND_LEN (p3_flp p) ->
  canonical_codec (public_share_wf p) p3_encode_public_share (p3_decode_public_share p).
Proof. exact public_share_codec. Qed.
Print Assumptions C31_public_share.

Theorem C31_verifier_message : forall (p : Prio3) st,
  canonical_codec (fun m => m <> Some []) p3_encode_verifier_message (p3_decode_verifier_message p st).
Proof. exact message_codec. Qed.
Print Assumptions C31_verifier_message.

(** C31.  Aggregate and output shares: the decoders do not check the length. *)
Theorem C31_shares : forall p : Prio3, wf_field (p3_field p) ->
  canonical_codec (fun _ => True) (p3_encode_agg_share p) (p3_decode_agg_share p tt) /\
  canonical_codec (fun _ => True) (p3_encode_out_share p) (p3_decode_out_share p tt).
Proof. exact share_codec. Qed.
Print Assumptions C31_shares.

Theorem C31_agg_param : canonical_codec (fun _ => True) p3_encode_agg_param p3_decode_agg_param.
Proof. exact agg_param_codec. Qed.
Print Assumptions C31_agg_param.

(** C31.  Without joint randomness, decode_public_share accepts every string,
    so its inputs are not canonical. *)
Theorem C31_public_share_refuted : forall p : Prio3, JOINT_RAND_LEN (p3_flp p) = 0 ->
  p3_encode_public_share None = Ok [] /\ forall x, p3_decode_public_share p x = Ok None.
Proof. exact public_share_codec_none. Qed.
Print Assumptions C31_public_share_refuted.

Example C31_example : let p := prio3_obj Field64 1 (Count Field64) toy_ts 50 2 1 in
  input_share_wf p 1 (Helper (zeros 32) None) /\ p3_decode_input_share p 1 (zeros 33) = Raise (ValueError "input share is too long") /\
  p3_decode_public_share p [x01; x02] = Ok None.
Proof. repeat split; easy. Qed.

(** C32.  An aggregation parameter is valid iff there was none before: a
    history (latest parameter first) is admitted iff it has at most one
    element. *)
Theorem C32_single_use : forall (p : Prio3) (ap : vd_AggParam (Prio3Vdaf p)) (previous : list (vd_AggParam (Prio3Vdaf p))),
  vd_is_valid (Prio3Vdaf p) ap previous = Ok (match previous with [] => true | _ => false end).
Proof. intros p ap [|x l]; reflexivity. Qed.
Print Assumptions C32_single_use.

(** C33.  Whatever sequence of agg_init, agg_update and merge calls produced
    an aggregate share, it is the sum of the output shares. *)
Theorem C33_sum : forall (p : Prio3) os a, aggregated (Prio3Vdaf p) tt os a -> outs_ok p os ->
  a = vsum (OUTPUT_LEN (p3_flp p)) os.
Proof. exact aggregated_vsum. Qed.
Print Assumptions C33_sum.

(** C33.  Hence the order and the partition into batches are irrelevant. *)
Theorem C33_order : forall (p : Prio3) os os' a a', outs_ok p os -> Permutation os os' ->
  aggregated (Prio3Vdaf p) tt os a -> aggregated (Prio3Vdaf p) tt os' a' -> a = a'.
Proof. exact aggregated_order. Qed.
Print Assumptions C33_order.

(** C33.  None of these calls fails. *)
Theorem C33_total : forall p : Prio3,
  (exists a, p3_agg_init p tt = Ok a) /\
  (forall os a o, aggregated (Prio3Vdaf p) tt os a -> outs_ok p os -> length o = OUTPUT_LEN (p3_flp p) ->
     exists a', p3_agg_update p tt a o = Ok a') /\
  (forall oss shares, aggregated_all (Prio3Vdaf p) tt oss shares -> Forall (outs_ok p) oss ->
     exists a, p3_merge p tt shares = Ok a).
Proof. exact aggregated_total. Qed.
Print Assumptions C33_total.

(** C33.  unshard decodes the sum of all output shares of all Aggregators. *)
Theorem C33_unshard : forall (p : Prio3) oss shares n, aggregated_all (Prio3Vdaf p) tt oss shares -> Forall (outs_ok p) oss ->
  p3_unshard p tt shares n = flp_decode (p3_flp p) (vsum (OUTPUT_LEN (p3_flp p)) (concat oss)) n.
Proof. exact unshard_total. Qed.
Print Assumptions C33_unshard.

Example C33_example : let p := prio3_obj Field64 1 (Count Field64) toy_ts 50 2 1 in
  aggregated (Prio3Vdaf p) tt ([[fof 1]] ++ [[fof 2]]) [fof 3] /\
  aggregated (Prio3Vdaf p) tt (concat [[] ++ [[fof 2]]; [] ++ [[fof 1]]]) [fof 3].
Proof.
  set (p := prio3_obj Field64 1 (Count Field64) toy_ts 50 2 1). cbv zeta.
  assert (H : forall x, aggregated (Prio3Vdaf p) tt ([] ++ [[fof x]]) [fadd f0 (fof x)]).
  { intros x. eapply ag_update; [now apply ag_init | reflexivity]. }
  split.
  - change [[fof 1]] with ([] ++ [[fof 1 : F Field64]]). eapply ag_update; [apply H|]. vm_compute. reflexivity.
  - eapply ag_merge; [constructor; [apply H | constructor; [apply H | constructor]]|]. vm_compute. reflexivity.
Qed.

(** C48.  With joint randomness, no Aggregator accepts the message made from a
    wrong number of verifier shares (unless the seed derivation collides). *)
Theorem C48_prio3_joint_rand : forall (p : Prio3) (lim : Z), Prio3Ok p lim ->
  forall key ctx j nonce (public : list bytes) is st sh shs msg o,
  0 < JOINT_RAND_LEN (p3_flp p) ->
  length public = p3_SHARES p -> Forall (fun x => length x = SEED_SIZE (p3_xof p)) public ->
  Forall (fun s => blind_wf p (snd s)) shs ->
  p3_verify_init p key ctx j tt nonce (Some public) is = Ok (st, sh) ->
  p3_verifier_shares_to_message p ctx tt shs = Ok msg ->
  p3_verify_next p ctx st msg = Ok o ->
  length shs = p3_SHARES p \/ seed_collision (p3_xof p).
Proof. exact wrong_count. Qed.
Print Assumptions C48_prio3_joint_rand.

(** C48.  Without joint randomness nothing counts the verifier shares:
    Prio3Count accepts the empty list, and every Aggregator then releases its
    output share. *)
Theorem C48_prio3_refuted : forall (ts : TurboShake) (bound shares : nat) (ctx : bytes) out,
  let p := prio3_obj Field64 1 (Count Field64) ts bound shares 1 in
  p3_verifier_shares_to_message p ctx tt [] = Ok None /\
  p3_verify_next p ctx (out, None) None = Ok (inr out).
Proof. intros. split; vm_compute; reflexivity. Qed.
Print Assumptions C48_prio3_refuted.

(** C49.  shard rejects nonces and random strings of the wrong size.  (That
    every byte of the random string is used is the last clause of [Report].) *)
Theorem C49_shard_sizes : forall (p : Prio3) ctx m nonce rand,
  (length nonce <> p3_NONCE_SIZE -> exists msg, p3_shard p ctx m nonce rand = Raise (ValueError msg)) /\
  (length rand <> RAND_SIZE p -> exists msg, p3_shard p ctx m nonce rand = Raise (ValueError msg)).
Proof. exact shard_sizes. Qed.
Print Assumptions C49_shard_sizes.

(** C49.  The constructor accepts exactly 2 to 255 shares. *)
Theorem C49_init : forall field xof ID vks shares (flp : Flp field) proofs,
  (is_ok (Prio3_init field xof ID vks shares flp proofs) = true <-> (2 <= shares < 256)%Z) /\
  (forall e, Prio3_init field xof ID vks shares flp proofs = Raise e -> exists msg, e = ValueError msg).
Proof. exact init_shares. Qed.
Print Assumptions C49_init.

(** C50.  Soundness.  If the measurement shares add up to a vector that the
    circuit rejects for the joint randomness of each of the [m] proofs, then
    for any proof shares the number of query randomness vectors (out of
    |F|^(m*QUERY_RAND_LEN)) for which verification succeeds is at most
    (d * |F|^(QUERY_RAND_LEN - 1))^m, [d] bounding the degrees of the gadget
    polynomials. *)
Theorem C50_soundness : forall P : NttFieldClass, NttOk P -> forall v : Valid P, ValidOk v ->
  forall (X : XofClass) (ID : Z) (vks n m : nat), 1 <= n -> (Z.of_nat n < MODULUS P)%Z ->
  let p := {| p3_field := P; p3_flp := FlpBBCGGI19 v; p3_xof := X; p3_ID := ID;
              p3_VERIFY_KEY_SIZE := vks; p3_SHARES := n; p3_PROOFS := m |} in
  forall ctx (ms ps : list (list (F P))) (jr : list (F P)) d (Q : list (list (F P))),
  vecs n (vMEAS_LEN v) ms -> vecs n (proof_len v * m) ps -> length jr = vJOINT_RAND_LEN v * m ->
  (forall k, k < m -> exists out, valid_eval_plain v (vsum (vMEAS_LEN v) ms) (piece (vJOINT_RAND_LEN v) k jr) 1 = Ok out /\
     Exists (fun x => x <> f0) out) ->
  1 <= d -> (forall i, i < length (GADGETS v) -> DEGREE (nth i (GADGETS v) Mul) * (wire_poly_len (nth i (GADGET_CALLS v) 0) - 1) <= d) ->
  NoDup Q ->
  (forall qr, In qr Q -> length qr = query_rand_len v * m /\ exists (vss : list (list (list (F P)))) parts msg,
     length vss = n /\
     (forall j, j < n -> proof_verifiers p (nth j ms []) (nth j ps []) qr jr = Ok (nth j vss [])) /\
     p3_verifier_shares_to_message p ctx tt (map (fun j => (concat (nth j vss []), parts j)) (seq 0 n)) = Ok msg) ->
  (Z.of_nat (length Q) <= (Z.of_nat d * MODULUS P ^ (Z.of_nat (query_rand_len v) - 1)) ^ Z.of_nat m)%Z.
Proof. exact prio3_sound. Qed.
Print Assumptions C50_soundness.

(** C50.  The verifier share of verify_init consists of these verifiers, for
    the query and joint randomness derived by the XOF. *)
Theorem C50_verify_init : forall (P : NttFieldClass) (v : Valid P) (X : XofClass) (ID : Z) (vks n m : nat), 1 <= n ->
  let p := {| p3_field := P; p3_flp := FlpBBCGGI19 v; p3_xof := X; p3_ID := ID;
              p3_VERIFY_KEY_SIZE := vks; p3_SHARES := n; p3_PROOFS := m |} in
  forall key ctx j nonce public is st ver part ms ps blind,
  p3_verify_init p key ctx j tt nonce public is = Ok (st, (ver, part)) ->
  expand_input_share p ctx j is = Ok (ms, ps, blind) -> length ps = proof_len v * m ->
  exists qr jr vss, query_rands p key ctx nonce = Ok qr /\ proof_verifiers p ms ps qr jr = Ok vss /\ ver = concat vss /\
    if 0 <? vJOINT_RAND_LEN v then exists seed, snd st = Some seed /\ joint_rands p ctx seed = Ok jr else jr = [].
Proof. exact verify_init_verifiers. Qed.
Print Assumptions C50_verify_init.

(** C50.  The number of proofs is not checked: with zero proofs every
    measurement share verifies. *)
Theorem C50_zero_proofs_refuted : forall (P : NttFieldClass) (v : Valid P) (X : XofClass) (ID : Z) (vks : nat) (shares : Z),
  (2 <= shares < 256)%Z -> vJOINT_RAND_LEN v = 0 ->
  exists p, Prio3_init P X ID vks shares (FlpBBCGGI19 v) 0 = Ok p /\
    forall ctx, p3_verifier_shares_to_message p ctx tt (repeat ([], None) (p3_SHARES p)) = Ok None.
Proof.
  intros P v X ID vks shares Hs HJ. unfold Prio3_init.
  rewrite (proj2 (Z.leb_le _ _)), (proj2 (Z.ltb_lt _ _)) by lia. cbn [andb].
  eexists. split; [reflexivity|]. intros ctx. cbn [p3_SHARES]. unfold p3_verifier_shares_to_message.
  cbn [p3_flp p3_PROOFS p3_field]. change (JOINT_RAND_LEN (FlpBBCGGI19 v)) with (vJOINT_RAND_LEN v). rewrite HJ.
  rewrite Nat.mul_0_r. cbn [Nat.ltb Nat.leb].
  assert (H : forall k, foldM (fun '(verifiers, joint_rand_parts) '(verifiers_share, joint_rand_part) =>
      let* verifiers := vec_add verifiers verifiers_share in Ok (verifiers, joint_rand_parts))
      (repeat (([] : list (F P)), (None : option bytes)) k) (fzeros 0, ([] : list bytes)) = Ok ([], [])).
  { induction k as [|k IH]; [reflexivity|]. cbn [repeat foldM]. exact IH. }
  rewrite H. reflexivity.
Qed.
Print Assumptions C50_zero_proofs_refuted.
