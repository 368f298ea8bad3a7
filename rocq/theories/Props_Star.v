(** Property C101: verification in the star topology that the specification
    describes for any number of Aggregators ([star_run] of Star.v), and
    deployments that use it ([star_deploy] and [star_aggregate] of StarSpec.v). *)
From Verif Require Import Star StarSpec StarFacts StarInst RunSpec RunFacts DeploySpec RobustSpec PingPongSpec PingPongInst.
From Verif Require Import Prio3 Prio3Spec Prio3Inst Poplar1 Poplar1Spec Poplar1Props Poplar1Inst FlpSpec FlpInstances CircuitSpec Circuits FlpBBCGGI19 Flp
  Field FieldProofs Roots MeasFacts RangeInt Xof XofSpec IdpfInst VecFacts Spec.
Open Scope nat_scope.

(** C101.  Generic form: the Collector obtains what run_vdaf computes from the
    reports that verify.  [star_wire_ok] asks that the shares made by shard
    survive encoding and decoding, [StarExchangeable] the same of verifier shares
    and messages, the last hypothesis of aggregate shares. *)
Theorem C101_deploy : forall (vdaf : Vdaf) (ctx key agg_param : bytes) (ap : vd_AggParam vdaf),
  vd_decode_agg_param vdaf agg_param = Ok ap ->
  forall I, StarExchangeable vdaf ctx ap I -> 1 <= vd_SHARES vdaf -> length key = vd_VERIFY_KEY_SIZE vdaf ->
  forall ms r, Forall (star_wire_ok vdaf ctx key ap I) ms ->
  (forall outs j a, fold_outputs (vd_agg_init vdaf ap) (vd_agg_update vdaf ap) outs j = Ok a ->
     exists b, vd_encode_agg_share vdaf a = Ok b /\ vd_decode_agg_share vdaf ap b = Ok a) ->
  star_deploy vdaf ctx key agg_param ap ms = Ok r <-> run_vdaf vdaf key ap ctx (filter (report_accepted vdaf ctx key ap) ms) = Ok r.
Proof. exact star_deploy_run. Qed.
Print Assumptions C101_deploy.

(** C101.  Prio3: whatever strings were uploaded, the Aggregators in the star
    obtain output shares exactly if all strings decode and direct verification of
    what they encode succeeds with the same output shares. *)
Theorem C101_strings : forall (p : Prio3) (lim : Z), Prio3Ok p lim ->
  forall good valid, FlpOk (p3_flp p) good valid ->
  forall key ctx, ctx_ok ctx -> length key = p3_VERIFY_KEY_SIZE p ->
  forall nonce bps bs outs,
  star_run (Prio3Vdaf p) ctx key [] nonce bps bs = Ok outs <->
  exists ps iss, p3_decode_public_share p bps = Ok ps /\ length iss = p3_SHARES p /\ p3_SHARES p <= length bs /\
    (forall j b is, nth_error bs j = Some b -> nth_error iss j = Some is -> p3_decode_input_share p j b = Ok is) /\
    verify_report (Prio3Vdaf p) ctx tt key nonce ps iss = Ok outs.
Proof. exact p3_star_bytes. Qed.
Print Assumptions C101_strings.

(** C101.  In that case the output shares add up to the truncation of a vector
    for which the FLP verifier accepts (how rarely that happens for invalid
    vectors is C50), ... *)
Theorem C101_robust : forall (p : Prio3) (lim : Z), Prio3Ok p lim ->
  forall good valid, FlpOk (p3_flp p) good valid ->
  forall key ctx, ctx_ok ctx -> length key = p3_VERIFY_KEY_SIZE p ->
  forall nonce bps bs outs, star_run (Prio3Vdaf p) ctx key [] nonce bps bs = Ok outs ->
  vecs (p3_SHARES p) (OUTPUT_LEN (p3_flp p)) outs /\ flp_accepted p key ctx nonce (vsum (OUTPUT_LEN (p3_flp p)) outs).
Proof. exact p3_star_robust. Qed.
Print Assumptions C101_robust.

(** ... and the Collector obtains the decoding of the sum of these vectors. *)
Theorem C101_aggregate : forall (p : Prio3) (lim : Z), Prio3Ok p lim ->
  forall good valid, FlpOk (p3_flp p) good valid ->
  forall key ctx, ctx_ok ctx -> length key = p3_VERIFY_KEY_SIZE p ->
  forall us, let os := star_outputs (Prio3Vdaf p) ctx key [] us in
  star_aggregate (Prio3Vdaf p) ctx key [] tt us
  = flp_decode (p3_flp p) (vsum (OUTPUT_LEN (p3_flp p)) (map (vsum (OUTPUT_LEN (p3_flp p))) os)) (length os).
Proof. exact p3_star_aggregate. Qed.
Print Assumptions C101_aggregate.

Lemma shares_64 shares : 2 <= shares < 256 -> (Z.of_nat shares < MODULUS Field64)%Z.
Proof. intros H. change (MODULUS Field64) with 18446744069414584321%Z. lia. Qed.
Lemma shares_128 shares : 2 <= shares < 256 -> (Z.of_nat shares < MODULUS Field128)%Z.
Proof. intros H. change (MODULUS Field128) with 340282366920938462946865773367900766209%Z. lia. Qed.
Lemma wf_64 : wf_field Field64.
Proof. repeat split; vm_compute; (discriminate || lia). Qed.
Lemma wf_128 : wf_field Field128.
Proof. repeat split; vm_compute; (discriminate || lia). Qed.
Lemma ids_ok : (0 <= 1 < 2 ^ 32 /\ 0 <= 2 < 2 ^ 32 /\ 0 <= 3 < 2 ^ 32 /\ 0 <= 4 < 2 ^ 32 /\ 0 <= 5 < 2 ^ 32 /\ 0 <= Z.of_N 0xFFFFFFFF < 2 ^ 32)%Z.
Proof. repeat apply conj; (discriminate || reflexivity). Qed.
Lemma one_proof : 1 < 256.
Proof. lia. Qed.

(** C101.  Prio3Count with any number of Aggregators: the Collector learns the sum
    of the measurements of the clients whose reports count. *)
Theorem C101_count : forall (ts : TurboShake) (bound shares : nat) (key ctx : bytes) (ms : list (Z * bytes * bytes)),
  2 <= shares < 256 ->
  let p := prio3_obj Field64 1 (Count Field64) ts bound shares 1 in
  ctx_ok ctx -> length key = 32 -> sizes_ok p ms -> Forall (fun m => m = 0 \/ m = 1)%Z (map meas_of ms) ->
  star_result p (test_points_ok (Count Field64)) key ctx ms (fun ms' => zsuml (map meas_of ms') mod MODULUS Field64)%Z.
Proof.
  intros ts bound shares key ctx ms Hs p Hc Hk SZ OK.
  apply (star_count Field64 NttOk_Field64 wf_64 1 (proj1 ids_ok) ts bound shares 1 Hs (shares_64 _ Hs) one_proof key ctx Hc Hk ms); try assumption.
  vm_compute. repeat split; (lia || discriminate).
Qed.
Print Assumptions C101_count.

(** C101.  Prio3Sum. *)
Theorem C101_sum : forall (ts : TurboShake) (bound shares : nat) (max : Z) (key ctx : bytes) (ms : list (Z * bytes * bytes)),
  2 <= shares < 256 ->
  (0 < max)%Z -> (2 ^ Z.of_nat (bit_length max) < MODULUS Field64)%Z -> fits Field64 (Sum_gadget (bit_length max)) (bit_length max) ->
  let p := prio3_obj Field64 2 (Sum Field64 max) ts bound shares 1 in
  ctx_ok ctx -> length key = 32 -> sizes_ok p ms -> Forall (fun m => 0 <= m <= max)%Z (map meas_of ms) ->
  star_result p (test_points_ok (Sum Field64 max)) key ctx ms (fun ms' => zsuml (map meas_of ms') mod MODULUS Field64)%Z.
Proof.
  intros ts bound shares max key ctx ms Hs H0 H1 Hf p Hc Hk SZ OK.
  exact (star_sum Field64 NttOk_Field64 wf_64 2 (proj1 (proj2 ids_ok)) ts bound shares 1 Hs (shares_64 _ Hs) one_proof key ctx Hc Hk max ms H0 H1 Hf SZ OK).
Qed.
Print Assumptions C101_sum.

(** C101.  Prio3SumVec and Prio3SumVecWithMultiproof. *)
Theorem C101_sumvec : forall (P : NttFieldClass) (ID : Z) (ts : TurboShake) (bound shares proofs len : nat) (max : Z) (chunk : nat) (key ctx : bytes)
  (ms : list (list Z * bytes * bytes)),
  NttOk P -> wf_field P -> 2 <= shares < 256 -> (Z.of_nat shares < MODULUS P)%Z -> (0 <= ID < 2 ^ 32)%Z -> proofs < 256 ->
  1 <= len -> 1 <= chunk -> (0 < max)%Z -> (2 ^ Z.of_nat (bit_length max) < MODULUS P)%Z ->
  fits P (ParallelSum Mul chunk) (SumVec_calls len (bit_length max) chunk) ->
  let p := prio3_obj P ID (SumVec P len max chunk) ts bound shares proofs in
  ctx_ok ctx -> length key = 32 -> sizes_ok p ms ->
  Forall (fun m => length m = len /\ Forall (fun x => 0 <= x <= max)%Z m) (map meas_of ms) ->
  star_result p (test_points_ok (SumVec P len max chunk)) key ctx ms
    (fun ms' => map (fun x => x mod MODULUS P)%Z (col_totals len (map meas_of ms'))).
Proof.
  intros P ID ts bound shares proofs len max chunk key ctx ms HP HW Hs HsM HID Hpr Hl Hch H0 H1 Hf p Hc Hk SZ OK.
  exact (star_sumvec P HP HW ID HID ts bound shares proofs Hs HsM Hpr key ctx Hc Hk len max chunk ms Hl Hch H0 H1 Hf SZ OK).
Qed.
Print Assumptions C101_sumvec.

(** C101.  Prio3Histogram. *)
Theorem C101_histogram : forall (ts : TurboShake) (bound shares len chunk : nat) (key ctx : bytes) (ms : list (Z * bytes * bytes)),
  2 <= shares < 256 -> 1 <= len -> 1 <= chunk -> fits Field128 (ParallelSum Mul chunk) (Histogram_calls len chunk) ->
  let p := prio3_obj Field128 4 (Histogram Field128 len chunk) ts bound shares 1 in
  ctx_ok ctx -> length key = 32 -> sizes_ok p ms -> Forall (fun m => 0 <= m < Z.of_nat len)%Z (map meas_of ms) ->
  star_result p (test_points_ok (Histogram Field128 len chunk)) key ctx ms
    (fun ms' => map (fun i => Z.of_nat (count_occ Z.eq_dec (map meas_of ms') (Z.of_nat i)) mod MODULUS Field128)%Z (seq 0 len)).
Proof.
  intros ts bound shares len chunk key ctx ms Hs Hl Hch Hf p Hc Hk SZ OK.
  exact (star_histogram Field128 NttOk_Field128 wf_128 4 (proj1 (proj2 (proj2 (proj2 ids_ok)))) ts bound shares 1 Hs (shares_128 _ Hs) one_proof
    key ctx Hc Hk len chunk ms Hl Hch Hf SZ OK).
Qed.
Print Assumptions C101_histogram.

(** C101.  Prio3MultihotCountVec. *)
Theorem C101_multihot : forall (ts : TurboShake) (bound shares len mw chunk : nat) (key ctx : bytes) (ms : list (list bool * bytes * bytes)),
  2 <= shares < 256 -> 1 <= len -> 1 <= mw <= len -> (Z.of_nat len < MODULUS Field128)%Z -> 1 <= chunk ->
  fits Field128 (ParallelSum Mul chunk) (Multihot_calls len mw chunk) ->
  let p := prio3_obj Field128 5 (MultihotCountVec Field128 len mw chunk) ts bound shares 1 in
  ctx_ok ctx -> length key = 32 -> sizes_ok p ms ->
  Forall (fun m => length m = len /\ (weight m <= Z.of_nat mw)%Z) (map meas_of ms) ->
  star_result p (test_points_ok (MultihotCountVec Field128 len mw chunk)) key ctx ms
    (fun ms' => map (fun i => Z.of_nat (length (filter (fun m => nth i m false) (map meas_of ms'))) mod MODULUS Field128)%Z (seq 0 len)).
Proof.
  intros ts bound shares len mw chunk key ctx ms Hs Hl Hmw HlM Hch Hf p Hc Hk SZ OK.
  exact (star_multihot Field128 NttOk_Field128 wf_128 5 (proj1 (proj2 (proj2 (proj2 (proj2 ids_ok))))) ts bound shares 1 Hs (shares_128 _ Hs) one_proof
    key ctx Hc Hk len mw chunk ms Hl Hmw HlM Hch Hf SZ OK).
Qed.
Print Assumptions C101_multihot.

(** C101.  Poplar1, which takes two rounds: the star with one Helper computes what
    direct execution of the decoded shares computes. *)
Theorem C101_poplar1 : forall ts aes bound bits,
  let p := p1_obj ts aes bound bits in
  forall key ctx agg_param nonce bps b0 b1 ap ps is0 is1 o0 o1,
  p1_decode_agg_param agg_param = Ok ap -> p1_decode_public_share p bps = Ok ps ->
  p1_decode_input_share p 0 b0 = Ok is0 -> p1_decode_input_share p 1 b1 = Ok is1 ->
  star_run (p1_vdaf p) ctx key agg_param nonce bps [b0; b1] = Ok [o0; o1] <-> p1_execute p key ctx ap nonce ps is0 is1 = Ok (o0, o1).
Proof.
  intros ts aes bound bits p. apply (p1_star p (proj1 idpf_fields_wf) (proj2 idpf_fields_wf)). split; vm_compute; reflexivity.
Qed.
Print Assumptions C101_poplar1.

(** Three Aggregators: two honest clients, one whose shares got mixed up with
    those of another, one that uploads too few shares: the honest measurements
    are summed. *)
Definition toy_ts : TurboShake := fun m _ i => nth (i * i mod 97) (m ++ zeros 97) x07.
Definition toy_count := prio3_obj Field64 1 (Count Field64) toy_ts 50 3 1.
Definition toy_clients : list (Z * bytes * bytes) := [(1%Z, zeros 16, zeros 96); (1%Z, repeat x01 16, repeat x03 96); (0%Z, repeat x02 16, repeat x04 96)].
Definition toy_uploads := star_uploaded (Prio3Vdaf toy_count) [x01] toy_clients.
Definition mixed_up := match toy_uploads with
  | (n, ps, [is0; is1; _]) :: (_, _, [_; _; is2]) :: _ => [(n, ps, [is0; is1; is2]); (n, ps, [is0; is1])]
  | _ => []
  end.
Definition C101_outcome : list bool * res Z * res Z := Eval vm_compute in
  (map (fun u => match star_verified (Prio3Vdaf toy_count) [x01] (zeros 32) [] u with Some _ => true | None => false end) (toy_uploads ++ mixed_up),
   star_aggregate (Prio3Vdaf toy_count) [x01] (zeros 32) [] tt (toy_uploads ++ mixed_up),
   star_deploy (Prio3Vdaf toy_count) [x01] (zeros 32) [] tt toy_clients).
Example C101_example : C101_outcome = ([true; true; true; false; false], Ok 2%Z, Ok 2%Z).
Proof. reflexivity. Qed.
