(** Properties C61 and C62: a deployment with Clients, a Leader, a Helper and a
    Collector who exchange encoded messages only ([deploy] and [aggregate] of
    DeploySpec.v). *)
From Verif Require Import DeploySpec DeployFacts DeployInst RobustSpec RobustInst RunSpec PingPongSpec PingPongInst.
From Verif Require Import Prio3 Prio3Spec Prio3Inst Poplar1 Poplar1Spec Poplar1Props Poplar1Inst FlpSpec FlpInstances CircuitSpec Circuits FlpBBCGGI19 Flp
  Field FieldProofs Roots MeasFacts RangeInt Xof XofSpec IdpfInst.
Open Scope nat_scope.

(** C61.  Generic form: the Collector obtains what run_vdaf computes from the
    reports that verify.  [wire_ok] asks that the shares made by shard survive
    encoding and decoding, [Exchangeable] the same of verifier shares and
    messages, the last hypothesis of aggregate shares. *)
Theorem C61_deploy : forall (vdaf : Vdaf) (ctx key agg_param : bytes) (ap : vd_AggParam vdaf),
  vd_SHARES vdaf = 2 -> 1 <= vd_ROUNDS vdaf -> length key = vd_VERIFY_KEY_SIZE vdaf ->
  forall I, Exchangeable vdaf ctx ap I -> vd_decode_agg_param vdaf agg_param = Ok ap ->
  forall ms r, Forall (wire_ok vdaf ctx key ap I) ms ->
  (forall outs a, (let* a := vd_agg_init vdaf ap in foldM (vd_agg_update vdaf ap) outs a) = Ok a ->
     exists b, vd_encode_agg_share vdaf a = Ok b /\ vd_decode_agg_share vdaf ap b = Ok a) ->
  deploy vdaf ctx key agg_param ap ms = Ok r <-> run_vdaf vdaf key ap ctx (filter (report_accepted vdaf ctx key ap) ms) = Ok r.
Proof. exact deploy_run. Qed.
Print Assumptions C61_deploy.

(** The number of shares is below the moduli. *)
Lemma two_64 : (Z.of_nat 2 < MODULUS Field64)%Z.
Proof. reflexivity. Qed.
Lemma two_128 : (Z.of_nat 2 < MODULUS Field128)%Z.
Proof. reflexivity. Qed.
Lemma wf_64 : wf_field Field64.
Proof. repeat split; vm_compute; (discriminate || lia). Qed.
Lemma wf_128 : wf_field Field128.
Proof. repeat split; vm_compute; (discriminate || lia). Qed.
Lemma ids_ok : (0 <= 1 < 2 ^ 32 /\ 0 <= 2 < 2 ^ 32 /\ 0 <= 3 < 2 ^ 32 /\ 0 <= 4 < 2 ^ 32 /\ 0 <= 5 < 2 ^ 32 /\ 0 <= Z.of_N 0xFFFFFFFF < 2 ^ 32)%Z.
Proof. repeat apply conj; (discriminate || reflexivity). Qed.
Lemma one_proof : 1 < 256.
Proof. lia. Qed.

(** C61.  Prio3Count: the Collector learns the sum of the measurements of the
    clients whose reports count, namely those whose derived query randomness the
    FLP does not refuse (or the model's loop bound was hit). *)
Theorem C61_count : forall (ts : TurboShake) (bound : nat) (key ctx : bytes) (ms : list (Z * bytes * bytes)),
  let p := prio3_obj Field64 1 (Count Field64) ts bound 2 1 in
  ctx_ok ctx -> length key = 32 -> sizes_ok p ms -> Forall (fun m => m = 0 \/ m = 1)%Z (map meas_of ms) ->
  deploy_result p (test_points_ok (Count Field64)) key ctx ms (fun ms' => zsuml (map meas_of ms') mod MODULUS Field64)%Z.
Proof.
  intros ts bound key ctx ms p Hc Hk SZ OK.
  apply (deploy_count Field64 NttOk_Field64 wf_64 1 (proj1 ids_ok) ts bound 1 two_64 one_proof key ctx Hc Hk ms); try assumption.
  - vm_compute. repeat split; (lia || discriminate).
  - vm_compute. reflexivity.
Qed.
Print Assumptions C61_count.

(** C61.  Prio3Sum. *)
Theorem C61_sum : forall (ts : TurboShake) (bound : nat) (max : Z) (key ctx : bytes) (ms : list (Z * bytes * bytes)),
  (0 < max)%Z -> (2 ^ Z.of_nat (bit_length max) < MODULUS Field64)%Z -> fits Field64 (Sum_gadget (bit_length max)) (bit_length max) ->
  let p := prio3_obj Field64 2 (Sum Field64 max) ts bound 2 1 in
  p3_message_fits p -> ctx_ok ctx -> length key = 32 -> sizes_ok p ms -> Forall (fun m => 0 <= m <= max)%Z (map meas_of ms) ->
  deploy_result p (test_points_ok (Sum Field64 max)) key ctx ms (fun ms' => zsuml (map meas_of ms') mod MODULUS Field64)%Z.
Proof.
  intros ts bound max key ctx ms H0 H1 Hf p Hfit Hc Hk SZ OK.
  exact (deploy_sum Field64 NttOk_Field64 wf_64 2 (proj1 (proj2 ids_ok)) ts bound 1 two_64 one_proof key ctx Hc Hk max ms H0 H1 Hf Hfit SZ OK).
Qed.
Print Assumptions C61_sum.

(** C61.  Prio3SumVec and Prio3SumVecWithMultiproof. *)
Theorem C61_sumvec : forall (P : NttFieldClass) (ID : Z) (ts : TurboShake) (bound proofs len : nat) (max : Z) (chunk : nat) (key ctx : bytes)
  (ms : list (list Z * bytes * bytes)),
  NttOk P -> wf_field P -> (2 < MODULUS P)%Z -> (0 <= ID < 2 ^ 32)%Z -> proofs < 256 ->
  1 <= len -> 1 <= chunk -> (0 < max)%Z -> (2 ^ Z.of_nat (bit_length max) < MODULUS P)%Z ->
  fits P (ParallelSum Mul chunk) (SumVec_calls len (bit_length max) chunk) ->
  let p := prio3_obj P ID (SumVec P len max chunk) ts bound 2 proofs in
  p3_message_fits p -> ctx_ok ctx -> length key = 32 -> sizes_ok p ms ->
  Forall (fun m => length m = len /\ Forall (fun x => 0 <= x <= max)%Z m) (map meas_of ms) ->
  deploy_result p (test_points_ok (SumVec P len max chunk)) key ctx ms
    (fun ms' => map (fun x => x mod MODULUS P)%Z (col_totals len (map meas_of ms'))).
Proof.
  intros P ID ts bound proofs len max chunk key ctx ms HP HW H2 HID Hpr Hl Hch H0 H1 Hf p Hfit Hc Hk SZ OK.
  exact (deploy_sumvec P HP HW ID HID ts bound proofs H2 Hpr key ctx Hc Hk len max chunk ms Hl Hch H0 H1 Hf Hfit SZ OK).
Qed.
Print Assumptions C61_sumvec.

(** C61.  Prio3Histogram. *)
Theorem C61_histogram : forall (ts : TurboShake) (bound len chunk : nat) (key ctx : bytes) (ms : list (Z * bytes * bytes)),
  1 <= len -> 1 <= chunk -> fits Field128 (ParallelSum Mul chunk) (Histogram_calls len chunk) ->
  let p := prio3_obj Field128 4 (Histogram Field128 len chunk) ts bound 2 1 in
  p3_message_fits p -> ctx_ok ctx -> length key = 32 -> sizes_ok p ms -> Forall (fun m => 0 <= m < Z.of_nat len)%Z (map meas_of ms) ->
  deploy_result p (test_points_ok (Histogram Field128 len chunk)) key ctx ms
    (fun ms' => map (fun i => Z.of_nat (count_occ Z.eq_dec (map meas_of ms') (Z.of_nat i)) mod MODULUS Field128)%Z (seq 0 len)).
Proof.
  intros ts bound len chunk key ctx ms Hl Hch Hf p Hfit Hc Hk SZ OK.
  exact (deploy_histogram Field128 NttOk_Field128 wf_128 4 (proj1 (proj2 (proj2 (proj2 ids_ok)))) ts bound 1 two_128 one_proof key ctx Hc Hk
    len chunk ms Hl Hch Hf Hfit SZ OK).
Qed.
Print Assumptions C61_histogram.

(** C61.  Prio3MultihotCountVec. *)
Theorem C61_multihot : forall (ts : TurboShake) (bound len mw chunk : nat) (key ctx : bytes) (ms : list (list bool * bytes * bytes)),
  1 <= len -> 1 <= mw <= len -> (Z.of_nat len < MODULUS Field128)%Z -> 1 <= chunk ->
  fits Field128 (ParallelSum Mul chunk) (Multihot_calls len mw chunk) ->
  let p := prio3_obj Field128 5 (MultihotCountVec Field128 len mw chunk) ts bound 2 1 in
  p3_message_fits p -> ctx_ok ctx -> length key = 32 -> sizes_ok p ms ->
  Forall (fun m => length m = len /\ (weight m <= Z.of_nat mw)%Z) (map meas_of ms) ->
  deploy_result p (test_points_ok (MultihotCountVec Field128 len mw chunk)) key ctx ms
    (fun ms' => map (fun i => Z.of_nat (length (filter (fun m => nth i m false) (map meas_of ms'))) mod MODULUS Field128)%Z (seq 0 len)).
Proof.
  intros ts bound len mw chunk key ctx ms Hl Hmw HlM Hch Hf p Hfit Hc Hk SZ OK.
  exact (deploy_multihot Field128 NttOk_Field128 wf_128 5 (proj1 (proj2 (proj2 (proj2 (proj2 ids_ok))))) ts bound 1 two_128 one_proof key ctx Hc Hk
    len mw chunk ms Hl Hmw HlM Hch Hf Hfit SZ OK).
Qed.
Print Assumptions C61_multihot.

(** C61.  Poplar1: the Collector learns the prefix counts of all reports. *)
Theorem C61_poplar1 : forall ts aes bound bits,
  (forall k b, length b = 16 -> length (aes k b) = 16) -> (Z.of_nat bound < 2 ^ 120)%Z -> 0 < bits ->
  let p := p1_obj ts aes bound bits in
  forall key ctx agg_param level prefixes ms,
  p1_decode_agg_param agg_param = Ok (Z.of_nat level, prefixes) ->
  NoDup prefixes -> Forall (fun x => length x = S level) prefixes ->
  ctx_ok ctx -> length key = 32 -> level < bits -> (Z.of_nat level < 65536)%Z ->
  p1_sizes_ok p ms -> Forall (fun r => length (fst (fst r)) = bits) ms ->
  p1_ran_out p (length prefixes) \/
  deploy (p1_vdaf p) ctx key agg_param (Z.of_nat level, prefixes) ms
  = Ok (map (fun x => (Z.of_nat (count_prefix x (map (fun r => fst (fst r)) ms)) mod level_modulus p level)%Z) prefixes).
Proof.
  intros ts aes bound bits Ha Hb H0 p key ctx agg_param level prefixes ms DA ND PL Hc Hk Hl H16 SZ LM.
  destruct (p1_obj_ok ts aes bound bits Ha Hb H0) as (lim & HO).
  refine (p1_deploy p lim HO (proj1 idpf_fields_wf) (proj2 idpf_fields_wf) _ key ctx agg_param level prefixes ms DA ND PL Hc Hk Hl H16 SZ LM).
  split; vm_compute; reflexivity.
Qed.
Print Assumptions C61_poplar1.

(** The messages of the variants of the test vectors fit into the frame. *)
Example C61_fits : p3_message_fits (prio3_obj Field64 2 (Sum Field64 255) (fun _ _ _ => x00) 50 2 1) /\
  p3_message_fits (prio3_obj Field128 4 (Histogram Field128 4 2) (fun _ _ _ => x00) 50 2 1) /\
  p3_message_fits (prio3_obj Field128 5 (MultihotCountVec Field128 4 2 2) (fun _ _ _ => x00) 50 2 1) /\
  p3_message_fits (prio3_obj Field64 4294967295 (SumVec Field64 10 255 9) (fun _ _ _ => x00) 50 2 3).
Proof. repeat split; vm_compute; reflexivity. Qed.

(** C62.  Whatever strings are uploaded, the Collector obtains the decoding of the
    sum of the contributions of the uploads that count, ... *)
Theorem C62_aggregate : forall (p : Prio3) (lim : Z), Prio3Ok p lim -> p3_SHARES p = 2 ->
  forall good valid, FlpOk (p3_flp p) good valid ->
  forall key ctx, p3_message_fits p -> ctx_ok ctx -> length key = p3_VERIFY_KEY_SIZE p ->
  forall us, let us' := filter (counted (Prio3Vdaf p) ctx key []) us in
  aggregate (Prio3Vdaf p) ctx key [] tt us
  = flp_decode (p3_flp p) (vsum (OUTPUT_LEN (p3_flp p)) (map (contribution p ctx key) us')) (length us').
Proof. exact aggregate_robust. Qed.
Print Assumptions C62_aggregate.

(** ... each of these is the truncation of a vector for which the FLP verifier
    accepts (how rarely that happens for invalid vectors is C50), ... *)
Theorem C62_contribution : forall (p : Prio3) (lim : Z), Prio3Ok p lim -> p3_SHARES p = 2 ->
  forall good valid, FlpOk (p3_flp p) good valid ->
  forall key ctx, p3_message_fits p -> ctx_ok ctx -> length key = p3_VERIFY_KEY_SIZE p ->
  forall u, counted (Prio3Vdaf p) ctx key [] u = true -> flp_accepted p key ctx (nonce_of u) (contribution p ctx key u).
Proof. exact counted_accepted. Qed.
Print Assumptions C62_contribution.

(** ... and the upload of an honest client counts unless the FLP refuses the
    derived query randomness, and contributes exactly the truncated encoding of
    the measurement. *)
Theorem C62_honest : forall (p : Prio3) (lim : Z), Prio3Ok p lim -> p3_SHARES p = 2 ->
  forall good valid, FlpOk (p3_flp p) good valid ->
  forall key ctx, p3_message_fits p -> ctx_ok ctx -> length key = p3_VERIFY_KEY_SIZE p ->
  forall m meas nonce rand out, encodable p (m, nonce, rand) ->
  flp_encode (p3_flp p) m = Ok meas -> (forall jr, length jr = JOINT_RAND_LEN (p3_flp p) -> valid meas jr) ->
  flp_truncate (p3_flp p) meas = Ok out ->
  ran_out p \/
  exists u, upload (Prio3Vdaf p) ctx (m, nonce, rand) = Ok u /\ nonce_of u = nonce /\
    (counted (Prio3Vdaf p) ctx key [] u = false <-> bad_query p good key ctx nonce) /\
    (counted (Prio3Vdaf p) ctx key [] u = true -> contribution p ctx key u = out).
Proof. exact honest_counted. Qed.
Print Assumptions C62_honest.

(** The same for any number of Aggregators that execute verification directly. *)
Theorem C62_report : forall (p : Prio3) (lim : Z), Prio3Ok p lim ->
  forall good valid, FlpOk (p3_flp p) good valid ->
  forall key ctx, ctx_ok ctx -> length key = p3_VERIFY_KEY_SIZE p ->
  forall nonce ps iss outs, public_share_wf p ps ->
  (forall j is, nth_error iss j = Some is -> input_share_wf p j is) ->
  verify_report (Prio3Vdaf p) ctx tt key nonce ps iss = Ok outs ->
  vecs (p3_SHARES p) (OUTPUT_LEN (p3_flp p)) outs /\ flp_accepted p key ctx nonce (vsum (OUTPUT_LEN (p3_flp p)) outs).
Proof. exact RobustFacts.report_robust. Qed.
Print Assumptions C62_report.

(** Two honest clients, one whose shares got mixed up with those of another, and
    two strings of garbage: the honest measurements are summed. *)
Definition toy_ts : TurboShake := fun m _ i => nth (i * i mod 97) (m ++ zeros 97) x07.
Definition toy_count := prio3_obj Field64 1 (Count Field64) toy_ts 50 2 1.
Definition toy_uploads :=
  uploaded (Prio3Vdaf toy_count) [x01] [(1%Z, zeros 16, zeros 64); (1%Z, repeat x01 16, repeat x03 64)].
Definition mixed_up := match toy_uploads with
  | [(n, ps, is0, _); (_, _, _, is1)] => [(n, ps, is0, is1)]
  | _ => []
  end.
Definition toy_garbage : list (bytes * bytes * bytes * bytes) :=
  [([], [], [], []); (zeros 16, [x05], repeat x07 112, repeat x08 32)].
Definition C62_outcome : list bool * res Z * res Z := Eval vm_compute in
  (map (counted (Prio3Vdaf toy_count) [x01] (zeros 32) []) (toy_uploads ++ mixed_up ++ toy_garbage),
   aggregate (Prio3Vdaf toy_count) [x01] (zeros 32) [] tt (toy_uploads ++ mixed_up ++ toy_garbage),
   deploy (Prio3Vdaf toy_count) [x01] (zeros 32) [] tt [(1%Z, zeros 16, zeros 64); (1%Z, repeat x01 16, repeat x03 64)]).
Example C62_example : C62_outcome = ([true; true; false; false; false], Ok 2%Z, Ok 2%Z).
Proof. reflexivity. Qed.
