(** Properties C71 and C72: the generation and the check of test vectors, and the
    VDAF and the test of the ping-pong protocol. *)
From Coq Require Import Strings.String.
From Verif Require Import Vdaf TestVectors TestVecSpec TestVecFacts TestVecGen TestVecInst PingPong PingPongSpec TestPingPong TestPingPongFacts RunSpec
  Prio3 Prio3Spec Poplar1 Poplar1Spec FlpSpec RobustSpec DeploySpec.
Open Scope nat_scope.

(** C71.  A test vector that lists all the operations on its reports passes the
    check exactly when it records the messages and the result of the execution of
    the VDAF on those reports. *)
Theorem C71_check : forall (vdaf : Vdaf) (ctx key : bytes) (ap : vd_AggParam vdaf)
  (I : vd_VerifyState vdaf -> vd_VerifierShare vdaf -> Prop) (reports : list (vd_Measurement vdaf * bytes * bytes)),
  CodecOk vdaf ctx key ap I reports -> 1 <= vd_SHARES vdaf -> 1 <= vd_ROUNDS vdaf ->
  forall (result_eqb : vd_AggResult vdaf -> vd_AggResult vdaf -> bool) tv,
  vector_inputs vdaf ctx key ap reports tv -> tv_operations tv = all_operations vdaf (length (tv_reports tv)) ->
  length (tv_agg_shares tv) = vd_SHARES vdaf ->
  check_test_vector vdaf result_eqb tv = Ok tt <-> vector_records vdaf ctx key ap result_eqb reports tv.
Proof. exact check_passes. Qed.
Print Assumptions C71_check.

(** What an operation checks: [assert_equal] passes iff the byte strings are equal,
    [assert_raises] iff an exception is raised; both otherwise fail by AssertionError,
    which is also what a number of input shares other than the recorded one yields. *)
Theorem C71_assertions :
  (forall x y, assert_equal x y = Ok tt /\ x = y \/ assert_equal x y = Raise AssertionError /\ x <> y) /\
  (forall A (a : A), assert_raises (Ok a) = Raise AssertionError) /\
  (forall A e, e <> OutOfFuel -> @assert_raises A (Raise e) = Ok tt) /\
  forall (vdaf : Vdaf) ctx m nonce rand ps iss enc eis, vd_shard vdaf ctx m nonce rand = Ok (ps, iss) ->
    vd_encode_public_share vdaf ps = Ok enc -> length iss <> length eis ->
    check_shard_success vdaf ctx m nonce rand enc eis = Raise AssertionError.
Proof.
  assert (EQ : forall x y, assert_equal x y = Ok tt /\ x = y \/ assert_equal x y = Raise AssertionError /\ x <> y).
  { intros x y. unfold assert_equal, check. destruct (bytes_eqb x y) eqn:E.
    - left. split; [reflexivity | apply BaseFacts.bytes_eqb_eq; exact E].
    - right. split; [reflexivity|]. intros ->. rewrite (proj2 (BaseFacts.bytes_eqb_eq y y) eq_refl) in E. discriminate. }
  split; [exact EQ|]. split; [reflexivity|]. split; [intros A e NF; destruct e; try reflexivity; congruence|].
  intros vdaf ctx m nonce rand ps iss enc eis ES EE NL. unfold check_shard_success. rewrite ES. cbn [bind]. rewrite EE. cbn [bind].
  destruct (EQ enc enc) as [[-> _]|[_ C]]; [|congruence]. cbn [bind]. rewrite (proj2 (Nat.eqb_neq _ _) NL). reflexivity.
Qed.
Print Assumptions C71_assertions.

(** Whatever the generator produces passes the check, and it produces a test vector
    with a result exactly when the execution of the VDAF has that result. *)
Theorem C71_generated : forall (vdaf : Vdaf) (ctx : bytes) (ap : vd_AggParam vdaf),
  let key := test_vec_gen_rand (vd_VERIFY_KEY_SIZE vdaf) in
  forall (I : vd_VerifyState vdaf -> vd_VerifierShare vdaf -> Prop) ms,
  CodecOk vdaf ctx key ap I (gen_reports vdaf ms) -> 1 <= vd_SHARES vdaf -> 1 <= vd_ROUNDS vdaf ->
  (forall r, run_vdaf vdaf key ap ctx (gen_reports vdaf ms) = Ok r <->
    exists tv, gen_test_vec_for_vdaf vdaf ap ctx ms = Ok tv /\ tv_agg_result tv = Some r) /\
  (forall tv result_eqb, (forall x, result_eqb x x = true) -> gen_test_vec_for_vdaf vdaf ap ctx ms = Ok tv ->
    check_test_vector vdaf result_eqb tv = Ok tt).
Proof.
  intros vdaf ctx ap key I ms CO HN HR. split.
  - intros r. exact (gen_iff vdaf ctx ap HR I HN ms r CO).
  - intros tv result_eqb RE G. exact (gen_passes vdaf ctx ap HR I HN ms tv result_eqb CO RE G).
Qed.
Print Assumptions C71_generated.

(** Prio3 and Poplar1 meet the hypothesis. *)
Theorem C71_Prio3 : forall (p : Prio3) (lim : Z) (good : list (F (p3_field p)) -> Prop) valid,
  Prio3Ok p lim -> FlpOk (p3_flp p) good valid ->
  forall key ctx, ctx_ok ctx -> length key = p3_VERIFY_KEY_SIZE p -> forall reports, Forall (encodable p) reports ->
  CodecOk (Prio3Vdaf p) ctx key tt (fun _ sh => verifier_share_wf p sh) reports.
Proof. intros p lim good valid HO HF key ctx Hc Hk reports. exact (p3_codec p lim HO good valid HF key ctx Hc Hk reports). Qed.
Print Assumptions C71_Prio3.

Theorem C71_Poplar1 : forall (p : Poplar1) (lim : Z), Poplar1Ok p lim ->
  wf_field (id_field_inner (p1_idpf p)) -> wf_field (id_field_leaf (p1_idpf p)) ->
  forall key ctx, ctx_ok ctx -> forall ap, agg_param_wf ap ->
  forall reports : list (list bool * bytes * bytes),
  Forall (fun '(alpha, nonce, rand) => length alpha = id_BITS (p1_idpf p) /\ length nonce = p1_NONCE_SIZE /\ length rand = p1_RAND_SIZE p) reports ->
  CodecOk (p1_vdaf p) ctx key ap (p1_level_inv p ap) reports.
Proof.
  intros p lim HO HWi HWl key ctx Hc ap Hap reports H. apply (p1_codec p lim HO HWi HWl key ctx Hc ap Hap).
  eapply Forall_impl; [|exact H]. intros [[alpha nonce] rand] A. exact A.
Qed.
Print Assumptions C71_Poplar1.

(** A test vector with one measurement for the VDAF of the ping-pong tests, with two
    rounds. *)
Definition C71_vector : test_vec Z Z :=
  Eval vm_compute in match gen_test_vec_for_vdaf (PingPongTester 2) 3%Z [x01] [5%Z] with
                     | Ok tv => tv
                     | Raise _ => Build_test_vec Z Z [] 0 "" "" "" [] [] None
                     end.
Example C71_example : gen_test_vec_for_vdaf (PingPongTester 2) 3%Z [x01] [5%Z] = Ok C71_vector /\
  tv_agg_result C71_vector = Some 15%Z /\ length (tv_operations C71_vector) = 12 /\
  check_test_vector (PingPongTester 2) Z.eqb C71_vector = Ok tt.
Proof. repeat apply conj; vm_compute; reflexivity. Qed.
(** The hypothesis on the number of aggregate shares cannot be dropped: the check
    does not compare it with SHARES. *)
Theorem C71_number_refuted : exists tv, tv_operations tv = all_operations (PingPongTester 2) (length (tv_reports tv)) /\
  length (tv_agg_shares tv) = 3 /\ vd_SHARES (PingPongTester 2) = 2 /\
  check_test_vector (PingPongTester 2) Z.eqb tv = Ok tt.
Proof.
  exists (Build_test_vec Z Z (tv_operations C71_vector) (tv_shares C71_vector) (tv_verify_key C71_vector) (tv_agg_param C71_vector)
    (tv_ctx C71_vector) (tv_reports C71_vector) (tv_agg_shares C71_vector ++ ["0000000000000000"%string]) (tv_agg_result C71_vector)).
  repeat apply conj; vm_compute; reflexivity.
Qed.
Print Assumptions C71_number_refuted.
(** One wrong digit in an output share, one in a message, and a wrong result. *)
Example C71_example_wrong :
  let with_reports f r := Build_test_vec Z Z (tv_operations C71_vector) 2 (tv_verify_key C71_vector) (tv_agg_param C71_vector)
    (tv_ctx C71_vector) (map f (tv_reports C71_vector)) (tv_agg_shares C71_vector) r in
  let with_out outs msgs (rv : report_vec Z) := Build_report_vec Z (rv_measurement rv) (rv_nonce rv) (rv_rand rv) (rv_public_share rv)
    (rv_input_shares rv) (rv_verifier_shares rv) (msgs (rv_verifier_messages rv)) (outs (rv_out_shares rv)) in
  check_test_vector (PingPongTester 2) Z.eqb (with_reports (with_out (fun x => x) (fun x => x)) (Some 15%Z)) = Ok tt /\
  check_test_vector (PingPongTester 2) Z.eqb (with_reports (with_out (fun _ => ["0000000000000004"; "0000000000000005"]%string) (fun x => x)) (Some 15%Z)) = Raise AssertionError /\
  check_test_vector (PingPongTester 2) Z.eqb (with_reports (with_out (fun x => x) (fun x => rev x)) (Some 15%Z)) = Raise AssertionError /\
  check_test_vector (PingPongTester 2) Z.eqb (with_reports (with_out (fun x => x) (fun x => x)) (Some 16%Z)) = Raise AssertionError.
Proof. repeat apply conj; vm_compute; reflexivity. Qed.

(** C72.  Who sends the last message of the ping-pong protocol is decided by the
    parity of ROUNDS. *)
Theorem C72_ending : forall (vdaf : Vdaf) key ctx agg_param nonce ps is is_leader s, 1 <= vd_ROUNDS vdaf ->
  pp_history vdaf ctx key agg_param nonce ps is is_leader s ->
  match s with
  | Finished _ => Nat.odd (vd_ROUNDS vdaf) = is_leader
  | FinishedWithOutbound _ _ => Nat.even (vd_ROUNDS vdaf) = is_leader
  | _ => True
  end.
Proof. exact history_ending. Qed.
Print Assumptions C72_ending.

(** The test ends, for every number of rounds, with both parties holding the
    measurement as output share, and with the Helper sending the last message if
    the number of rounds is odd. *)
Theorem C72_multi_round : forall n, (Z.of_nat n < 2 ^ 31)%Z -> forall ctx measurement agg_param, 1 <= n ->
  (0 <= measurement < 2 ^ 64)%Z -> (0 <= agg_param < 2 ^ 64)%Z ->
  exists last, pp_decode last = Ok (2%Z, [verify_round_str (n - 1)]) /\
  test_multi_round n ctx measurement agg_param =
    Ok (if Nat.odd n then (@Finished (PingPongTester n) (inr measurement), @FinishedWithOutbound (PingPongTester n) (inr measurement) last)
        else (@FinishedWithOutbound (PingPongTester n) (inr measurement) last, @Finished (PingPongTester n) (inr measurement))).
Proof.
  intros n Hn ctx m ap H1 Hm Ha. exists (ob_finish (n - 1)). split; [apply (decode_finish n Hn); lia|].
  exact (multi_round n Hn ctx m ap H1 Hm Ha).
Qed.
Print Assumptions C72_multi_round.

(** The reference execution of that VDAF returns the product of the aggregation
    parameter with the sum of the measurements. *)
Theorem C72_run : forall n ctx ap ms, 1 <= n ->
  run_vdaf (PingPongTester n) [] ap ctx ms = Ok (ap * fold_right Z.add 0 (map (fun r => fst (fst r)) ms))%Z.
Proof. exact tester_run. Qed.
Print Assumptions C72_run.

(** A message of another round is rejected. *)
Theorem C72_rejects : forall n b ctx agg_param m r r' ob inbound ty items s, r <> r' ->
  pp_decode inbound = Ok (ty, items) -> nth_error items 0 = Some (verify_round_str r') ->
  ping_pong_continued (PingPongTester n) b ctx agg_param (@Continued (PingPongTester n) (r, m) r ob) inbound = Ok s -> s = Rejected.
Proof.
  intros n b ctx eap m r r' ob inbound ty items s NE D E C.
  assert (N : s = Rejected \/ s <> Rejected) by (destruct s; (now left) || (right; discriminate)).
  destruct N as [N|N]; [exact N|exfalso]. destruct (tester_rejects n b ctx eap m r ob inbound s N C) as (ty' & items' & D' & E').
  rewrite D in D'. injection D' as <- <-. rewrite E in E'. apply NE. symmetry. apply round_str_inj. congruence.
Qed.
Print Assumptions C72_rejects.
Example C72_example :
  match test_multi_round 3 [x01] 1337 23 with Ok (Finished (inr a), FinishedWithOutbound (inr b) _) => Some (a, b) | _ => None end
    = Some (1337, 1337)%Z /\
  match test_multi_round 4 [x01] 1337 23 with Ok (FinishedWithOutbound (inr a) _, Finished (inr b)) => Some (a, b) | _ => None end
    = Some (1337, 1337)%Z.
Proof. split; vm_compute; reflexivity. Qed.
