(** The negative test vectors pass the check. *)
From Verif Require Import NegVectors TestVecSpec TestVecFacts TestVecInst BaseFacts.
From Verif Require Import RobustSpec DeploySpec DeployFacts DeployInst RunSpec RunFacts PingPongSpec PingPongInst Prio3Spec FlpSpec Poplar1Spec.
From Verif Require Import CodecProofs PostFacts Prio3Facts Prio3Run Prio3Props IdpfSpec Poplar1Props Poplar1Codec Poplar1Run Poplar1End.
Open Scope nat_scope.

Section G.
Context (vdaf : Vdaf) (HS : vd_SHARES vdaf = 2) (result_eqb : vd_AggResult vdaf -> vd_AggResult vdaf -> bool).
Context (none : vd_Measurement vdaf) (key nonce rand ctx : bytes) (apb : bytes) (ap : vd_AggParam vdaf).
Context (Hap : vd_decode_agg_param vdaf apb = Ok ap).
Context (ps : vd_PublicShare vdaf) (is0 is1 : vd_InputShare vdaf) (psb b0 b1 : bytes).
Context (Hps : vd_decode_public_share vdaf psb = Ok ps).
Context (H0 : vd_decode_input_share vdaf 0 b0 = Ok is0) (H1 : vd_decode_input_share vdaf 1 b1 = Ok is1).
Context (st0 st1 : vd_VerifyState vdaf) (sh0 sh1 : vd_VerifierShare vdaf) (vb0 vb1 : bytes).
Context (V0 : vd_verify_init vdaf key ctx 0 ap nonce ps is0 = Ok (st0, sh0)) (W0 : vd_encode_verifier_share vdaf sh0 = Ok vb0).

Definition failed (A : Type) (m : res A) : Prop := exists e, m = Raise e /\ e <> OutOfFuel.
Lemma failed_raises A (m : res A) : failed A m -> assert_raises m = Ok tt.
Proof. intros (e & -> & N). destruct e; try reflexivity. now destruct N. Qed.

Definition the_vec (ops : list operation) (rows : list (list string)) (msgs : list string) : test_vec (vd_Measurement vdaf) (vd_AggResult vdaf) :=
  {| tv_operations := ops;
        tv_shares := 2; tv_verify_key := to_hex key; tv_agg_param := to_hex apb; tv_ctx := to_hex ctx;
        tv_reports := [{| rv_measurement := none; rv_nonce := to_hex nonce; rv_rand := to_hex rand;
          rv_public_share := to_hex psb; rv_input_shares := [to_hex b0; to_hex b1]; rv_verifier_shares := rows;
          rv_verifier_messages := msgs; rv_out_shares := [] |}];
        tv_agg_shares := []; tv_agg_result := None |}.

Ltac step := repeat (rewrite fromhex_to_hex || cbn [get nth_error bind field_of op_report_index op_aggregator_id op_round op_success mapM fst snd]).

Lemma op_init0 ops row rows msgs (vs : states vdaf) :
  check_operation vdaf result_eqb (the_vec ops ((to_hex vb0 :: row) :: rows) msgs) vs (op_verify_init 0 0)
  = states_set vdaf vs 0 0 0 st0.
Proof.
  unfold check_operation, the_vec, op_verify_init.
  cbn -[states_set fromhex check_verify_init_success]. step. unfold check_verify_init_success.
  rewrite Hap, Hps, H0. cbn [bind]. rewrite V0. cbn [bind]. rewrite W0. cbn [bind]. rewrite assert_equal_refl. reflexivity.
Qed.

Lemma check_vec ops rows msgs : check_test_vector vdaf result_eqb (the_vec ops rows msgs)
  = let* _ := foldM (check_operation vdaf result_eqb (the_vec ops rows msgs)) ops [[[]; []]] in Ok tt.
Proof. unfold check_test_vector. rewrite HS. reflexivity. Qed.
Ltac keep := cbn -[check_operation the_vec op_verify_init op_to_message op_verify_next op_to_message_fails op_verify_next_fails].

Section Two.
Context (V1 : vd_verify_init vdaf key ctx 1 ap nonce ps is1 = Ok (st1, sh1)) (W1 : vd_encode_verifier_share vdaf sh1 = Ok vb1).
Context (D0 : vd_decode_verifier_share vdaf st0 vb0 = Ok sh0) (D1 : vd_decode_verifier_share vdaf st1 vb1 = Ok sh1).

Lemma op_init1 ops s row rows msgs (vs : states vdaf) :
  check_operation vdaf result_eqb (the_vec ops ((s :: to_hex vb1 :: row) :: rows) msgs) vs (op_verify_init 0 1)
  = states_set vdaf vs 0 1 0 st1.
Proof.
  unfold check_operation, the_vec, op_verify_init.
  cbn -[states_set fromhex check_verify_init_success]. step. unfold check_verify_init_success.
  rewrite Hap, Hps, H1. cbn [bind]. rewrite V1. cbn [bind]. rewrite W1. cbn [bind]. rewrite assert_equal_refl. reflexivity.
Qed.

Lemma check_one_round : failed _ (vd_verifier_shares_to_message vdaf ctx ap [sh0; sh1]) ->
  check_test_vector vdaf result_eqb
    (the_vec [op_verify_init 0 0; op_verify_init 0 1; op_to_message_fails 0 0] [[to_hex vb0; to_hex vb1]] []) = Ok tt.
Proof.
  intros Hf. rewrite check_vec. cbn [foldM]. rewrite op_init0. keep. rewrite op_init1. keep.
  unfold check_operation, the_vec, op_to_message_fails. cbn -[fromhex check_verifier_shares_to_message_failure states_get range].
  rewrite HS. step. cbn -[fromhex check_verifier_shares_to_message_failure]. step.
  unfold check_verifier_shares_to_message_failure. rewrite Hap. cbn [bind mapM combine]. rewrite D0. cbn [bind]. rewrite D1. cbn [bind].
  now rewrite (failed_raises _ _ Hf).
Qed.

Context (msg : vd_VerifierMessage vdaf) (mb : bytes).
Context (M : vd_verifier_shares_to_message vdaf ctx ap [sh0; sh1] = Ok msg) (EM : vd_encode_verifier_message vdaf msg = Ok mb).
Context (DM0 : vd_decode_verifier_message vdaf st0 mb = Ok msg) (DM1 : vd_decode_verifier_message vdaf st1 mb = Ok msg).
Context (st0' st1' : vd_VerifyState vdaf) (t0 t1 : vd_VerifierShare vdaf) (tb0 tb1 : bytes).
Context (N0 : vd_verify_next vdaf ctx st0 msg = Ok (inl (st0', t0))) (N1 : vd_verify_next vdaf ctx st1 msg = Ok (inl (st1', t1))).
Context (X0 : vd_encode_verifier_share vdaf t0 = Ok tb0) (X1 : vd_encode_verifier_share vdaf t1 = Ok tb1).
Context (Y0 : vd_decode_verifier_share vdaf st0' tb0 = Ok t0) (Y1 : vd_decode_verifier_share vdaf st1' tb1 = Ok t1).

Lemma check_two_rounds : vd_ROUNDS vdaf = 2 -> failed _ (vd_verifier_shares_to_message vdaf ctx ap [t0; t1]) ->
  check_test_vector vdaf result_eqb
    (the_vec [op_verify_init 0 0; op_verify_init 0 1; op_to_message 0 0; op_verify_next 0 1 0; op_verify_next 0 1 1; op_to_message_fails 0 1]
       [[to_hex vb0; to_hex vb1]; [to_hex tb0; to_hex tb1]] [to_hex mb]) = Ok tt.
Proof.
  intros HR Hf. rewrite check_vec. cbn [foldM]. rewrite op_init0. keep. rewrite op_init1. keep. set (tv := the_vec _ _ _).
  assert (E1 : forall vs, states_get vdaf vs 0 0 0 = Ok st0 -> states_get vdaf vs 0 1 0 = Ok st1 ->
    check_operation vdaf result_eqb tv vs (op_to_message 0 0) = Ok vs).
  { intros vs S0 S1. unfold tv, check_operation, the_vec, op_to_message. cbn -[fromhex check_verifier_shares_to_message_success states_get range].
    rewrite HS. change (range 0 2) with [0; 1]. cbn [mapM]. rewrite S0, S1. cbn [bind]. step.
    unfold check_verifier_shares_to_message_success. rewrite Hap. cbn [bind mapM combine]. rewrite D0. cbn [bind]. rewrite D1. cbn [bind].
    rewrite M. cbn [bind]. rewrite EM. cbn [bind]. now rewrite assert_equal_refl. }
  rewrite E1 by reflexivity. keep.
  assert (E2 : forall vs, states_get vdaf vs 0 0 0 = Ok st0 -> 
    check_operation vdaf result_eqb tv vs (op_verify_next 0 1 0) = states_set vdaf vs 0 0 1 st0').
  { intros vs S0. unfold tv, check_operation, the_vec, op_verify_next. cbn -[fromhex check_verify_next_success states_get states_set].
    step. rewrite S0. step. rewrite HR. cbn [Nat.ltb Nat.leb]. unfold check_verify_next_success. rewrite DM0. cbn [bind].
    rewrite N0. cbn [bind]. rewrite HR. cbn [Nat.ltb Nat.leb]. rewrite X0. cbn [bind]. now rewrite assert_equal_refl. }
  rewrite E2 by reflexivity. keep.
  assert (E3 : forall vs, states_get vdaf vs 0 1 0 = Ok st1 -> 
    check_operation vdaf result_eqb tv vs (op_verify_next 0 1 1) = states_set vdaf vs 0 1 1 st1').
  { intros vs S1. unfold tv, check_operation, the_vec, op_verify_next. cbn -[fromhex check_verify_next_success states_get states_set].
    step. rewrite S1. step. rewrite HR. cbn [Nat.ltb Nat.leb]. unfold check_verify_next_success. rewrite DM1. cbn [bind].
    rewrite N1. cbn [bind]. rewrite HR. cbn [Nat.ltb Nat.leb]. rewrite X1. cbn [bind]. now rewrite assert_equal_refl. }
  rewrite E3 by reflexivity. keep.
  unfold tv, check_operation, the_vec, op_to_message_fails. cbn -[fromhex check_verifier_shares_to_message_failure states_get range].
  rewrite HS. step. cbn -[fromhex check_verifier_shares_to_message_failure]. step.
  unfold check_verifier_shares_to_message_failure. rewrite Hap. cbn [bind mapM combine]. rewrite Y0. cbn [bind]. rewrite Y1. cbn [bind].
  now rewrite (failed_raises _ _ Hf).
Qed.
End Two.

Lemma check_next msg mb : vd_decode_verifier_message vdaf st0 mb = Ok msg -> failed _ (vd_verify_next vdaf ctx st0 msg) ->
  check_test_vector vdaf result_eqb
    (the_vec [op_verify_init 0 0; op_verify_next_fails 0 1 0] [[to_hex vb0]] [to_hex mb]) = Ok tt.
Proof.
  intros DM Hf. rewrite check_vec. cbn [foldM]. rewrite op_init0. keep.
  unfold check_operation, the_vec, op_verify_next_fails. cbn -[fromhex check_verify_next_failure]. step.
  unfold check_verify_next_failure. rewrite DM. cbn [bind]. now rewrite (failed_raises _ _ Hf).
Qed.
End G.

Lemma should_fail_Ok {A} (m : res A) msg u : should_fail m msg = Ok u -> exists s, m = Raise (ValueError s).
Proof. destruct m as [a|e]; [discriminate|]. destruct e; try discriminate. intros _. eauto. Qed.
Lemma should_fail_failed {A} (m : res A) msg u : should_fail m msg = Ok u -> failed A m.
Proof. intros H. destruct (should_fail_Ok _ _ _ H) as (s & ->). eexists. split; [reflexivity | discriminate]. Qed.
Lemma hexed_Ok {A} (enc : A -> res bytes) a s : hexed enc a = Ok s -> exists b, enc a = Ok b /\ s = to_hex b.
Proof. unfold hexed. intros H. apply bind_Ok in H as (b & E & H). exists b. split; [easy | congruence]. Qed.
Lemma reads_hexed {A} (enc : A -> res bytes) dec a s : reads_back enc dec a -> hexed enc a = Ok s -> exists b, enc a = Ok b /\ dec b = Ok a /\ s = to_hex b.
Proof. intros (b & E & D) H. destruct (hexed_Ok _ _ _ H) as (b' & E' & ->). exists b. rewrite E in E'. injection E' as <-. easy. Qed.

Lemma hexed_reads {A} (enc : A -> res bytes) dec a : reads_back enc dec a -> exists s, hexed enc a = Ok s.
Proof. intros (b & E & _). unfold hexed. rewrite E. cbn. eauto. Qed.

Section P3.
Context (p : Prio3) (lim : Z) (HO : Prio3Ok p lim) (H2 : p3_SHARES p = 2).
Notation F := (F (p3_field p)).
Context (good : list F -> Prop) (valid : list F -> list F -> Prop) (HF : FlpOk (p3_flp p) good valid).
Context (key ctx : bytes) (Hc : ctx_ok ctx) (Hk : length key = p3_VERIFY_KEY_SIZE p).
Context (result_eqb : AggResult (p3_flp p) -> AggResult (p3_flp p) -> bool).

Theorem p3_failure_passes none nonce rand ps is0 is1 tv :
  public_share_wf p ps -> input_share_wf p 0 is0 -> input_share_wf p 1 is1 ->
  prio3_message_failure p none key nonce rand ctx ps is0 is1 = Ok tv ->
  check_test_vector (Prio3Vdaf p) result_eqb tv = Ok tt.
Proof.
  intros WP W0 W1 H. unfold prio3_message_failure in H.
  apply bind_Ok in H as ((st0 & sh0) & V0 & H). apply bind_Ok in H as ((st1 & sh1) & V1 & H).
  apply bind_Ok in H as (u & Hf & H). apply should_fail_failed in Hf.
  apply bind_Ok in H as (psh & E1 & H). apply bind_Ok in H as (ish0 & E2 & H). apply bind_Ok in H as (ish1 & E3 & H).
  apply bind_Ok in H as (vsh0 & E4 & H). apply bind_Ok in H as (vsh1 & E5 & H).
  destruct (reads_hexed _ _ _ _ (p3_public_reads p key Hk ps WP) E1) as (psb & _ & D1 & ->).
  destruct (reads_hexed _ _ _ _ (proj1 (input_share_codec p (po_field _ _ HO) 0) is0 W0) E2) as (b0 & _ & D2 & ->).
  destruct (reads_hexed _ _ _ _ (proj1 (input_share_codec p (po_field _ _ HO) 1) is1 W1) E3) as (b1 & _ & D3 & ->).
  pose proof (proj1 (p3_init_wf p lim HO good valid HF key ctx Hc Hk 0 nonce ps is0 st0 sh0 ltac:(lia) W0 WP V0)) as Q0.
  pose proof (proj1 (p3_init_wf p lim HO good valid HF key ctx Hc Hk 1 nonce ps is1 st1 sh1 ltac:(lia) W1 WP V1)) as Q1.
  destruct (reads_hexed _ _ _ _ (proj1 (verifier_share_codec p (po_field _ _ HO) st0) sh0 Q0) E4) as (vb0 & W4 & D4 & ->).
  destruct (reads_hexed _ _ _ _ (proj1 (verifier_share_codec p (po_field _ _ HO) st1) sh1 Q1) E5) as (vb1 & W5 & D5 & ->).
  injection H as <-.
  exact (check_one_round (Prio3Vdaf p) H2 result_eqb none key nonce rand ctx [] tt eq_refl ps is0 is1 psb b0 b1 D1 D2 D3
    st0 st1 sh0 sh1 vb0 vb1 V0 W4 V1 W5 D4 D5 Hf).
Qed.

(** The generator, given that both Aggregators initialise their state. *)
Theorem p3_failure_total none nonce rand ps is0 is1 st0 sh0 st1 sh1 :
  public_share_wf p ps -> input_share_wf p 0 is0 -> input_share_wf p 1 is1 ->
  p3_verify_init p key ctx 0 tt nonce ps is0 = Ok (st0, sh0) ->
  p3_verify_init p key ctx 1 tt nonce ps is1 = Ok (st1, sh1) ->
  match p3_verifier_shares_to_message p ctx tt [sh0; sh1] with
  | Ok _ => prio3_message_failure p none key nonce rand ctx ps is0 is1
            = Raise (Exception_ "verifier_shares_to_message should fail")
  | Raise (ValueError _) => exists tv, prio3_message_failure p none key nonce rand ctx ps is0 is1 = Ok tv
  | Raise e => prio3_message_failure p none key nonce rand ctx ps is0 is1 = Raise e
  end.
Proof.
  intros WP W0 W1 V0 V1. unfold prio3_message_failure. rewrite V0. cbn [bind]. rewrite V1. cbn [bind].
  destruct (p3_verifier_shares_to_message p ctx tt [sh0; sh1]) as [x|e]; [easy|].
  destruct e; cbn [should_fail bind]; try easy.
  destruct (hexed_reads _ _ _ (p3_public_reads p key Hk ps WP)) as (? & ->). cbn [bind].
  destruct (hexed_reads _ _ _ (proj1 (input_share_codec p (po_field _ _ HO) 0) is0 W0)) as (? & ->). cbn [bind].
  destruct (hexed_reads _ _ _ (proj1 (input_share_codec p (po_field _ _ HO) 1) is1 W1)) as (? & ->). cbn [bind].
  pose proof (proj1 (p3_init_wf p lim HO good valid HF key ctx Hc Hk 0 nonce ps is0 st0 sh0 ltac:(lia) W0 WP V0)) as Q0.
  pose proof (proj1 (p3_init_wf p lim HO good valid HF key ctx Hc Hk 1 nonce ps is1 st1 sh1 ltac:(lia) W1 WP V1)) as Q1.
  destruct (hexed_reads _ _ _ (proj1 (verifier_share_codec p (po_field _ _ HO) st0) sh0 Q0)) as (? & ->). cbn [bind].
  destruct (hexed_reads _ _ _ (proj1 (verifier_share_codec p (po_field _ _ HO) st1) sh1 Q1)) as (? & ->). cbn [bind].
  eauto.
Qed.

(** Likewise for the vector with the wrong verifier message. *)
Theorem p3_bad_message_total none nonce rand ps is0 is1 st0 sh0 :
  public_share_wf p ps -> input_share_wf p 0 is0 -> input_share_wf p 1 is1 ->
  p3_verify_init p key ctx 0 tt nonce ps is0 = Ok (st0, sh0) ->
  if opt_bytes_eqb (Some (zeros (SEED_SIZE (p3_xof p)))) (snd st0)
  then bad_verifier_message p none key nonce rand ctx ps is0 is1 = Raise (Exception_ "pep_next should fail")
  else exists tv, bad_verifier_message p none key nonce rand ctx ps is0 is1 = Ok tv.
Proof.
  intros WP W0 W1 V0.
  pose proof (proj1 (p3_init_wf p lim HO good valid HF key ctx Hc Hk 0 nonce ps is0 st0 sh0 ltac:(lia) W0 WP V0)) as Q0.
  unfold bad_verifier_message. rewrite V0. cbn [bind]. destruct st0 as (o, seed). cbn [snd p3_verify_next].
  destruct (opt_bytes_eqb _ seed); cbn [check bind should_fail]; [easy|].
  destruct (hexed_reads _ _ _ (p3_public_reads p key Hk ps WP)) as (? & ->). cbn [bind].
  destruct (hexed_reads _ _ _ (proj1 (input_share_codec p (po_field _ _ HO) 0) is0 W0)) as (? & ->). cbn [bind].
  destruct (hexed_reads _ _ _ (proj1 (input_share_codec p (po_field _ _ HO) 1) is1 W1)) as (? & ->). cbn [bind].
  destruct (hexed_reads _ _ _ (proj1 (verifier_share_codec p (po_field _ _ HO) (o, seed)) sh0 Q0)) as (? & ->). cbn [bind].
  eauto.
Qed.

Theorem p3_bad_message_passes none nonce rand ps is0 is1 tv :
  0 < JOINT_RAND_LEN (p3_flp p) ->
  public_share_wf p ps -> input_share_wf p 0 is0 -> input_share_wf p 1 is1 ->
  bad_verifier_message p none key nonce rand ctx ps is0 is1 = Ok tv ->
  check_test_vector (Prio3Vdaf p) result_eqb tv = Ok tt.
Proof.
  intros HJ WP W0 W1 H. unfold bad_verifier_message in H.
  apply bind_Ok in H as ((st0 & sh0) & V0 & H).
  apply bind_Ok in H as (u & Hf & H). apply should_fail_failed in Hf.
  apply bind_Ok in H as (psh & E1 & H). apply bind_Ok in H as (ish0 & E2 & H). apply bind_Ok in H as (ish1 & E3 & H).
  apply bind_Ok in H as (vsh0 & E4 & H).
  destruct (reads_hexed _ _ _ _ (p3_public_reads p key Hk ps WP) E1) as (psb & _ & D1 & ->).
  destruct (reads_hexed _ _ _ _ (proj1 (input_share_codec p (po_field _ _ HO) 0) is0 W0) E2) as (b0 & _ & D2 & ->).
  destruct (reads_hexed _ _ _ _ (proj1 (input_share_codec p (po_field _ _ HO) 1) is1 W1) E3) as (b1 & _ & D3 & ->).
  pose proof (proj1 (p3_init_wf p lim HO good valid HF key ctx Hc Hk 0 nonce ps is0 st0 sh0 ltac:(lia) W0 WP V0)) as Q0.
  destruct (reads_hexed _ _ _ _ (proj1 (verifier_share_codec p (po_field _ _ HO) st0) sh0 Q0) E4) as (vb0 & W4 & D4 & ->).
  injection H as <-.
  assert (NE : zeros (SEED_SIZE (p3_xof p)) <> []) by (pose proof (po_seed _ _ HO); destruct (SEED_SIZE (p3_xof p)); [lia | discriminate]).
  assert (DM : p3_decode_verifier_message p st0 (zeros (SEED_SIZE (p3_xof p))) = Ok (Some (zeros (SEED_SIZE (p3_xof p))))).
  { destruct (proj1 (message_codec p st0) (Some (zeros (SEED_SIZE (p3_xof p)))) ltac:(congruence)) as (b & E & D).
    cbn in E. injection E as <-. exact D. }
  exact (check_next (Prio3Vdaf p) H2 result_eqb none key nonce rand ctx [] tt eq_refl ps is0 psb b0 b1 D1 D2
    st0 sh0 vb0 V0 W4 _ _ DM Hf).
Qed.
End P3.

Section P1.
Context (p : Poplar1) (lim : Z) (HO : Poplar1Ok p lim).
Context (HWi : wf_field (id_field_inner (p1_idpf p))) (HWl : wf_field (id_field_leaf (p1_idpf p))).
Context (key ctx : bytes) (Hc : ctx_ok ctx) (ap : Poplar1AggParam) (Hap : agg_param_wf ap).
Context (result_eqb : list Z -> list Z -> bool).

Theorem p1_failure_passes none nonce rand ps is0 is1 tv :
  idpf_public_wf (p1_idpf p) ps -> p1_input_share_wf p is0 -> p1_input_share_wf p is1 ->
  poplar1_message_failure p none key nonce rand ctx ap ps is0 is1 = Ok tv ->
  check_test_vector (p1_vdaf p) result_eqb tv = Ok tt.
Proof.
  intros WP W0 W1 H. unfold poplar1_message_failure in H. cbv zeta in H.
  apply bind_Ok in H as ((st0 & sh0) & V0 & H). apply bind_Ok in H as ((st1 & sh1) & V1 & H).
  apply bind_Ok in H as (msg & M & H).
  apply bind_Ok in H as ((st0' & t0) & N0 & H). apply bind_Ok in H as ((st1' & t1) & N1 & H).
  apply bind_Ok in N0 as ([[? ?]|] & N0 & X); [|discriminate]. injection X as -> ->.
  apply bind_Ok in N1 as ([[? ?]|] & N1 & X); [|discriminate]. injection X as -> ->.
  apply bind_Ok in H as (u & Hf & H). apply should_fail_failed in Hf.
  apply bind_Ok in H as (aph & E0 & H).
  apply bind_Ok in H as (psh & E1 & H). apply bind_Ok in H as (ish0 & E2 & H). apply bind_Ok in H as (ish1 & E3 & H).
  apply bind_Ok in H as (vsh0 & E4 & H). apply bind_Ok in H as (vsh1 & E5 & H).
  apply bind_Ok in H as (vsh0' & E6 & H). apply bind_Ok in H as (vsh1' & E7 & H). apply bind_Ok in H as (mh & E8 & H).
  destruct (pk_idpf _ _ HO) as [lim' HI].
  destruct (reads_hexed _ _ _ _ (proj1 agg_param_codec1 ap Hap) E0) as (apb & _ & D0 & ->).
  destruct (reads_hexed _ _ _ _ (proj1 (IdpfCodec.idpf_public_codec (p1_idpf p) HWi HWl (io_bits _ _ HI)) ps WP) E1) as (psb & _ & D1 & ->).
  destruct (reads_hexed _ _ _ _ (proj1 (p1_input_codec p HWi HWl 0) is0 W0) E2) as (b0 & _ & D2 & ->).
  destruct (reads_hexed _ _ _ _ (proj1 (p1_input_codec p HWi HWl 1) is1 W1) E3) as (b1 & _ & D3 & ->).
  pose proof V0 as V0'. apply init_state in V0' as (m0 & ES0 & _ & L0 & C0 & S0).
  pose proof V1 as V1'. apply init_state in V1' as (m1 & ES1 & _ & L1 & C1 & S1). 
  pose proof (p1_codec p lim HO HWi HWl key ctx Hc ap Hap [] (Forall_nil _)) as CO.
  assert (I0 : p1_level_inv p ap st0 sh0) by (rewrite ES0; repeat split; assumption).
  assert (I1 : p1_level_inv p ap st1 sh1) by (rewrite ES1; repeat split; assumption).
  assert (F2 : Forall2 (p1_level_inv p ap) [st0; st1] [sh0; sh1]) by exact (Forall2_cons _ _ I0 (Forall2_cons _ _ I1 (Forall2_nil _))).
  pose proof (co_next _ _ _ _ _ _ CO [st0; st1] [sh0; sh1] msg st0 st0' t0 F2 M (or_introl eq_refl) N0) as I0'.
  pose proof (co_next _ _ _ _ _ _ CO [st0; st1] [sh0; sh1] msg st1 st1' t1 F2 M (or_intror (or_introl eq_refl)) N1) as I1'.
  destruct (reads_hexed _ _ _ _ (co_share _ _ _ _ _ _ CO st0 sh0 I0) E4) as (vb0 & W4 & D4 & ->).
  destruct (reads_hexed _ _ _ _ (co_share _ _ _ _ _ _ CO st1 sh1 I1) E5) as (vb1 & W5 & D5 & ->).
  destruct (reads_hexed _ _ _ _ (co_share _ _ _ _ _ _ CO st0' t0 I0') E6) as (tb0 & W6 & D6 & ->).
  destruct (reads_hexed _ _ _ _ (co_share _ _ _ _ _ _ CO st1' t1 I1') E7) as (tb1 & W7 & D7 & ->).
  destruct (co_message _ _ _ _ _ _ CO [st0; st1] [sh0; sh1] msg st0 F2 M (or_introl eq_refl)) as (mb & EM & DM0).
  destruct (co_message _ _ _ _ _ _ CO [st0; st1] [sh0; sh1] msg st1 F2 M (or_intror (or_introl eq_refl))) as (mb' & EM' & DM1).
  assert (mb' = mb) by congruence. subst mb'.
  destruct (hexed_Ok _ _ _ E8) as (mb' & EM'' & ->). assert (mb' = mb). { cbn in EM. rewrite EM'' in EM. congruence. } subst mb'.
  injection H as <-.
  exact (check_two_rounds (p1_vdaf p) eq_refl result_eqb none key nonce rand ctx apb ap D0 ps is0 is1 psb b0 b1 D1 D2 D3
    st0 st1 sh0 sh1 vb0 vb1 V0 W4 V1 W5 D4 D5 msg mb M EM DM0 DM1 st0' st1' t0 t1 tb0 tb1 N0 N1 W6 W7 D6 D7 eq_refl Hf).
Qed.

Theorem p1_failure_total none nonce rand ps is0 is1 st0 sh0 st1 sh1 msg st0' t0 st1' t1 :
  idpf_public_wf (p1_idpf p) ps -> p1_input_share_wf p is0 -> p1_input_share_wf p is1 ->
  p1_verify_init p key ctx 0 ap nonce ps is0 = Ok (st0, sh0) ->
  p1_verify_init p key ctx 1 ap nonce ps is1 = Ok (st1, sh1) ->
  p1_verifier_shares_to_message p ctx ap [sh0; sh1] = Ok msg ->
  p1_verify_next p ctx st0 msg = Ok (inl (st0', t0)) -> p1_verify_next p ctx st1 msg = Ok (inl (st1', t1)) ->
  match p1_verifier_shares_to_message p ctx ap [t0; t1] with
  | Ok _ => poplar1_message_failure p none key nonce rand ctx ap ps is0 is1
            = Raise (Exception_ "verifier_shares_to_message should fail")
  | Raise (ValueError _) => exists tv, poplar1_message_failure p none key nonce rand ctx ap ps is0 is1 = Ok tv
  | Raise e => poplar1_message_failure p none key nonce rand ctx ap ps is0 is1 = Raise e
  end.
Proof.
  intros WP W0 W1 V0 V1 M N0 N1. unfold poplar1_message_failure. cbv zeta.
  rewrite V0. cbn [bind]. rewrite V1. cbn [bind]. rewrite M. cbn [bind]. rewrite N0. cbn [bind]. rewrite N1. cbn [bind].
  destruct (p1_verifier_shares_to_message p ctx ap [t0; t1]) as [x|e]; [easy|].
  destruct e; cbn [should_fail bind]; try easy.
  destruct (pk_idpf _ _ HO) as [lim' HI].
  destruct (hexed_reads _ _ _ (proj1 agg_param_codec1 ap Hap)) as (? & ->). cbn [bind].
  destruct (hexed_reads _ _ _ (proj1 (IdpfCodec.idpf_public_codec (p1_idpf p) HWi HWl (io_bits _ _ HI)) ps WP)) as (? & EP).
  change (hexed (p1_encode_public_share p) ps = Ok x0) in EP. rewrite EP. cbn [bind].
  destruct (hexed_reads _ _ _ (proj1 (p1_input_codec p HWi HWl 0) is0 W0)) as (? & ->). cbn [bind].
  destruct (hexed_reads _ _ _ (proj1 (p1_input_codec p HWi HWl 1) is1 W1)) as (? & ->). cbn [bind].
  pose proof V0 as V0'. apply init_state in V0' as (m0 & ES0 & _ & L0 & C0 & S0).
  pose proof V1 as V1'. apply init_state in V1' as (m1 & ES1 & _ & L1 & C1 & S1). 
  pose proof (p1_codec p lim HO HWi HWl key ctx Hc ap Hap [] (Forall_nil _)) as CO.
  assert (I0 : p1_level_inv p ap st0 sh0) by (rewrite ES0; repeat split; assumption).
  assert (I1 : p1_level_inv p ap st1 sh1) by (rewrite ES1; repeat split; assumption).
  assert (F2 : Forall2 (p1_level_inv p ap) [st0; st1] [sh0; sh1]) by exact (Forall2_cons _ _ I0 (Forall2_cons _ _ I1 (Forall2_nil _))).
  pose proof (co_next _ _ _ _ _ _ CO [st0; st1] [sh0; sh1] msg st0 st0' t0 F2 M (or_introl eq_refl) N0) as I0'.
  pose proof (co_next _ _ _ _ _ _ CO [st0; st1] [sh0; sh1] msg st1 st1' t1 F2 M (or_intror (or_introl eq_refl)) N1) as I1'.
  destruct (hexed_reads _ _ _ (co_share _ _ _ _ _ _ CO st0 sh0 I0)) as (h0 & E0).
  destruct (hexed_reads _ _ _ (co_share _ _ _ _ _ _ CO st1 sh1 I1)) as (h1 & E1).
  destruct (hexed_reads _ _ _ (co_share _ _ _ _ _ _ CO st0' t0 I0')) as (h2 & E2).
  destruct (hexed_reads _ _ _ (co_share _ _ _ _ _ _ CO st1' t1 I1')) as (h3 & E3).
  destruct (hexed_reads _ _ _ (co_message _ _ _ _ _ _ CO [st0; st1] [sh0; sh1] msg st0 F2 M (or_introl eq_refl))) as (h4 & E4).
  cbn [p1_vdaf vd_encode_verifier_share vd_encode_verifier_message] in *.
  change (hexed (encode_idpf_field_vec p) sh0 = Ok h0) in E0. change (hexed (encode_idpf_field_vec p) sh1 = Ok h1) in E1.
  change (hexed (encode_idpf_field_vec p) t0 = Ok h2) in E2. change (hexed (encode_idpf_field_vec p) t1 = Ok h3) in E3.
  change (hexed (p1_encode_verifier_message p) msg = Ok h4) in E4.
  rewrite E0. cbn [bind]. rewrite E1. cbn [bind]. rewrite E2. cbn [bind]. rewrite E3. cbn [bind]. rewrite E4. cbn [bind].
  eauto.
Qed.
End P1.
