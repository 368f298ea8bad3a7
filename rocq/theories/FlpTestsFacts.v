(** Facts about the FLP test harness. *)
From Coq Require Import Znumtheory.
From Verif Require Import FlpTests FlpTestsSpec FieldTestsFacts BaseFacts CommonFacts FieldFacts FieldProofs Roots Spec CircuitSpec CircuitFacts GadgetFacts FlpSpec FlpFacts FlpProofs
  FlpPropProofs MeasSpec MeasFacts NttFacts LagrangeFacts PolyAlg PolyFacts PolyProofs VecFacts PostFacts.
Open Scope nat_scope.

Lemma Ok_inj {A} (a b : A) : Ok a = Ok b -> a = b.
Proof. congruence. Qed.

Section FT.
Context {P : NttFieldClass} (HP : NttOk P).
Notation F := (F P).
Let Hp : prime (MODULUS P) := ntt_prime P HP.
Add Ring FringFlT : (@F_ring P).

Lemma points_ok_spec (v : Valid P) q : points_ok v q = true <-> test_points_ok v q.
Proof.
  unfold points_ok, test_points_ok. rewrite forallb_forall. split.
  - intros H i Hi E. specialize (H i ltac:(apply in_seq; lia)). apply Bool.negb_true_iff in H.
    rewrite E, feqb_refl in H. discriminate.
  - intros H i Hi. apply in_seq in Hi. apply Bool.negb_true_iff. apply Bool.not_true_iff_false. intros E. apply feqb_eq in E.
    exact (H i ltac:(lia) E).
Qed.
Lemma all_zero_spec (out : list F) : all_zero out = true <-> allzero out.
Proof.
  unfold all_zero, allzero. rewrite forallb_forall, Forall_forall. split; intros H x Hx.
  - apply feqb_eq. now apply H.
  - apply feqb_eq. now apply H.
Qed.
Lemma zero_cmp (out : list F) n : length out = n -> vec_eqb out (repeat f0 n) = all_zero out.
Proof.
  intros <-. induction out as [|x out IH]; [reflexivity|]. cbn [length repeat vec_eqb all_zero forallb].
  rewrite IH. reflexivity.
Qed.
Lemma reduced_zero (v : Valid P) (out q : list F) : allzero out -> reduced v out q = f0.
Proof. exact (allzero_red v out q). Qed.

(** The honest proof of any measurement: exactly the reduced output decides. *)
Lemma honest_decision (v : Valid P) (HV : ValidOk v) meas joint_rand prove_rand query_rand meas_rands proof_rands :
  length meas = vMEAS_LEN v -> length prove_rand = prove_rand_len v -> length joint_rand = vJOINT_RAND_LEN v ->
  length query_rand = query_rand_len v -> length meas_rands = length proof_rands ->
  Forall (fun r => length r = vMEAS_LEN v) meas_rands -> Forall (fun r => length r = proof_len v) proof_rands ->
  (Z.of_nat (S (length meas_rands)) < MODULUS P)%Z ->
  run_flp (FlpBBCGGI19 v) meas joint_rand prove_rand query_rand (S (length meas_rands)) meas_rands proof_rands
  = if points_ok v query_rand then Ok (feqb (reduced v (output v meas joint_rand) query_rand) f0)
    else Raise (ValueError "test point is a root of unity").
Proof.
  intros H1 H2 H3 H4 Hr Hfm Hfp Hn. unfold run_flp. cbn [flp_prove flp_query flp_decide FlpBBCGGI19].
  destruct (complete_single HP v HV meas prove_rand joint_rand H1 H2 H3) as (out & log & proof & Eo & Ho & Ep & Hpl & Hx & Hg & Ht).
  rewrite Ep. cbn [bind].
  rewrite <- H1 in Hfm. rewrite <- Hpl in Hfp.
  pose proof (share_ok meas meas_rands Hfm) as Esm. pose proof (share_ok proof proof_rands Hfp) as Esp.
  destruct (share_vecs _ _ _ Hfm Esm) as [Vm Sm]. destruct (share_vecs _ _ _ Hfp Esp) as [Vp Sp].
  rewrite Esm, Esp. cbn [bind]. set (ms := meas_rands ++ _) in *. set (ps := proof_rands ++ _) in *.
  rewrite H1 in *. rewrite Hpl in *. rewrite <- Hr in Vp.
  destruct (points_ok v query_rand) eqn:EP.
  - apply points_ok_spec in EP.
    destruct (query_linear_mapM HP v HV (S (length meas_rands)) ms ps query_rand joint_rand ltac:(lia) Hn Vm Vp H4 H3 EP)
      as (vs & [Hvl Hvf] & -> & Eq). cbn [bind].
    destruct vs as [|v0 vs]; [discriminate|].
    pose proof Hvf as Hvf'. inversion_clear Hvf' as [|? ? Hv0 _].
    unfold get. cbn [nth_error bind]. rewrite Hv0.
    rewrite fold_vec_add_0 by easy. cbn [bind].
    rewrite Sm, Sp in Eq.
    destruct (query_ok HP v HV meas proof query_rand joint_rand 1 H1 Hpl H4 H3 ltac:(lia) (one_lt_modulus HP))
      as (out2 & log2 & _ & Ht2 & _ & Eq2).
    rewrite Ht in Ht2. injection Ht2 as <- <-. rewrite Eq2 in Eq.
    rewrite (proj2 (bad_points_iff v query_rand) EP) in Eq. apply Ok_inj in Eq. rewrite <- Eq.
    rewrite (decide_ok v HV) by easy. rewrite good_gcheck by easy. rewrite Bool.andb_true_r.
    unfold output. rewrite Eo. reflexivity.
  - assert (EP' : ~ test_points_ok v query_rand) by (intros E; apply points_ok_spec in E; congruence).
    destruct ms as [|m0 ms]; [now destruct Vm|]. destruct ps as [|p0 ps]; [now destruct Vp|].
    cbn [combine mapM]. destruct Vm as [_ Vm], Vp as [_ Vp]. inversion_clear Vm. inversion_clear Vp.
    destruct (query_guard HP v HV m0 p0 query_rand joint_rand (S (length meas_rands))) as [_ Hb]; try easy; try lia.
    now rewrite Hb.
Qed.

Lemma truncate_len (v : Valid P) meas : truncate_linear v -> length meas = vMEAS_LEN v ->
  exists out, valid_truncate v meas = Ok out /\ length out = vOUTPUT_LEN v.
Proof.
  intros HT Hm. destruct (HT 1 (fun _ => meas) meas) as (outs & out & _ & E & Hs).
  - repeat split; auto. intros j. cbn [fsum]. ring.
  - exists out. split; [exact E|]. apply Hs.
Qed.

Lemma flp_case (v : Valid P) (HV : ValidOk v) meas expected rand : truncate_linear v -> (2 < MODULUS P)%Z ->
  length meas = vMEAS_LEN v -> draw_ok rand -> run_flp_case v meas expected rand = case_outcome v meas expected rand.
Proof.
  intros HT H2 Hm HD. unfold run_flp_case, case_outcome. cbv zeta. cbn [MEAS_LEN OUTPUT_LEN JOINT_RAND_LEN PROVE_RAND_LEN QUERY_RAND_LEN PROOF_LEN flp_truncate FlpBBCGGI19].
  rewrite Hm, Nat.eqb_refl. cbn [assert_true check bind].
  destruct (truncate_len v meas HT Hm) as (o & -> & Ho). cbn [bind]. rewrite Ho, Nat.eqb_refl. cbn [assert_true check bind].
  change (field_init 0) with (Ok (fof 0 : F)). 
  match goal with |- bind (@Ok ?A ?x) _ = _ => change x with (f0 : F) end. cbn [bind].
  destruct (plain_run v HV meas (rand 0 (vJOINT_RAND_LEN v)) 1 Hm (HD _ _) ltac:(lia) (one_lt_modulus HP)) as (out & log & Eo & El & _).
  rewrite Eo. cbn [bind]. rewrite (zero_cmp out _ El).
  unfold output at 1. rewrite Eo.
  destruct (Bool.eqb (all_zero out) expected); cbn [negb assert_true check bind]; [|reflexivity].
  pose proof (honest_decision v HV meas (rand 1 (vJOINT_RAND_LEN v)) (rand 2 (prove_rand_len v)) (rand 3 (query_rand_len v))
    [rand 4 (vMEAS_LEN v)] [rand 5 (proof_len v)] Hm (HD _ _) (HD _ _) (HD _ _) eq_refl
    ltac:(constructor; [apply HD|constructor]) ltac:(constructor; [apply HD|constructor]) H2) as HR.
  cbn [length] in HR. rewrite HR.
  destruct (points_ok v (rand 3 (query_rand_len v))); cbn [negb bind]; [|reflexivity].
  unfold assert_true, check. now destruct (Bool.eqb _ expected).
Qed.

(** A wire polynomial given by its values. *)
Lemma wires_ok (polys : draw P) L n (x : F) : L <= gen_log P -> draw_ok polys ->
  exists cs, map (fun j => polys j (2 ^ L)) (range 0 n) = map (evals L) cs /\ length cs = n /\
    (forall c, In c cs -> length c = 2 ^ L) /\
    mapM (fun p => lag_poly_eval p x) (map (evals L) cs) = Ok (map (fun w => peval w x) cs).
Proof.
  intros HL HD. exists (map (fun j => inv_coeffs L (polys j (2 ^ L))) (range 0 n)).
  assert (LC : forall j, length (inv_coeffs L (polys j (2 ^ L))) = 2 ^ L).
  { intros j. apply inv_coeffs_length. }
  repeat apply conj.
  - rewrite map_map. apply map_ext. intros j. symmetry. apply (evals_inv_coeffs HP); [exact HL|apply HD].
  - now rewrite map_length, length_range, Nat.sub_0_r.
  - intros c Hc. apply in_map_iff in Hc as (j & <- & _). apply LC.
  - generalize (range 0 n). intros l. induction l as [|j l IH]; [reflexivity|]. cbn [map mapM].
    rewrite (lag_poly_eval_spec HP L) by (auto; rewrite LC; lia). cbn [bind]. rewrite IH. reflexivity.
Qed.

Lemma gadget_test g L (x : F) (polys : draw P) : 1 <= L -> gwf P L g -> glog g L <= gen_log P -> L <= gen_log P -> draw_ok polys ->
  run_gadget_test g (2 ^ L) x polys = Ok tt.
Proof.
  intros H1 Hg HM HL HD. unfold run_gadget_test. cbv zeta.
  destruct (wires_ok polys L (ARITY g) x HL HD) as (cs & E & Hl & Hc & Em). rewrite E, Em. cbn [bind].
  rewrite (gadget_eval_poly_spec HP L g cs) by auto. cbn [bind].
  rewrite (gadget_eval_gval L) by (try easy; now rewrite map_length). cbn [bind].
  rewrite (lag_poly_eval_spec HP (glog g L)); [|easy|].
  - cbn [bind]. rewrite (gval_peval L) by easy. now rewrite feqb_refl.
  - eapply Nat.le_trans; [apply (gcomp_length L g cs Hg Hl Hc)|]. apply glog_bound.
Qed.

(** A PolyEval gadget made for longer wires. *)
Lemma poly_eval_test p L M (x : F) (polys : draw P) : Forall (fun c => - MODULUS P < c < MODULUS P)%Z p -> ~ allzero (map fof p : list F) ->
  L <= M -> M <= gen_log P -> (length p - 1) * (2 ^ L - 1) + 1 <= 2 ^ M -> draw_ok polys ->
  run_gadget_test (PolyEval p (2 ^ M)) (2 ^ L) x polys = Ok tt.
Proof.
  intros Hr Hz HLM HM Hd HD. unfold run_gadget_test. cbv zeta. cbn [ARITY].
  destruct (wires_ok polys L 1 x ltac:(lia) HD) as (cs & E & Hl & Hc & Em). rewrite E, Em. cbn [bind].
  destruct cs as [|a []]; try discriminate. assert (Ha : length a = 2 ^ L) by (apply Hc; now left).
  assert (HLL : L <= gen_log P) by lia.
  assert (E1 : gadget_eval_poly (PolyEval p (2 ^ M)) (map (evals L) [a]) = Ok (evals M (pcomp (map fof p) a))).
  { cbn [gadget_eval_poly]. rewrite (check_eval_poly_ok _ _ (2 ^ L));
      [|reflexivity | intros q Hq; apply in_map_iff in Hq as (c & <- & _); apply evals_length].
    cbn [bind map get nth_error]. rewrite evals_length, assert_power_of_2_nat. cbn [bind].
    rewrite (inv_ntt_ok HP) by easy. cbn [bind].
    rewrite firstn_all2 by (rewrite evals_length; lia).
    rewrite (inv_coeffs_evals HP) by easy.
    rewrite (ntt_evals HP); [|easy|rewrite Ha; apply Nat.pow_le_mono_r; lia].
    cbn [bind]. rewrite mapM_field_init by easy. cbn [bind].
    rewrite (mapM_map _ (peval (map fof p))); [|intros; apply poly_eval_spec; now right].
    f_equal. unfold evals. rewrite map_map. apply map_ext. intros i. cbn [nth]. now rewrite peval_pcomp. }
  rewrite E1. cbn [bind map gadget_eval]. unfold check_gadget_eval. cbn [length ARITY Nat.eqb check bind].
  rewrite mapM_field_init by easy. cbn [bind get nth_error].
  rewrite poly_eval_spec by now right. cbn [bind].
  rewrite (lag_poly_eval_spec HP M); [|easy|].
  - cbn [bind]. rewrite peval_pcomp. now rewrite feqb_refl.
  - rewrite pcomp_length; [rewrite map_length, Ha; exact Hd| |].
    + rewrite Ha. apply pow2_pos.
    + rewrite map_length. destruct p; [exfalso; apply Hz; constructor|cbn; lia].
Qed.

(** The harness. *)
Lemma flp_test (v : Valid P) (HV : ValidOk v) gds draws cases : truncate_linear v -> (2 < MODULUS P)%Z ->
  (forall i, draw_ok (snd (gds i))) -> (forall k, draw_ok (draws k)) -> Forall (fun c => length (fst c) = vMEAS_LEN v) cases ->
  run_flp_test v gds draws cases =
  foldM (fun _ '(k, (meas, expected)) => case_outcome v meas expected (draws k)) (enumerate cases) tt.
Proof.
  intros HT H2 HG HD HC. unfold run_flp_test.
  assert (E : foldM (fun _ '(i, (g, g_calls)) =>
    run_gadget_test g (wire_poly_len g_calls) (fst (gds i)) (snd (gds i))) (enumerate (combine (GADGETS v) (GADGET_CALLS v))) tt = Ok tt).
  { apply foldM_unit. intros (i & (g & n)) Hin. unfold enumerate in Hin. apply in_combine_r in Hin.
    apply (In_nth _ _ (Mul, 0)) in Hin as (j & Hj & Ej). rewrite nth_gc in Ej by exact HV.
    rewrite gc_length in Hj by exact HV. injection Ej as <- <-.
    rewrite wire_poly_len_pow. apply gadget_test.
    - pose proof (g_room v j). pose proof (g_calls v HV j Hj). destruct (wlog (nth j (GADGET_CALLS v) 0)); [cbn in *; lia|lia].
    - now apply g_wf.
    - now apply (g_M HP).
    - now apply (g_L HP).
    - apply HG. }
  rewrite E. cbn [bind]. clear E.
  unfold enumerate. revert HC. generalize (seq 0 (length cases)).
  induction cases as [|(m, b) cases IH]; intros [|k l] HC; try reflexivity. cbn [combine foldM].
  inversion_clear HC. rewrite (flp_case v HV) by auto.
  destruct (case_outcome v m b (draws k)) as [[]|e]; cbn [bind]; [|reflexivity]. now apply IH.
Qed.

Lemma accepts_output (v : Valid P) meas jr : accepts v meas -> length jr = vJOINT_RAND_LEN v -> allzero (output v meas jr).
Proof. intros H Hj. destruct (H jr Hj) as (out & E & Hz). unfold output. now rewrite E. Qed.
Lemma accepts_with_output (v : Valid P) (HV : ValidOk v) meas jr : length meas = vMEAS_LEN v -> length jr = vJOINT_RAND_LEN v ->
  all_zero (output v meas jr) = true <-> accepts_with v meas jr.
Proof.
  intros Hm Hj. rewrite all_zero_spec. unfold accepts_with, output.
  destruct (plain_run v HV meas jr 1 Hm Hj ltac:(lia) (one_lt_modulus HP)) as (out & log & -> & _). split.
  - intros H. split; [easy|]. now exists out.
  - intros (_ & o & E & H). apply Ok_inj in E. now subst.
Qed.

Lemma case_iff (v : Valid P) c rand : draw_ok rand -> (snd c = true -> accepts v (fst c)) ->
  case_outcome v (fst c) (snd c) rand = Ok tt <-> case_passes v c rand.
Proof.
  intros HD HA. unfold case_outcome, case_passes, points, caught. cbv zeta. destruct c as (m, b). cbn [fst snd] in *. destruct b.
  - pose proof (accepts_output v m _ (HA eq_refl) (HD 0 _)) as A0. pose proof (accepts_output v m _ (HA eq_refl) (HD 1 _)) as A1.
    rewrite (proj2 (all_zero_spec _) A0), (reduced_zero v _ _ A1), feqb_refl. cbn [Bool.eqb negb].
    destruct (points_ok v _); cbn [negb]; split; try easy.
  - destruct (all_zero _); cbn [Bool.eqb negb].
    + split; [discriminate|]. intros [_ H]. destruct (H eq_refl). discriminate.
    + destruct (points_ok v _); cbn [negb]; [|split; [discriminate|intros [? _]; discriminate]].
      destruct (feqb _ f0) eqn:E; cbn [Bool.eqb negb].
      * apply feqb_eq in E. split; [discriminate|]. intros [_ H]. destruct (H eq_refl). contradiction.
      * split; [|easy]. intros _. split; [easy|]. intros _. split; [easy|]. now apply feqb_neq.
Qed.
Lemma case_raises (v : Valid P) c rand : draw_ok rand -> (snd c = true -> accepts v (fst c)) ->
  case_outcome v (fst c) (snd c) rand = Ok tt \/
  (case_outcome v (fst c) (snd c) rand = Raise AssertionError /\ snd c = false /\ ~ caught v (fst c) rand) \/
  (case_outcome v (fst c) (snd c) rand = Raise (ValueError "test point is a root of unity") /\ ~ points v rand).
Proof.
  intros HD HA. destruct (case_outcome v (fst c) (snd c) rand) as [[]|e] eqn:E; [now left|right].
  assert (N : ~ case_passes v c rand) by (intros C; apply case_iff in C; auto; congruence).
  revert E. unfold case_outcome. cbv zeta. destruct c as (m, b). cbn [fst snd] in *. unfold points, caught. destruct b.
  - pose proof (accepts_output v m _ (HA eq_refl) (HD 0 _)) as A0. pose proof (accepts_output v m _ (HA eq_refl) (HD 1 _)) as A1.
    rewrite (proj2 (all_zero_spec _) A0), (reduced_zero v _ _ A1), feqb_refl. cbn [Bool.eqb negb].
    destruct (points_ok v _); cbn [negb]; intros [= <-]. right. now split.
  - destruct (all_zero _); cbn [Bool.eqb negb].
    + intros [= <-]. left. split; [easy|]. split; [easy|]. intros [C _]. discriminate.
    + destruct (points_ok v _); cbn [negb]; [|intros [= <-]; right; now split].
      destruct (feqb _ f0) eqn:E; cbn [Bool.eqb negb]; intros [= <-]. left. split; [easy|]. split; [easy|].
      intros [_ C]. apply C. now apply feqb_eq.
Qed.

Lemma suite_iff (v : Valid P) (HV : ValidOk v) gds draws cases : truncate_linear v -> (2 < MODULUS P)%Z ->
  (forall i, draw_ok (snd (gds i))) -> (forall k, draw_ok (draws k)) -> Forall (fun c => length (fst c) = vMEAS_LEN v) cases ->
  Forall (fun c => snd c = true -> accepts v (fst c)) cases ->
  run_flp_test v gds draws cases = Ok tt <-> (forall k c, nth_error cases k = Some c -> case_passes v c (draws k)).
Proof.
  intros HT H2 HG HD HC HA. rewrite (flp_test v HV) by easy. rewrite foldM_unit. rewrite Forall_forall in HA. split.
  - intros H k c E. apply case_iff; [apply HD|apply HA; now apply nth_error_In with k|].
    specialize (H (k, c)). destruct c as (m, b). apply H. unfold enumerate.
    clear -E. change k with (0 + k) at 1. revert E. generalize 0 as o. revert k. induction cases as [|a l IH]; intros [|k] o E; try discriminate.
    + injection E as ->. left. now rewrite Nat.add_0_r.
    + right. rewrite Nat.add_succ_r. apply (IH k (S o)). exact E.
  - intros H (k, (m, b)) Hin. cbv iota.
    assert (E : nth_error cases k = Some (m, b)).
    { unfold enumerate in Hin. revert Hin. clear. replace (nth_error cases k) with (nth_error cases (k - 0)) by (f_equal; lia).
      intros Hin. assert (G : forall o, In (k, (m, b)) (combine (seq o (length cases)) cases) -> o <= k /\ nth_error cases (k - o) = Some (m, b)).
      { clear. induction cases as [|a l IH]; intros o; cbn; [easy|]. intros [E|E].
        - injection E as -> ->. split; [lia|]. now rewrite Nat.sub_diag.
        - destruct (IH _ E) as [A B]. split; [lia|]. now replace (k - o) with (S (k - S o)) by lia. }
      apply (G 0 Hin). }
    apply (case_iff v (m, b)); [apply HD|apply HA; now apply nth_error_In with k|]. now apply H.
Qed.
End FT.
