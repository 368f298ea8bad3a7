(** When the unit tests of the FLPs pass. *)
From Coq Require Import Znumtheory.
From Verif Require Import FlpTests FlpTestsSpec FlpTestsFacts FieldTestsFacts BaseFacts CommonFacts FieldFacts FieldProofs Roots Spec CircuitSpec CircuitFacts CircuitInstances CircuitProofs RangeInt GadgetFacts FlpSpec FlpFacts
  FlpProofs FlpPropProofs MeasSpec MeasFacts NttFacts TestCircuitFacts VecFacts.
Open Scope nat_scope.

Section Gen.
Context {P : NttFieldClass} (HP : NttOk P) (H2 : (2 < MODULUS P)%Z).
Notation F := (F P).

Lemma fold_cases (v : Valid P) draws cases o : (forall k, draw_ok (draws k)) -> Forall (fun c => snd c = true -> accepts v (fst c)) cases ->
  let t := foldM (fun _ '(k, (meas, expected)) => case_outcome v meas expected (draws k)) (combine (seq o (length cases)) cases) tt in
  t = Ok tt \/ (t = Raise AssertionError /\ exists k m, nth_error cases k = Some (m, false) /\ ~ caught v m (draws (o + k))) \/
   (t = Raise (ValueError "test point is a root of unity") /\ exists k, k < length cases /\ ~ points v (draws (o + k))).
Proof.
  intros HD HA t. subst t. revert o. induction HA as [|c cases Hc _ IH]; intros o; [now left|].
  cbn [length seq combine foldM]. destruct c as (m, b).
  pose proof (case_raises v (m, b) (draws o) (HD o) Hc) as R. cbn [fst snd] in R.
  destruct R as [-> | [(-> & -> & N) | (-> & N)]]; cbn [bind].
  - destruct (IH (S o)) as [E | [(E & k & m' & E1 & N) | (E & k & E1 & N)]].
    + now left.
    + right; left. split; [exact E|]. exists (S k), m'. split; [exact E1|]. now rewrite Nat.add_succ_r.
    + right; right. split; [exact E|]. exists (S k). split; [lia|]. now rewrite Nat.add_succ_r.
  - right; left. split; [easy|]. exists 0, m. split; [easy|]. now rewrite Nat.add_0_r.
  - right; right. split; [easy|]. exists 0. split; [lia|]. now rewrite Nat.add_0_r.
Qed.

Lemma suite_gen (v : Valid P) d good bad : ValidOk v -> truncate_linear v -> draws_ok d ->
  Forall (fun m => length m = vMEAS_LEN v) (good ++ bad) -> Forall (accepts v) good ->
  suite v (run_flp_test v (fst d) (snd d) (map (fun m => (m, true)) good ++ map (fun m => (m, false)) bad)) (length good) bad (snd d).
Proof.
  intros HV HT (HG & HD) HL HA. set (cases := _ ++ map _ bad).
  assert (L : length cases = length good + length bad) by (unfold cases; now rewrite app_length, !map_length).
  assert (C1 : Forall (fun c : list F * bool => length (fst c) = vMEAS_LEN v) cases).
  { apply Forall_app in HL as (A & B). apply Forall_app. split; now apply Forall_map. }
  assert (C2 : Forall (fun c : list F * bool => snd c = true -> accepts v (fst c)) cases).
  { apply Forall_app. split; apply Forall_map.
    - eapply Forall_impl; [|exact HA]. now intros.
    - apply Forall_forall. intros x _. discriminate. }
  assert (N1 : forall k, k < length good -> exists m, nth_error cases k = Some (m, true)).
  { intros k Hk. unfold cases. rewrite nth_error_app1 by now rewrite map_length.
    destruct (nth_error good k) as [m|] eqn:E; [|apply nth_error_None in E; lia]. exists m. now rewrite nth_error_map, E. }
  assert (N2 : forall j, nth_error cases (length good + j) = option_map (fun m => (m, false)) (nth_error bad j)).
  { intros j. unfold cases. rewrite nth_error_app2 by (rewrite map_length; lia). rewrite map_length, nth_error_map. do 2 f_equal. lia. }
  split.
  - rewrite (suite_iff HP v HV) by easy. split.
    + intros H. split.
      * intros k Hk. destruct (nth_error cases k) as [c|] eqn:E; [|apply nth_error_None in E; lia]. now apply (H k c).
      * intros j m E. specialize (N2 j). rewrite E in N2. destruct (H _ _ N2) as [_ C]. now apply C.
    + intros [Hp Hc] k c E. split.
      * apply Hp. rewrite <- L. apply nth_error_Some. congruence.
      * intros Hf. destruct (Nat.lt_ge_cases k (length good)) as [Hk|Hk].
        -- destruct (N1 k Hk) as (m & E'). rewrite E in E'. injection E' as ->. discriminate.
        -- specialize (N2 (k - length good)). replace (length good + (k - length good)) with k in N2 by lia. rewrite E in N2.
           destruct (nth_error bad (k - length good)) as [m|] eqn:E2; [|discriminate]. injection N2 as ->.
           specialize (Hc _ _ E2). now replace (length good + (k - length good)) with k in Hc by lia.
  - rewrite (flp_test HP v HV) by easy. unfold enumerate.
    destruct (fold_cases v (snd d) cases 0 HD C2) as [E | [(E & k & m & E1 & N) | (E & k & E1 & N)]].
    + now left.
    + right; left. split; [exact E|]. intros C. apply N. cbn [Nat.add] in *.
      destruct (Nat.lt_ge_cases k (length good)) as [Hk|Hk].
      * destruct (N1 k Hk) as (m' & E'). rewrite E1 in E'. discriminate.
      * specialize (N2 (k - length good)). replace (length good + (k - length good)) with k in N2 by lia. rewrite E1 in N2.
        destruct (nth_error bad (k - length good)) as [m'|] eqn:E2; [|discriminate]. injection N2 as <-.
        specialize (C _ _ E2). now replace (length good + (k - length good)) with k in C by lia.
    + right; right. split; [exact E|]. intros C. apply N, C. lia.
Qed.

(** A step that follows and succeeds changes nothing. *)
Lemma suite_then (v : Valid P) (t u : res unit) nt bad draws : suite v t nt bad draws -> u = Ok tt ->
  suite v (let* _ := t in u) nt bad draws.
Proof.
  intros H ->. destruct t as [[]|e]; exact H.
Qed.

(** The vectors accepted by MultihotCountVec for all joint randomness. *)
Lemma multihot_accepts len mw chunk (meas : list F) : 1 <= len -> 1 <= mw -> (Z.of_nat mw < MODULUS P)%Z -> 1 <= chunk ->
  length meas = len + Multihot_bits mw -> multihot_valid len mw meas -> accepts (MultihotCountVec P len mw chunk) meas.
Proof.
  intros Hl Hmw Hmw2 Hc Hm [Hb Hw] jr Hj. cbn [vJOINT_RAND_LEN MultihotCountVec] in Hj.
  rewrite (MultihotCountVec_eval HP) by easy. eexists; split; [reflexivity|]. apply allzero2. split.
  - now apply (range_spec_bits HP).
  - rewrite fsuml_val, rc_value_int, Hw. apply F_eq. unfold fsub. cbn. now rewrite Z.sub_diag.
Qed.
End Gen.

Notation N64 := (proj1 ntt_fields_ok).
Notation N128 := (proj2 (proj2 ntt_fields_ok)).
Lemma M64 : (2 < MODULUS Field64)%Z. Proof. reflexivity. Qed.
Lemma M128 : (2 < MODULUS Field128)%Z. Proof. reflexivity. Qed.

(** [[field(x) for x in l]] for small integers. *)
Lemma inits_ok (P : NttFieldClass) (l : list Z) : Forall (fun c => - MODULUS P < c < MODULUS P)%Z l -> inits P l = Ok (map fof l).
Proof. exact (mapM_field_init l). Qed.
Ltac small_ints := repeat constructor.

Lemma count_suite d : draws_ok d ->
  suite (Count Field64) (test_count d) 2 [map fof [1337]%Z] (snd d).
Proof.
  intros HD. unfold test_count. cbv zeta.
  destruct (Count_encode N64 0%Z ltac:(now left)) as (-> & A0 & _). destruct (Count_encode N64 1%Z ltac:(now right)) as (-> & A1 & _). cbn [bind].
  rewrite inits_ok by small_ints. cbn [bind].
  destruct (std_ok N64 (Count Field64) ltac:(apply std_Count; vm_compute; discriminate)) as [HV HT].
  apply (suite_gen N64 M64 (Count Field64) d [[fof 0%Z]; [fof 1%Z]] [map fof [1337]%Z] HV HT HD).
  - repeat constructor.
  - repeat constructor; assumption.
Qed.

Lemma sum_suite d : draws_ok d ->
  suite (Sum Field64 10000) (test_sum d) 5 [map fof (repeat 2%Z 14)] (snd d).
Proof.
  intros HD. unfold test_sum. cbv zeta.
  change (Sum_init Field64 10000) with (Ok (Sum Field64 10000)). cbn [bind].
  assert (HM : (2 ^ Z.of_nat (bit_length 10000) < MODULUS Field64)%Z) by reflexivity.
  destruct (Sum_encode N64 10000 ltac:(lia) HM 0%Z ltac:(lia)) as (e0 & -> & L0 & A0 & _).
  destruct (Sum_encode N64 10000 ltac:(lia) HM 1337%Z ltac:(lia)) as (e1 & -> & L1 & A1 & _).
  destruct (Sum_encode N64 10000 ltac:(lia) HM 9999%Z ltac:(lia)) as (e2 & -> & L2 & A2 & _).
  destruct (Sum_encode N64 10000 ltac:(lia) HM 10000%Z ltac:(lia)) as (e3 & -> & L3 & A3 & _).
  cbn [bind]. rewrite (field_init_ok (P := Field64) 2) by (split; reflexivity). cbn [bind].
  destruct (std_ok N64 (Sum Field64 10000)) as [HV HT].
  { apply (std_Sum _ 10000); [reflexivity|reflexivity|vm_compute; discriminate]. }
  apply suite_then; [|now rewrite (Sum_encode_bad 10000 10001) by lia].
  apply (suite_gen N64 M64 (Sum Field64 10000) d [e0; e1; e2; e3; fzeros (vMEAS_LEN (Sum Field64 10000))] [map fof (repeat 2%Z 14)] HV HT HD).
  - repeat constructor; assumption.
  - repeat constructor; try assumption. apply (Sum_accepts N64 10000); [reflexivity|]. apply Forall_forall. intros x Hx. apply repeat_spec in Hx as ->. now left.
Qed.

Lemma histogram_suite r d : length r = 4 -> draws_ok d ->
  suite (Histogram Field128 4 2) (test_histogram r d) 4 [map fof [0; 0; 0; 0]%Z; map fof [1; 1; 1; 1]%Z; r] (snd d).
Proof.
  intros Hr HD. unfold test_histogram. cbv zeta.
  change (Histogram_init Field128 4 2) with (Ok (Histogram Field128 4 2)). cbn [bind].
  destruct (Histogram_encode N128 4 2 ltac:(lia) ltac:(lia) 0%Z ltac:(lia)) as (-> & A0 & _).
  destruct (Histogram_encode N128 4 2 ltac:(lia) ltac:(lia) 1%Z ltac:(lia)) as (-> & A1 & _).
  destruct (Histogram_encode N128 4 2 ltac:(lia) ltac:(lia) 2%Z ltac:(lia)) as (-> & A2 & _).
  destruct (Histogram_encode N128 4 2 ltac:(lia) ltac:(lia) 3%Z ltac:(lia)) as (-> & A3 & _).
  cbn [bind]. rewrite !inits_ok by small_ints. cbn [bind].
  destruct (std_ok N128 (Histogram Field128 4 2)) as [HV HT].
  { apply (std_Histogram _ 4 2); [reflexivity|vm_compute; discriminate]. }
  apply (suite_gen N128 M128 (Histogram Field128 4 2) d [onehot 4 (Z.to_nat 0); onehot 4 (Z.to_nat 1); onehot 4 (Z.to_nat 2); onehot 4 (Z.to_nat 3)]
    [map fof [0; 0; 0; 0]%Z; map fof [1; 1; 1; 1]%Z; r] HV HT HD).
  - repeat constructor; assumption.
  - repeat constructor; assumption.
Qed.

Lemma sumvec_suite d : draws_ok d ->
  suite (SumVec Field128 2 10 3) (test_sumvec d) 4 [map fof (repeat 2%Z 8)] (snd d).
Proof.
  intros HD. unfold test_sumvec. cbv zeta.
  change (SumVec_init Field128 2 10 3) with (Ok (SumVec Field128 2 10 3)). cbn [bind].
  assert (HM : (2 ^ Z.of_nat (bit_length 10) < MODULUS Field128)%Z) by reflexivity.
  destruct (SumVec_encode N128 2 10 3 ltac:(lia) ltac:(lia) ltac:(lia) HM [0; 10]%Z eq_refl) as (e0 & -> & L0 & A0 & _);
    [repeat constructor; lia|].
  destruct (SumVec_encode N128 2 10 3 ltac:(lia) ltac:(lia) ltac:(lia) HM [5; 5]%Z eq_refl) as (e1 & -> & L1 & A1 & _);
    [repeat constructor; lia|].
  cbn [bind]. rewrite !inits_ok by small_ints. cbn [bind].
  destruct (std_ok N128 (SumVec Field128 2 10 3)) as [HV HT].
  { apply (std_SumVec _ 2 10 3); [reflexivity|vm_compute; discriminate]. }
  apply (suite_gen N128 M128 (SumVec Field128 2 10 3) d [e0; e1; fzeros 8; map fof (repeat 1%Z 8)] [map fof (repeat 2%Z 8)] HV HT HD).
  - repeat constructor; assumption.
  - constructor; [assumption|]. constructor; [assumption|].
    constructor; [|constructor; [|constructor]]; apply (SumVec_accepts N128 2 10 3); try lia; try reflexivity.
    + apply Forall_forall. intros x Hx. apply repeat_spec in Hx as ->. now left.
    + apply Forall_forall. intros x Hx. apply in_map_iff in Hx as (y & <- & Hy). apply repeat_spec in Hy as ->. now right.
Qed.

Lemma multi_gadget_suite d : draws_ok d -> suite MultiGadget (test_multi_gadget d) 1 [] (snd d).
Proof.
  intros HD. unfold test_multi_gadget. change (valid_encode MultiGadget 0%Z) with (Ok [f0 : F Field64]). cbn [bind].
  apply (suite_gen N64 M64 MultiGadget d [[f0]] [] MultiGadget_ok MultiGadget_truncate HD); repeat constructor.
  now apply MultiGadget_accepts.
Qed.

Lemma higher_degree_suite d : draws_ok d ->
  suite HigherDegree (test_higher_degree d) 3 [map fof [3]%Z] (snd d).
Proof.
  intros HD. unfold test_higher_degree. cbn [valid_encode HigherDegree]. rewrite !field_init_ok by (split; reflexivity). cbn [bind].
  apply (suite_gen N64 M64 HigherDegree d [[fof 0%Z]; [fof 1%Z]; [fof 2%Z]] [map fof [3]%Z] HigherDegree_ok HigherDegree_truncate HD).
  - repeat constructor.
  - repeat constructor; apply HigherDegree_accepts; vm_compute; split; discriminate.
Qed.

Lemma map_repeat {A B} (f : A -> B) x n : map f (repeat x n) = repeat (f x) n.
Proof. induction n; cbn; congruence. Qed.

Lemma fof_neg1 : (fof (MODULUS Field128 - 1) : F Field128) = fof (-1).
Proof. apply F_eq. vm_compute. reflexivity. Qed.

Lemma too_many_ok len mw : too_many len mw = Ok (map (fun m => (m, false)) (map (map fof) (too_many_ints len mw))).
Proof.
  unfold too_many, too_many_ints. rewrite !map_map. apply mapM_map. intros i _.
  rewrite !field_init_ok by (split; reflexivity). cbn [bind]. do 2 f_equal. now rewrite !map_app, !map_repeat.
Qed.
Lemma not_bits_ok len mw : not_bits len mw = Ok (map fof (not_bits_ints len mw)).
Proof.
  unfold not_bits, not_bits_ints. rewrite inits_ok.
  - rewrite !map_app, !map_repeat, <- repeat_app. f_equal. cbn [map app]. f_equal. apply fof_neg1.
  - apply Forall_app. split; [repeat constructor|]. rewrite <- repeat_app. apply Forall_forall. intros x Hx. apply repeat_spec in Hx as ->. split; reflexivity.
Qed.

Lemma multihot_encs len mw chunk (ms : list (list bool)) : 1 <= len -> 1 <= mw -> (Z.of_nat mw < MODULUS Field128)%Z -> 1 <= chunk ->
  Forall (fun bs => length bs = len /\ (weight bs <= Z.of_nat mw)%Z) ms ->
  let v := MultihotCountVec Field128 len mw chunk in
  exists encs, mapM (fun m => let* c := valid_encode v m in Ok (c, true)) ms = Ok (map (fun m => (m, true)) encs) /\
    length encs = length ms /\ Forall (fun m => length m = vMEAS_LEN v) encs /\ Forall (accepts v) encs.
Proof.
  intros H0 H1 H2 H3 HF v. induction HF as [|bs ms (Hl & Hw) _ (encs & E & L & F1 & F2)]; [now exists []|].
  destruct (MultihotCountVec_encode N128 len mw chunk H0 H1 H2 H3 bs Hl Hw) as (e & Ee & Le & Ae & _).
  exists (e :: encs). cbn [mapM]. unfold v at 1. rewrite Ee. cbn [bind]. rewrite E. cbn [bind map length]. repeat split; auto.
Qed.

Lemma multihot_suite d : draws_ok d ->
  suite (MultihotCountVec Field128 4 2 2) (test_multihot d) 4 (map (map fof) (too_many_ints 4 2 ++ [not_bits_ints 4 2])) (snd d).
Proof.
  intros HD. unfold test_multihot. cbv zeta.
  change (MultihotCountVec_init Field128 4 2 2) with (Ok (MultihotCountVec Field128 4 2 2)). cbn [bind].
  match goal with |- context [mapM _ ?ms] =>
    destruct (multihot_encs 4 2 2 ms ltac:(lia) ltac:(lia) ltac:(reflexivity) ltac:(lia)) as (encs & E & L & F1 & F2) end.
  { repeat constructor; vm_compute; discriminate. }
  cbv zeta in E. rewrite E. cbn [bind]. rewrite too_many_ok, not_bits_ok. cbn [bind]. clear E.
  destruct (std_ok N128 (MultihotCountVec Field128 4 2 2)) as [HV HT].
  { apply (std_MultihotCountVec _ 4 2 2); [reflexivity|vm_compute; discriminate]. }
  apply suite_then.
  - pose proof (suite_gen N128 M128 _ d encs (map (map fof) (too_many_ints 4 2 ++ [not_bits_ints 4 2])) HV HT HD) as S0.
    rewrite L in S0. rewrite !map_app in *. cbn [map] in *. apply S0; [|exact F2].
    apply Forall_app. split; [exact F1|]. repeat constructor.
  - destruct (MultihotCountVec_encode_bad N128 4 2 2 ltac:(lia) ltac:(lia) ltac:(lia) [true; true; true; false]) as (msg & ->); [|reflexivity].
    right. reflexivity.
Qed.

Lemma multihot_6_suite d : draws_ok d ->
  suite (MultihotCountVec Field128 8 6 3) (test_multihot_max_6 d) 7 (map (map fof) (too_many_ints 8 6 ++ [not_bits_ints 8 6])) (snd d).
Proof.
  intros HD. unfold test_multihot_max_6. cbv zeta.
  change (MultihotCountVec_init Field128 8 6 3) with (Ok (MultihotCountVec Field128 8 6 3)). cbn [bind].
  match goal with |- context [(?t1 :: ?t2 :: repeat false 8 :: ?r)] => let ms := constr:(t1 :: t2 :: repeat false 8 :: r) in
    destruct (multihot_encs 8 6 3 ms ltac:(lia) ltac:(lia) ltac:(reflexivity) ltac:(lia)) as (encs & E & L & F1 & F2) end.
  { repeat constructor; vm_compute; discriminate. }
  cbv zeta in E. rewrite E. cbn [bind]. rewrite too_many_ok, not_bits_ok. clear E.
  cbn [mapM]. rewrite !inits_ok by small_ints. cbn [bind].
  destruct (std_ok N128 (MultihotCountVec Field128 8 6 3)) as [HV HT].
  { apply (std_MultihotCountVec _ 8 6 3); [reflexivity|vm_compute; discriminate]. }
  set (alt := [map fof [1; 1; 1; 0; 0; 0; 0; 0; 1; 1; 0]%Z; map fof [1; 1; 1; 0; 0; 0; 0; 0; 0; 0; 1]%Z] : list (list (F Field128))).
  pose proof (suite_gen N128 M128 _ d (encs ++ alt) (map (map fof) (too_many_ints 8 6 ++ [not_bits_ints 8 6])) HV HT HD) as S0.
  rewrite app_length, L in S0. rewrite !map_app, <- !app_assoc in S0. apply S0.
  - apply Forall_app. split; [exact F1|]. unfold alt. repeat constructor.
  - apply Forall_app. split; [exact F2|]. 
    assert (B : forall l : list Z, Forall (fun z => z = 0 \/ z = 1)%Z l -> Forall is_bit (map fof l : list (F Field128))).
    { intros l Hl. apply Forall_map. eapply Forall_impl; [|exact Hl]. intros z [-> | ->]; [now left|now right]. }
    repeat constructor; apply (multihot_accepts N128 8 6 3); try lia; try reflexivity; split.
    + apply B. repeat constructor; lia.
    + vm_compute. reflexivity.
    + apply B. repeat constructor; lia.
    + vm_compute. reflexivity.
Qed.

Lemma multihot_small_suite d : draws_ok d ->
  suite (MultihotCountVec Field128 1 1 1) (test_multihot_small d) 2 [map fof [0; 1337]%Z; map fof [1; 0]%Z] (snd d).
Proof.
  intros HD. unfold test_multihot_small. cbv zeta.
  change (MultihotCountVec_init Field128 1 1 1) with (Ok (MultihotCountVec Field128 1 1 1)). cbn [bind].
  destruct (MultihotCountVec_encode N128 1 1 1 ltac:(lia) ltac:(lia) ltac:(reflexivity) ltac:(lia) [false] eq_refl) as (e0 & -> & L0 & A0 & _); [vm_compute; discriminate|].
  destruct (MultihotCountVec_encode N128 1 1 1 ltac:(lia) ltac:(lia) ltac:(reflexivity) ltac:(lia) [true] eq_refl) as (e1 & -> & L1 & A1 & _); [vm_compute; discriminate|].
  cbn [bind]. rewrite !inits_ok by small_ints. cbn [bind].
  destruct (std_ok N128 (MultihotCountVec Field128 1 1 1)) as [HV HT].
  { apply (std_MultihotCountVec _ 1 1 1); [reflexivity|vm_compute; discriminate]. }
  apply (suite_gen N128 M128 (MultihotCountVec Field128 1 1 1) d [e0; e1] [map fof [0; 1337]%Z; map fof [1; 0]%Z] HV HT HD).
  - repeat constructor; assumption.
  - repeat constructor; assumption.
Qed.

(** ** The gadget tests *)
Lemma gen_log_128 : gen_log Field128 = 66.
Proof. reflexivity. Qed.
Lemma poly_eval_16 p M x polys : Forall (fun c => - MODULUS Field128 < c < MODULUS Field128)%Z p ->
  Exists (fun c => val (fof c : F Field128) <> 0%Z) p ->
  4 <= M -> M <= 66 -> (length p - 1) * 15 + 1 <= 2 ^ M -> draw_ok polys ->
  run_gadget_test (P := Field128) (PolyEval p (2 ^ M)) 16 x polys = Ok tt.
Proof.
  intros Hp Hz H1 H2 H3 HD. apply (poly_eval_test N128 p 4 M x polys); auto.
  - intros C. apply Exists_exists in Hz as (c & Hc & N). apply N. unfold allzero in C. rewrite Forall_forall in C.
    rewrite (C (fof c)) by now apply in_map. reflexivity.
Qed.
Lemma test_gadgets_pass d : (forall i, draw_ok (snd (d i))) -> test_gadgets d = Ok tt.
Proof.
  intros HD. unfold test_gadgets, test_poly_eval. change (next_power_of_2 10) with (Ok 16%Z). cbn [bind].
  change (Z.to_nat 16) with 16.
  assert (E1 : PolyEval_init [0; -1; 1]%Z 16 = Ok (PolyEval [0; -1; 1]%Z (2 ^ 6))) by (vm_compute; reflexivity).
  assert (E2 : PolyEval_init [0; -23; 1; 3]%Z 16 = Ok (PolyEval [0; -23; 1; 3]%Z (2 ^ 7))) by (vm_compute; reflexivity).
  rewrite E1, E2. cbn [bind].
  rewrite (poly_eval_16 [0; -1; 1]%Z 6 _ _).
  2: { repeat constructor. } 2: { right. left. vm_compute. discriminate. } 2,3: lia. 2: { cbn; lia. } 2: apply HD.
  cbn [bind].
  apply (poly_eval_16 [0; -23; 1; 3]%Z 7 _ _).
  - repeat constructor.
  - right. left. vm_compute. discriminate.
  - lia.
  - lia.
  - cbn; lia.
  - apply HD.
Qed.

(** ** What it takes to be caught *)
Lemma fmul_distr {P : FieldClass} (a b c : F P) : fadd (fmul a c) (fmul b c) = fmul (fadd a b) c.
Proof. pose proof (@F_ring P) as R. symmetry. apply (Rdistr_l R). Qed.
Lemma single_caught (P : NttFieldClass) (HP : NttOk P) (v : Valid P) (meas : list (F P)) (x : F P) rand :
  EVAL_OUTPUT_LEN v = 1 -> vJOINT_RAND_LEN v = 0 -> draw_ok rand -> valid_eval_plain v meas [] 1 = Ok [x] -> x <> f0 -> caught v meas rand.
Proof.
  intros H1 H2 HD E N. unfold caught, output. rewrite H2.
  pose proof (HD 0 0) as L0. pose proof (HD 1 0) as L1. destruct (rand 0 0); [|discriminate]. destruct (rand 1 0); [|discriminate].
  rewrite E. split.
  - cbn [all_zero forallb]. now rewrite (proj2 (feqb_neq _ _) N).
  - unfold reduced. rewrite H1. exact N.
Qed.
Lemma count_caught rand : draw_ok rand -> caught (Count Field64) (map fof [1337]%Z) rand.
Proof.
  intros HD. refine (single_caught Field64 N64 (Count Field64) _ _ rand eq_refl eq_refl HD (Count_eval (map fof [1337]%Z) 1 eq_refl) _).
  intros C. apply (f_equal val) in C. vm_compute in C. discriminate.
Qed.
Lemma higher_caught rand : draw_ok rand -> caught HigherDegree (map fof [3]%Z) rand.
Proof.
  intros HD. refine (single_caught Field64 N64 HigherDegree _ _ rand eq_refl eq_refl HD (HigherDegree_eval (map fof [3]%Z) 1 eq_refl) _).
  intros C. apply (f_equal val) in C. vm_compute in C. discriminate.
Qed.

Lemma sum_caught rand : draw_ok rand ->
  caught (Sum Field64 10000) (map fof (repeat 2%Z 14)) rand <->
  fsum 14 (fun i => nth i (rand 3 (query_rand_len (Sum Field64 10000))) f0) <> f0.
Proof.
  intros HD. unfold caught, output. change (vJOINT_RAND_LEN (Sum Field64 10000)) with 0.
  pose proof (HD 0 0) as L0. pose proof (HD 1 0) as L1. destruct (rand 0 0); [|discriminate]. destruct (rand 1 0); [|discriminate].
  rewrite (Sum_eval N64) by reflexivity. generalize (rand 3 (query_rand_len (Sum Field64 10000))). intros q. clear.
  assert (Z2 : forall x : F Field64, fmul x (fof 2) = f0 <-> x = f0).
  { intros x. split; [|intros ->; apply F_eq; reflexivity]. intros E. apply (fmul_0 (ntt_prime _ N64)) in E as [E|E]; [exact E|].
    apply (f_equal val) in E. vm_compute in E. discriminate. }
  assert (E : reduced (Sum Field64 10000) (map (fun b : F Field64 => fmul b (fsub b f1)) (map fof (repeat 2%Z 14))) q
    = fmul (fsum 14 (fun i => nth i q f0)) (fof 2)).
  { unfold reduced. change (1 <? EVAL_OUTPUT_LEN (Sum Field64 10000)) with true. cbv iota. change (EVAL_OUTPUT_LEN (Sum Field64 10000)) with 14.
    assert (G : forall i, i < 14 -> nth i (map (fun b : F Field64 => fmul b (fsub b f1)) (map fof (repeat 2%Z 14))) f0 = fof 2).
    { intros i Hi. rewrite map_repeat, map_repeat. rewrite (nth_indep _ f0 (fof 2)) by now rewrite repeat_length.
      assert (T : fmul (fof 2) (fsub (fof 2) f1) = (fof 2 : F Field64)) by (apply F_eq; vm_compute; reflexivity). rewrite T.
      apply nth_repeat. }
    revert G. generalize (map (fun b : F Field64 => fmul b (fsub b f1)) (map fof (repeat 2%Z 14))). intros l.
    assert (I : forall n, n <= 14 -> (forall i, i < 14 -> nth i l f0 = fof 2) ->
      fsum n (fun i => fmul (nth i q f0) (nth i l f0)) = fmul (fsum n (fun i => nth i q f0)) (fof 2)).
    { intros n Hn G. induction n as [|n IH]; cbn [fsum]; [apply F_eq; reflexivity|]. rewrite IH, G by lia.
      now rewrite fmul_distr. }
    now apply I. }
  rewrite E. split.
  - intros [_ N] C. apply N. now apply Z2.
  - intros N. split; [vm_compute; reflexivity|]. intros C. apply N. now apply Z2.
Qed.

(** ** The other tests *)
Lemma range_check_round_trip_pass : test_range_check_round_trip = Ok tt.
Proof. vm_compute. reflexivity. Qed.
Lemma sumvec_afe_pass : test_sumvec_afe = Ok tt.
Proof. vm_compute. reflexivity. Qed.

Lemma ints_eqb_refl l : ints_eqb l l = true.
Proof. induction l; cbn; [easy|]. now rewrite Z.eqb_refl. Qed.
Lemma sumvec_round_trip (P : NttFieldClass) (HP : NttOk P) len max chunk measurements : 1 <= len -> 1 <= chunk -> (0 < max)%Z ->
  (2 ^ Z.of_nat (bit_length max) < MODULUS P)%Z ->
  Forall (fun ms => length ms = len /\ Forall (fun m => 0 <= m <= max)%Z ms) measurements ->
  run_encode_truncate_decode_test (FlpBBCGGI19 (SumVec P len max chunk)) ints_eqb measurements = Ok tt.
Proof.
  intros H1 H2 H3 H4 HF. unfold run_encode_truncate_decode_test. apply foldM_unit. rewrite Forall_forall in HF.
  intros ms Hin. destruct (HF ms Hin) as (Hl & Hr).
  destruct (SumVec_encode HP len max chunk H1 H2 H3 H4 ms Hl Hr) as (enc & E1 & _ & _ & E2).
  cbn [flp_encode flp_truncate flp_decode FlpBBCGGI19]. rewrite E1. cbn [bind]. rewrite E2. cbn [bind valid_decode SumVec].
  assert (EM : map (fun x => fint x) (map fof ms : list (F P)) = ms).
  { rewrite map_map. rewrite <- (map_id ms) at 2. apply map_ext_in. intros m Hm. rewrite Forall_forall in Hr. specialize (Hr m Hm).
    unfold fint. change (val (fof m : F P)) with (m mod MODULUS P)%Z. apply Z.mod_small.
    pose proof (max_lt_modulus (P := P) max H3 H4). lia. }
  assert (G : forall a b : list Z, a = b -> assert_true (ints_eqb b a) = Ok tt) by (intros a b ->; now rewrite ints_eqb_refl).
  apply G. exact EM.
Qed.

Lemma flptest_run_flp (meas jr pr q : list (F Field128)) n mr pr1 pr2 jl mr2 : length pr1 = length meas -> length pr2 = length meas ->
  length mr = length meas -> length mr2 = length meas ->
  run_flp (FlpTest Field128 jl) meas jr pr q n [mr; mr2] [pr1; pr2] = flp_decide (FlpTest Field128 jl) meas.
Proof.
  intros H1 H2 H3 H4. unfold run_flp. cbn [flp_prove flp_query FlpTest bind].
  rewrite (share_ok meas [mr; mr2]) by (repeat constructor; easy). rewrite (share_ok meas [pr1; pr2]) by (repeat constructor; easy).
  assert (HF : Forall (fun r => length r = length meas) [pr1; pr2]) by (repeat constructor; easy).
  destruct (share_vecs _ _ _ HF (share_ok meas [pr1; pr2] HF)) as [[_ V] S1].
  cbn [bind app combine mapM get nth_error]. cbn [app] in V, S1. rewrite H1.
  rewrite fold_vec_add_0 by exact V. cbn [bind]. now rewrite S1.
Qed.
Lemma test_flp_pass draws : (forall k, draw_ok (draws k)) -> test_flp draws = Ok tt.
Proof.
  intros HD. unfold test_flp. cbv zeta. cbn [flp_encode FlpTest]. rewrite !field_init_ok by (split; reflexivity). cbn [bind].
  rewrite !flptest_run_flp by (apply HD). 
  replace (flp_decide (FlpTest Field128 1) [fof 0%Z; fof 0%Z]) with (Ok true) by (vm_compute; reflexivity).
  replace (flp_decide (FlpTest Field128 1) [fof 4%Z; fof 4%Z]) with (Ok true) by (vm_compute; reflexivity).
  reflexivity.
Qed.

(** ** The labels are right *)
Lemma false_labels :
  (~ Forall is_bit (map fof [1337]%Z : list (F Field64))) /\
  (~ Forall is_bit (map fof (repeat 2%Z 14) : list (F Field64))) /\
  (forall m, m < 4 -> (map fof [0; 0; 0; 0]%Z : list (F Field128)) <> onehot 4 m /\ (map fof [1; 1; 1; 1]%Z : list (F Field128)) <> onehot 4 m) /\
  Forall (fun l => ~ multihot_valid (P := Field128) 4 2 (map fof l)) (too_many_ints 4 2 ++ [not_bits_ints 4 2]) /\
  Forall (fun l => ~ multihot_valid (P := Field128) 8 6 (map fof l)) (too_many_ints 8 6 ++ [not_bits_ints 8 6]) /\
  Forall (fun l => ~ multihot_valid (P := Field128) 1 1 (map fof l)) [[0; 1337]; [1; 0]]%Z /\
  (~ Forall is_bit (map fof (repeat 2%Z 8) : list (F Field128))).
Proof.
  assert (NB : forall (P : FieldClass) (x : F P) l, val x <> 0%Z -> val x <> val (f1 : F P) -> ~ Forall is_bit (x :: l)).
  { intros P x l N0 N1 C. inversion_clear C as [|? ? B _]. destruct B as [-> | ->]; now try apply N1. }
  repeat apply conj.
  - apply NB; vm_compute; discriminate.
  - apply NB; vm_compute; discriminate.
  - intros m Hm. split; intros C; apply (f_equal (map val)) in C; destruct m as [|[|[|[|m]]]]; try lia; vm_compute in C; discriminate.
  - repeat constructor; intros [B W]; revert W; try (vm_compute; discriminate).
  - repeat constructor; intros [B W]; revert W; try (vm_compute; discriminate).
  - repeat constructor; intros [B W]; revert W; try (vm_compute; discriminate). 
  - apply NB; vm_compute; discriminate.
Qed.
