(** Proofs for C105: joint randomness that is not the one the proof was made with. *)
From Verif Require Import TwoRandSpec Circuits MeasSpec FlpFacts FlpProofs CircuitFacts CircuitProofs InterpFacts GadgetFacts CircuitInstances FlpInstances ReuseFacts ZkFacts FieldFacts PolyAlg Roots PolyFacts VecFacts BaseFacts CommonFacts.
Open Scope nat_scope.

Section E.
Context {P : NttFieldClass} (HP : NttOk P).
Notation F := (F P).
Let Hp : prime (MODULUS P) := ntt_prime P HP.
Add Ring FringTR : (@F_ring P).

Definition unit_at (n k : nat) : list F := map (fun i => if i =? k then f1 else f0) (seq 0 n).
Definition ell (L k : nat) (t : F) : F := peval (ipoly L (unit_at (2 ^ L) k)) t.

Lemma unit_at_length n k : length (unit_at n k) = n.
Proof. unfold unit_at. now rewrite map_length, seq_length. Qed.
Lemma nth_unit_at n k i : nth i (unit_at n k) f0 = if (i <? n) && (i =? k) then f1 else f0.
Proof.
  unfold unit_at. destruct (Nat.ltb_spec i n).
  - now rewrite nth_map_seq.
  - rewrite nth_overflow; [reflexivity|]. rewrite map_length, seq_length. lia.
Qed.

Lemma ell_neq L k t : L <= gen_log P -> k < 2 ^ L -> npow t (2 ^ L) <> f1 -> ell L k t <> f0.
Proof.
  intros HL Hk Ht E. unfold ell in E.
  destruct (ipoly_spec HP L (unit_at (2 ^ L) k) HL ltac:(rewrite unit_at_length; lia)) as [H1 H2]. rewrite unit_at_length in H1, H2.
  set (others := seq 0 k ++ seq (S k) (2 ^ L - S k)).
  assert (Ho : forall j, In j others <-> j < 2 ^ L /\ j <> k).
  { intros j. unfold others. rewrite in_app_iff, !in_seq. lia. }
  assert (Z : allzero (ipoly L (unit_at (2 ^ L) k))).
  { apply (poly_roots_zero Hp (t :: map (npow (nth_root P L)) others)).
    - constructor.
      + intros Hi. apply in_map_iff in Hi as (j & <- & Hj). apply Ho in Hj. apply Ht.
        apply (in_roots HP L _ HL). unfold roots. apply in_map. apply in_seq. lia.
      + pose proof (NoDup_roots HP L HL) as N. unfold roots in N.
        replace (2 ^ L) with (k + S (2 ^ L - S k)) in N by lia. rewrite seq_app, map_app in N. cbn [seq map Nat.add] in N.
        apply NoDup_remove_1 in N. unfold others. now rewrite map_app.
    - cbn [length]. rewrite map_length. unfold others. rewrite app_length, !seq_length. lia.
    - intros x [<-|Hi]; [exact E|]. apply in_map_iff in Hi as (j & <- & Hj). apply Ho in Hj.
      rewrite H2 by lia. rewrite nth_unit_at. destruct (Nat.eqb_spec j k); [lia|]. now rewrite andb_false_r. }
  specialize (H2 k Hk). rewrite (peval_allzero _ _ Z), nth_unit_at, Nat.eqb_refl in H2.
  destruct (Nat.ltb_spec k (2 ^ L)); [|lia]. apply (f1_neq_f0 Hp). symmetry. exact H2.
Qed.

Lemma ipoly_ell L (ys : list F) t : L <= gen_log P -> length ys = 2 ^ L ->
  peval (ipoly L ys) t = fsum (2 ^ L) (fun k => fmul (nth k ys f0) (ell L k t)).
Proof.
  intros HL Hl. rewrite (ipoly_sum HP L (2 ^ L) ys (fun s => map (fmul (nth s ys f0)) (unit_at (2 ^ L) s))); try lia.
  - apply fsum_ext. intros s Hs. apply (ipoly_scale HP); [exact HL|]. rewrite unit_at_length. lia.
  - intros s Hs. rewrite map_length, unit_at_length. lia.
  - intros i. destruct (Nat.lt_ge_cases i (2 ^ L)) as [Hi|Hi].
    + rewrite (fsum_single _ i); [| lia |].
      * rewrite (nth_map' _ _ _ f0) by (rewrite unit_at_length; lia). rewrite nth_unit_at, Nat.eqb_refl, (proj2 (Nat.ltb_lt _ _) Hi). cbn [andb]. ring.
      * intros s Hs Ne. rewrite (nth_map' _ _ _ f0) by (rewrite unit_at_length; lia). rewrite nth_unit_at.
        destruct (Nat.eqb_spec i s); [lia|]. rewrite andb_false_r. ring.
    + rewrite nth_overflow by lia. symmetry. apply fsum_zero. intros s _. apply nth_overflow. rewrite map_length, unit_at_length. lia.
Qed.

Lemma gval_pairs c (w : list F) : length w = 2 * c ->
  gval (ParallelSum Mul c) w = fsum c (fun i => fmul (nth (2 * i) w f0) (nth (2 * i + 1) w f0)).
Proof.
  intros Lw. cbn [gval ARITY]. apply fsum_ext. intros i Hi. rewrite !nth_slice by lia.
  replace (i * 2 + 0) with (2 * i) by lia. replace (i * 2 + 1) with (2 * i + 1) by lia. reflexivity.
Qed.

(** The circuits call their only gadget in a loop and look at nothing but the sum of its answers. *)
Definition blind (v : Valid P) : Prop :=
  forall (g : nat -> nat -> F) meas jr jr' out out' log log', length meas = vMEAS_LEN v -> length jr = vJOINT_RAND_LEN v -> length jr' = vJOINT_RAND_LEN v ->
    trun (fun i k _ => g i k) (valid_eval v meas jr 1) [[]] = Some (out, log) ->
    trun (fun i k _ => g i k) (valid_eval v meas jr' 1) [[]] = Some (out', log') -> out = out'.

Lemma trun_loop_blind (g : nat -> nat -> F) (meas jr jr' : list F) chunk calls y y' log log' : length jr = calls -> length jr' = calls ->
  trun (fun i k _ => g i k) (range_check_loop meas jr f1 chunk calls) [[]] = Some (y, log) ->
  trun (fun i k _ => g i k) (range_check_loop meas jr' f1 chunk calls) [[]] = Some (y', log') -> y = y'.
Proof.
  intros Lj Lj'. unfold range_check_loop.
  assert (H : forall l acc pre pre', length pre = length pre' -> (forall x, In x l -> x < calls) ->
    trun (fun i k _ => g i k) (pfold (fun acc i => let+ r := plift (get jr i) in let+ y := pcall 0 (chunk_inputs meas f1 chunk i r) in Ret (fadd acc y)) l acc) [pre]
      = Some (y, log) ->
    trun (fun i k _ => g i k) (pfold (fun acc i => let+ r := plift (get jr' i) in let+ y := pcall 0 (chunk_inputs meas f1 chunk i r) in Ret (fadd acc y)) l acc) [pre']
      = Some (y', log') -> y = y').
  { induction l as [|x l IH]; intros acc pre pre' Hl Hx.
    - cbn. congruence.
    - cbn [pfold]. rewrite !(get_nth _ _ f0) by (rewrite ?Lj, ?Lj'; apply Hx; now left). cbn [plift pbind pcall trun nth upd].
      rewrite Hl. apply IH; [rewrite !app_length; cbn; lia | intros z I; apply Hx; now right]. }
  apply (H _ _ [] []); [reflexivity|]. intros x I. exact (proj2 (proj1 (in_range _ _ _) I)).
Qed.

Lemma loop_blind (v : Valid P) chunk calls (rest : list F -> F -> res (list F)) :
  vJOINT_RAND_LEN v = calls ->
  (forall meas jr, valid_eval v meas jr 1 =
     let+ _ := plift (check_valid_eval (vMEAS_LEN v) calls meas jr) in
     let+ sinv := plift (shares_inv 1) in
     let+ y := range_check_loop meas jr sinv chunk calls in plift (rest meas y)) ->
  blind v.
Proof.
  intros EJ EV g meas jr jr' out out' log log' Lm Lj Lj'. rewrite EJ in Lj, Lj'. rewrite !EV. unfold check_valid_eval.
  rewrite Lm, Lj, Lj', !Nat.eqb_refl. cbn [check bind plift pbind]. rewrite (sinv_1 HP). cbn [plift pbind]. intros E E'.
  apply trun_bind in E. destruct E as (y & l1 & E1 & E2). apply trun_bind in E'. destruct E' as (y' & l1' & E1' & E2').
  assert (y = y') as <- by exact (trun_loop_blind g meas jr jr' chunk calls y y' l1 l1' Lj Lj' E1 E1').
  destruct (rest meas y); cbn in E2, E2'; congruence.
Qed.
End E.

Section V.
Context {P : NttFieldClass} (HP : NttOk P) (v : Valid P) (HV : ValidOk v).
Notation F := (F P).
Let Hp : prime (MODULUS P) := ntt_prime P HP.
Add Ring FringTR2 : (@F_ring P).
Context (c calls : nat) (EG : GADGETS v = [ParallelSum Mul c]) (EC : GADGET_CALLS v = [calls]).
Context (HT : telling v (loop_reads c calls)) (HB : blind v).
Notation L := (wlog calls).

Definition ells (query_rand : list F) (k : nat) : F := ell L (S k) (test_point v query_rand 0).

Lemma nth_loop_reads meas (jr : list F) k i : k < calls -> i < c ->
  nth (2 * i) (nth k (loop_reads c calls meas jr) []) f0 = fmul (npow (nth k jr f0) (S i)) (nth (k * c + i) meas f0) /\
  nth (2 * i + 1) (nth k (loop_reads c calls meas jr) []) f0 = fsub (nth (k * c + i) meas f0) f1.
Proof.
  intros Hk Hi. unfold loop_reads. rewrite (nth_map' _ _ _ 0) by (rewrite length_range; lia). rewrite nth_range by lia.
  rewrite chunk_inputs_eq. exact (nth_chunk_spec meas f1 c k c (nth k jr f0) i Hi).
Qed.

Lemma wire_ell (seeds : list F) (log : list (list F)) t j : L <= gen_log P -> length log = calls -> j < length seeds ->
  peval (nth j (map (wpoly L) (fill (2 ^ L) seeds log)) []) t =
  fadd (fmul (nth j seeds f0) (ell L 0 t)) (fsum calls (fun k => fmul (nth j (nth k log []) f0) (ell L (S k) t))).
Proof.
  intros HL Hl Hj. assert (R : S calls <= 2 ^ L).
  { pose proof (g_room v 0) as R. rewrite EC in R. cbn [nth] in R. lia. }
  rewrite (nth_map' _ _ _ []) by (rewrite fill_length; exact Hj). rewrite peval_wpoly.
  assert (Lf : length (nth j (fill (2 ^ L) seeds log) []) = 2 ^ L).
  { apply (fill_wire_length (2 ^ L) seeds log); [lia | lia | apply nth_In; rewrite fill_length; exact Hj]. }
  rewrite (ipoly_ell HP L _ t HL Lf).
  replace (2 ^ L) with (S (calls + (2 ^ L - S calls))) at 1 by lia. rewrite fsum_S_l, fsum_app.
  rewrite (fill_0 _ _ _ _ Hj). f_equal. rewrite (fsum_zero (2 ^ L - S calls)).
  - transitivity (fsum calls (fun k => fmul (nth (S k) (nth j (fill (2 ^ L) seeds log) []) f0) (ell L (S k) t))); [ring|].
    apply fsum_ext. intros k Hk. rewrite fill_call by lia. reflexivity.
  - intros i Hi. rewrite fill_pad by lia. ring.
Qed.

Theorem forked_ok meas prove_rand query_rand joint_rand other_rand :
  length meas = vMEAS_LEN v -> length prove_rand = prove_rand_len v -> length query_rand = query_rand_len v ->
  length joint_rand = vJOINT_RAND_LEN v -> length other_rand = vJOINT_RAND_LEN v ->
  circuit_zero v meas joint_rand -> test_points_ok v query_rand ->
  exists ver, forked_verifier v meas prove_rand query_rand joint_rand other_rand = Ok ver /\ length ver = verifier_len v /\ nth 0 ver f0 = f0 /\
    discrepancy v ver = linear_form v (ells query_rand) ver joint_rand other_rand meas /\
    bbcggi19_decide v ver = Ok (feqb (discrepancy v ver) f0).
Proof.
  intros Hm Hr Hq Hj Hj' (out0 & E0 & Hz) Hg. assert (HG : length (GADGETS v) = 1) by now rewrite EG. assert (I0 : 0 < length (GADGETS v)) by lia.
  destruct HT as (T1 & T2 & _).
  destruct (complete_single HP v HV meas prove_rand joint_rand Hm Hr Hj) as (out & log & proof & Eo & Ho & Ep & Hl & Hx & Hgood & Ht).
  assert (out0 = out) as -> by congruence.
  destruct (query_ok HP v HV meas proof query_rand other_rand 1 Hm Hl Hq Hj' ltac:(lia) (one_lt_modulus HP)) as (out' & log' & _ & Ht' & _ & Eq).
  rewrite (proj2 (bad_points_iff v query_rand) Hg) in Eq. rewrite HG in Ht, Ht'. cbn [repeat] in Ht, Ht'.
  assert (out' = out) as -> by (symmetry; exact (HB (fun i k => query_oracle v proof i k []) meas joint_rand other_rand out out' log log' Hm Hj Hj' Ht Ht')).
  assert (log = [loop_reads c calls meas joint_rand]) as -> by exact (T1 _ meas joint_rand out log Hm Hj Ht).
  assert (log' = [loop_reads c calls meas other_rand]) as -> by exact (T1 _ meas other_rand out log' Hm Hj' Ht').
  set (seeds := qseeds v proof 0) in *. assert (Ls : length seeds = 2 * c).
  { unfold seeds. rewrite (qseeds_length v HV proof 0 I0 Hl), EG. cbn. lia. }
  pose proof (g_L HP v HV 0 I0) as HL. rewrite EC in HL. cbn [nth] in HL.
  assert (Lr : forall jr, length (loop_reads c calls meas jr) = calls) by (intros jr; unfold loop_reads; rewrite map_length, length_range; lia).
  assert (Et : tp v query_rand 0 = test_point v query_rand 0).
  { unfold test_point, tp. rewrite query_rand_len_eq. f_equal. lia. }
  set (t := test_point v query_rand 0) in *.
  set (W := fun jr => map (fun c => peval c t) (map (wpoly L) (fill (2 ^ L) seeds (loop_reads c calls meas jr)))).
  assert (LW : forall jr, length (W jr) = 2 * c) by (intros jr; unfold W; rewrite !map_length, fill_length; exact Ls).
  assert (NW : forall jr j, j < 2 * c -> nth j (W jr) f0 = fadd (fmul (nth j seeds f0) (ell L 0 t))
     (fsum calls (fun k => fmul (nth j (nth k (loop_reads c calls meas jr) []) f0) (ell L (S k) t)))).
  { intros jr j Hjj. unfold W. rewrite (nth_map' _ _ _ []) by (rewrite map_length, fill_length; lia). apply wire_ell; [exact HL | apply Lr | lia]. }
  set (y := gval (ParallelSum Mul c) (W joint_rand)).
  assert (Ey : peval (gpoly v proof 0) t = y).
  { rewrite (Hgood 0 t I0). cbn [nth]. fold seeds. unfold wpolys. rewrite EG, EC. cbn [nth]. unfold y, W. symmetry.
    pose proof (g_wf v HV 0 I0) as Wf. rewrite EG, EC in Wf. cbn [nth] in Wf.
    apply (gval_peval L); [exact Wf|]. rewrite map_length, fill_length, Ls. cbn. lia. }
  assert (Ev : verifier_of v proof query_rand out [loop_reads c calls meas other_rand] = f0 :: W other_rand ++ [y]).
  { unfold verifier_of. rewrite (allzero_red v) by exact Hz. rewrite HG. cbn [seq map concat]. rewrite app_nil_r. unfold vblock. f_equal.
    rewrite Et, Ey. unfold wpolys. rewrite EC. cbn [nth]. reflexivity. }
  exists (f0 :: W other_rand ++ [y]). unfold forked_verifier. rewrite Ep. cbn [bind]. rewrite Eq, Ev.
  assert (Epc : elements_per_call v = c) by (unfold elements_per_call; now rewrite EG).
  assert (Nv : forall j, j < 2 * c -> nth (S j) (f0 :: W other_rand ++ [y]) f0 = nth j (W other_rand) f0).
  { intros j Hjj. cbn [nth]. now rewrite app_nth1 by (rewrite LW; lia). }
  assert (Nl : nth (1 + 2 * c) (f0 :: W other_rand ++ [y]) f0 = y).
  { cbn [nth Nat.add]. rewrite app_nth2 by (rewrite LW; lia). rewrite LW, Nat.sub_diag. reflexivity. }
  assert (Ed : discrepancy v (f0 :: W other_rand ++ [y]) = fsub (gval (ParallelSum Mul c) (W other_rand)) y).
  { unfold discrepancy. rewrite Epc, Nl. f_equal. rewrite gval_pairs by apply LW. apply fsum_ext. intros i Hi.
    change (1 + 2 * i) with (S (2 * i)). replace (2 + 2 * i) with (S (2 * i + 1)) by lia. rewrite !Nv by lia. reflexivity. }
  split; [reflexivity|]. split; [|split; [reflexivity|split]].
  - rewrite <- Ev. now apply (verifier_of_length v).
  - rewrite Ed. unfold y at 1, linear_form. assert (Ec0 : nth 0 (GADGET_CALLS v) 0 = calls) by now rewrite EC. rewrite Epc, Ec0. rewrite !gval_pairs by apply LW. rewrite <- fsum_sub. apply fsum_ext. intros i Hi.
    replace (2 + 2 * i) with (S (2 * i + 1)) by lia. rewrite Nv by lia.
    assert (Eb : nth (2 * i + 1) (W joint_rand) f0 = nth (2 * i + 1) (W other_rand) f0).
    { rewrite !NW by lia. f_equal. apply fsum_ext. intros k Hk. now rewrite !(proj2 (nth_loop_reads _ _ _ _ Hk Hi)). }
    rewrite Eb. set (b := nth (2 * i + 1) (W other_rand) f0).
    transitivity (fmul b (fsub (nth (2 * i) (W other_rand) f0) (nth (2 * i) (W joint_rand) f0))); [ring|]. f_equal.
    rewrite !NW by lia.
    transitivity (fsub (fsum calls (fun k => fmul (nth (2 * i) (nth k (loop_reads c calls meas other_rand) []) f0) (ell L (S k) t)))
                       (fsum calls (fun k => fmul (nth (2 * i) (nth k (loop_reads c calls meas joint_rand) []) f0) (ell L (S k) t)))); [ring|].
    rewrite <- fsum_sub. apply fsum_ext. intros k Hk. rewrite !(proj1 (nth_loop_reads _ _ _ _ Hk Hi)). unfold ells. fold t. ring.
  - rewrite Ed, <- Ev. rewrite (decide_ok v HV) by exact Hl. rewrite (allzero_red v) by exact Hz. rewrite HG. cbn [seq forallb].
    rewrite (proj2 (feqb_eq _ _) eq_refl). cbn [andb]. rewrite andb_true_r. f_equal. unfold gcheck. cbn [nth]. rewrite Et, Ey. fold seeds. unfold wpolys. rewrite EG, EC. cbn [nth].
    pose proof (g_wf v HV 0 I0) as Wf. rewrite EG, EC in Wf. cbn [nth] in Wf.
    assert (Eg : peval (gcomp (ParallelSum Mul c) (map (wpoly L) (fill (2 ^ L) seeds (loop_reads c calls meas other_rand)))) t = gval (ParallelSum Mul c) (W other_rand)).
    { symmetry. apply (gval_peval L); [exact Wf|]. rewrite map_length, fill_length, Ls. cbn. lia. }
    rewrite Eg. set (g := gval _ (W other_rand)). apply Bool.eq_true_iff_eq. rewrite !feqb_eq. split; intros Q.
    + rewrite Q. ring.
    + transitivity (fadd (fsub g y) y); [ring|]. rewrite Q. ring.
Qed.

Lemma ells_neq query_rand k : k < calls -> test_points_ok v query_rand -> ells query_rand k <> f0.
Proof.
  intros Hk Hg. assert (I0 : 0 < length (GADGETS v)) by (rewrite EG; cbn; lia). pose proof (g_L HP v HV 0 I0) as HL. rewrite EC in HL. cbn [nth] in HL.
  pose proof (g_room v 0) as R. rewrite EC in R. cbn [nth] in R. specialize (Hg 0 I0). rewrite EC in Hg. cbn [nth] in Hg.
  apply (ell_neq HP); [exact HL | lia |]. rewrite wire_poly_len_pow in Hg. exact Hg.
Qed.
End V.

Lemma std_forked {P : NttFieldClass} (HP : NttOk P) v : std_circuit P v -> 0 < vJOINT_RAND_LEN v ->
  exists c calls, GADGETS v = [ParallelSum Mul c] /\ GADGET_CALLS v = [calls] /\ telling v (loop_reads c calls) /\ blind v.
Proof.
  intros H HJ. destruct H as [Hf | l c v E Hf | l w c v E Hf | l mx c v E Hf | mx v E Hm Hf].
  - cbn in HJ. lia.
  - unfold Histogram_init in E. destruct (0 <? l)%Z eqn:E1; [|discriminate]. destruct (0 <? c)%Z eqn:E2; [|discriminate].
    cbn [check bind] in E. assert (v = Histogram P (Z.to_nat l) (Z.to_nat c)) as -> by congruence. clear E.
    apply Z.ltb_lt in E2. exists (Z.to_nat c), (Histogram_calls (Z.to_nat l) (Z.to_nat c)). split; [reflexivity|]. split; [reflexivity|]. split.
    + apply (loop_telling HP _ _ _ (fun meas y => Ret [y; fold_left fadd meas (fneg f1)])); try reflexivity; [lia | |  | ].
      * apply ceil_mul. lia.
      * intros meas jr. unfold valid_eval, Histogram. rewrite (sinv_1 HP). reflexivity.
      * intros meas y o log out log'. cbn. congruence.
    + apply (loop_blind HP _ (Z.to_nat c) (Histogram_calls (Z.to_nat l) (Z.to_nat c)) (fun meas y => Ok [y; fold_left fadd meas (fneg f1)])); [reflexivity|].
      intros meas jr. unfold valid_eval, Histogram. rewrite (sinv_1 HP). reflexivity.
  - unfold MultihotCountVec_init in E. repeat (match type of E with context [check ?b _] => destruct b eqn:?; [|discriminate E]; cbn [check bind] in E end).
    assert (v = MultihotCountVec P (Z.to_nat l) (Z.to_nat w) (Z.to_nat c)) as -> by congruence. clear E.
    match goal with H : (0 <? c)%Z = true |- _ => apply Z.ltb_lt in H end.
    exists (Z.to_nat c), (Multihot_calls (Z.to_nat l) (Z.to_nat w) (Z.to_nat c)). split; [reflexivity|]. split; [reflexivity|]. split.
    + apply (loop_telling HP _ _ _ (fun meas y =>
        let+ wr := plift (decode_range_checked_int (skipn (Z.to_nat l) meas) (Z.of_nat (Z.to_nat w))) in
        Ret [y; fsub (fold_left fadd (firstn (Z.to_nat l) meas) f0) wr])); try reflexivity; [lia | |].
      * apply ceil_mul. lia.
      * intros meas y o log out log'. destruct (decode_range_checked_int _ _); cbn; congruence.
    + intros g meas jr jr' out out' log log' Lm Lj Lj'. cbn [vJOINT_RAND_LEN MultihotCountVec] in Lj, Lj'. cbn [vMEAS_LEN MultihotCountVec] in Lm.
      unfold valid_eval, MultihotCountVec, check_valid_eval. rewrite Lm, Lj, Lj', !Nat.eqb_refl. cbn [check bind plift pbind]. rewrite (sinv_1 HP). cbn [plift pbind]. intros E E'.
      apply trun_bind in E. destruct E as (y & l1 & E1 & E2). apply trun_bind in E'. destruct E' as (y' & l1' & E1' & E2').
      assert (y = y') as <- by exact (trun_loop_blind g meas jr jr' _ _ y y' l1 l1' Lj Lj' E1 E1').
      destruct (decode_range_checked_int _ _); cbn in E2, E2'; congruence.
  - unfold SumVec_init in E. repeat (match type of E with context [check ?b _] => destruct b eqn:?; [|discriminate E]; cbn [check bind] in E end).
    assert (v = SumVec P (Z.to_nat l) mx (Z.to_nat c)) as -> by congruence. clear E.
    match goal with H : (0 <? c)%Z = true |- _ => apply Z.ltb_lt in H end.
    exists (Z.to_nat c), (SumVec_calls (Z.to_nat l) (bit_length mx) (Z.to_nat c)). split; [reflexivity|]. split; [reflexivity|]. split.
    + apply (loop_telling HP _ _ _ (fun meas y => Ret [y])); try reflexivity; [lia | |].
      * apply ceil_mul. lia.
      * intros meas y o log out log'. cbn. congruence.
    + apply (loop_blind HP _ (Z.to_nat c) (SumVec_calls (Z.to_nat l) (bit_length mx) (Z.to_nat c)) (fun meas y => Ok [y])); reflexivity.
  - unfold Sum_init in E. assert (v = Sum P mx) as ->.
    { repeat (match type of E with context [check ?b _] => destruct b eqn:?; [|discriminate E]; cbn [check bind] in E end).
      destruct (PolyEval_init _ _); [|discriminate E]. cbn [bind] in E. congruence. }
    cbn in HJ. lia.
Qed.

Theorem std_forked_ok {P : NttFieldClass} (HP : NttOk P) v : std_circuit P v -> 0 < vJOINT_RAND_LEN v ->
  exists ell : list (F P) -> nat -> F P,
  (forall q k, test_points_ok v q -> k < nth 0 (GADGET_CALLS v) 0 -> ell q k <> f0) /\
  forall meas prove_rand query_rand joint_rand other_rand : list (F P),
  length meas = vMEAS_LEN v -> length prove_rand = prove_rand_len v -> length query_rand = query_rand_len v ->
  length joint_rand = vJOINT_RAND_LEN v -> length other_rand = vJOINT_RAND_LEN v ->
  circuit_zero v meas joint_rand -> test_points_ok v query_rand ->
  exists ver, forked_verifier v meas prove_rand query_rand joint_rand other_rand = Ok ver /\ length ver = verifier_len v /\ nth 0 ver f0 = f0 /\
    discrepancy v ver = linear_form v (ell query_rand) ver joint_rand other_rand meas /\
    bbcggi19_decide v ver = Ok (feqb (discrepancy v ver) f0).
Proof.
  intros Hv HJ. destruct (std_forked HP v Hv HJ) as (c & calls & EG & EC & HT & HB). destruct (std_ok HP v Hv) as [HV _].
  exists (ells v calls). split.
  - intros q k Hq Hk. rewrite EC in Hk. exact (ells_neq HP v HV c calls EG EC q k Hk Hq).
  - exact (forked_ok HP v HV c calls EG EC HT HB).
Qed.

Section Forms.
Context {P : NttFieldClass} (HP : NttOk P).
Notation F := (F P).
Let Hp : prime (MODULUS P) := ntt_prime P HP.
Add Ring FringTR3 : (@F_ring P).

Lemma form_zero (v : Valid P) (ell : nat -> F) ver jr jr' (meas : list F) :
  allzero meas \/ jr' = jr -> linear_form v ell ver jr jr' meas = f0.
Proof.
  clear HP Hp. intros H. unfold linear_form. apply fsum_zero. intros i _.
  rewrite fsum_zero; [ring|]. intros k _. destruct H as [H| ->]; [|ring].
  assert (Z : nth (k * elements_per_call v + i) meas f0 = f0).
  { destruct (Nat.lt_ge_cases (k * elements_per_call v + i) (length meas)) as [L|L]; [|now apply nth_overflow].
    unfold allzero in H. first [rewrite Forall_forall in H; apply H; now apply nth_In | now apply H]. }
  rewrite Z. ring.
Qed.

Lemma bit_told (e b r s : F) ver : e <> f0 -> r <> s -> nth 2 ver f0 <> f0 ->
  let v := SumVec P 1 1 1 in
  discrepancy v ver = linear_form v (fun _ => e) ver [r] [s] [b] ->
  bbcggi19_decide v ver = Ok (feqb (discrepancy v ver) f0) ->
  b = fmul (discrepancy v ver) (finv (fmul (nth 2 ver f0) (fmul e (fsub s r)))) /\ (bbcggi19_decide v ver = Ok true <-> b = f0).
Proof.
  intros He Hne N2 v Ed Edec. set (y := nth 2 ver f0) in *. set (c := fmul y (fmul e (fsub s r))).
  assert (Ef : linear_form v (fun _ => e) ver [r] [s] [b] = fmul c b).
  { unfold linear_form, v. change (elements_per_call (SumVec P 1 1 1)) with 1. change (nth 0 (GADGET_CALLS (SumVec P 1 1 1)) 0) with 1.
    cbn [fsum Nat.mul Nat.add nth]. fold y. rewrite !npow_1. unfold c. ring. }
  assert (Hc : c <> f0).
  { intros C. apply (fmul_0 Hp) in C as [C|C]; [now apply N2|]. apply (fmul_0 Hp) in C as [C|C]; [now apply He|].
    apply Hne. transitivity (fsub s (fsub s r)); [ring|]. rewrite C. ring. }
  rewrite Edec, Ed, Ef. split.
  - transitivity (fmul b (fmul (finv c) c)); [|ring]. rewrite (finv_l Hp c Hc). ring.
  - split.
    + intros Q. injection Q as Q. apply feqb_eq in Q. apply (fmul_0 Hp) in Q as [Q|Q]; [easy|exact Q].
    + intros ->. f_equal. apply feqb_eq. ring.
Qed.
End Forms.
