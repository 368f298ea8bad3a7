(** Proofs for C94: what verifying a report more than once reveals. *)
From Verif Require Import FlpFacts FlpProofs FlpSpec InterpFacts CircuitFacts CircuitProofs CircuitInstances Circuits MeasSpec FlpInstances
  GadgetFacts PolyAlg VecFacts BaseFacts.
Open Scope nat_scope.

Section R.
Context {P : NttFieldClass} (HP : NttOk P).
Notation F := (F P).
Notation root := (nth_root P).
Let Hp : prime (MODULUS P) := ntt_prime P HP.
Add Ring FringRU : (@F_ring P).

Lemma peval_sub_eq (c d : list F) x : length c = length d -> peval (zip_with fsub c d) x = fsub (peval c x) (peval d x).
Proof.
  revert d. induction c as [|a c IH]; intros [|b d] H; try discriminate; cbn [zip_with peval fold_right].
  - ring.
  - change (fold_right (fun a acc => fadd a (fmul x acc)) f0 ?l) with (peval l x). cbn [length] in H.
    rewrite IH by lia. ring.
Qed.

(** Two polynomials of the same length that agree at that many points. *)
Lemma agree_points n (c d : list F) pts : length c = n -> length d = n -> NoDup pts -> n <= length pts ->
  (forall x, In x pts -> peval c x = peval d x) -> forall x, peval c x = peval d x.
Proof.
  intros Lc Ld ND Ln H x.
  assert (Z : allzero (zip_with fsub c d)).
  { apply (poly_roots_zero Hp pts); [exact ND | rewrite zip_with_length; lia |]. intros y I.
    rewrite peval_sub_eq by lia. rewrite (H y I). ring. }
  pose proof (peval_sub_eq c d x ltac:(lia)) as E. rewrite (peval_allzero _ _ Z) in E.
  replace (peval c x) with (fadd (fsub (peval c x) (peval d x)) (peval d x)) by ring. rewrite <- E. ring.
Qed.

Section V.
Context (v : Valid P) (HV : ValidOk v).
Notation G := (length (GADGETS v)).
Notation gd i := (nth i (GADGETS v) Mul).
Notation cl i := (nth i (GADGET_CALLS v) 0).
Notation Lw i := (wlog (cl i)).

Lemma wires_determined i (proof proof' : list F) (log log' : list (list (list F))) (Q : list (list F)) : i < G ->
  length proof = proof_len v -> length proof' = proof_len v ->
  length (nth i log []) <= cl i -> length (nth i log' []) <= cl i ->
  NoDup (map (fun q => tp v q i) Q) -> 2 ^ Lw i <= length Q ->
  (forall q, In q Q -> vblock v proof q log i = vblock v proof' q log' i) ->
  fill (2 ^ Lw i) (qseeds v proof i) (nth i log []) = fill (2 ^ Lw i) (qseeds v proof' i) (nth i log' []).
Proof.
  intros Hi Lp Lp' Ll Ll' ND LQ HQ.
  pose proof (qseeds_length v HV proof i Hi Lp) as S1. pose proof (qseeds_length v HV proof' i Hi Lp') as S2.
  rewrite <- (evals_wpolys HP v HV i (qseeds v proof i)) by assumption.
  rewrite <- (evals_wpolys HP v HV i (qseeds v proof' i)) by assumption.
  set (W := wpolys v i (qseeds v proof i) (nth i log [])). set (W' := wpolys v i (qseeds v proof' i) (nth i log' [])).
  assert (LW : length W = ARITY (gd i)) by (unfold W; now rewrite wpolys_length).
  assert (LW' : length W' = ARITY (gd i)) by (unfold W'; now rewrite wpolys_length).
  apply (nth_ext' (@nil F)); rewrite !map_length; [lia|]. intros j Hj.
  rewrite !(nth_map' _ _ _ []) by lia.
  assert (E : forall x, peval (nth j W []) x = peval (nth j W' []) x).
  { apply (agree_points (2 ^ Lw i) _ _ (map (fun q => tp v q i) Q)).
    - apply (wpolys_lengths HP v HV i (qseeds v proof i) (nth i log [])); try assumption. now apply nth_In.
    - apply (wpolys_lengths HP v HV i (qseeds v proof' i) (nth i log' [])); try assumption. apply (nth_In W'). lia.
    - exact ND.
    - now rewrite map_length.
    - intros x I. apply in_map_iff in I. destruct I as (q & <- & I). specialize (HQ q I). unfold vblock in HQ.
      apply app_inj_tail in HQ. destruct HQ as [HQ _]. apply (f_equal (fun l => nth j l f0)) in HQ.
      fold W W' in HQ. now rewrite !(nth_map' _ _ _ []) in HQ by lia. }
  unfold evals. apply map_ext. intros k. apply E.
Qed.

Lemma inputs_determined i (proof proof' : list F) (log log' : list (list (list F))) (Q : list (list F)) : i < G ->
  length proof = proof_len v -> length proof' = proof_len v ->
  length (nth i log []) <= cl i -> length (nth i log' []) <= cl i -> length (nth i log []) = length (nth i log' []) ->
  NoDup (map (fun q => tp v q i) Q) -> 2 ^ Lw i <= length Q ->
  (forall q, In q Q -> vblock v proof q log i = vblock v proof' q log' i) ->
  forall k j, k < length (nth i log []) -> j < ARITY (gd i) -> nth j (nth k (nth i log []) []) f0 = nth j (nth k (nth i log' []) []) f0.
Proof.
  intros Hi Lp Lp' Ll Ll' Le ND LQ HQ k j Hk Hj.
  pose proof (wires_determined i proof proof' log log' Q Hi Lp Lp' Ll Ll' ND LQ HQ) as E.
  pose proof (qseeds_length v HV proof i Hi Lp) as S1. pose proof (qseeds_length v HV proof' i Hi Lp') as S2.
  apply (f_equal (fun l => nth (S k) (nth j l []) f0)) in E.
  now rewrite !fill_call in E by lia.
Qed.

(** Circuits whose gadget calls determine the measurement. *)
Definition telling (reads : list F -> list F -> list (list F)) : Prop :=
  (forall o meas jr out log, length meas = vMEAS_LEN v -> length jr = vJOINT_RAND_LEN v ->
     trun o (valid_eval v meas jr 1) [[]] = Some (out, log) -> log = [reads meas jr]) /\
  (forall meas jr, length (reads meas jr) = cl 0) /\
  (forall meas meas' jr jr', length meas = vMEAS_LEN v -> length meas' = vMEAS_LEN v ->
     (forall k j, k < cl 0 -> j < ARITY (gd 0) -> nth j (nth k (reads meas jr) []) f0 = nth j (nth k (reads meas' jr') []) f0) ->
     meas = meas').

Theorem reuse_determines reads (meas meas' proof proof' jr jr' : list F) Q : G = 1 -> telling reads ->
  length meas = vMEAS_LEN v -> length meas' = vMEAS_LEN v -> length proof = proof_len v -> length proof' = proof_len v ->
  length jr = vJOINT_RAND_LEN v -> length jr' = vJOINT_RAND_LEN v ->
  NoDup (map (fun q => test_point v q 0) Q) -> wire_poly_len (cl 0) <= length Q ->
  (forall q, In q Q -> length q = query_rand_len v /\ exists ver,
     bbcggi19_query v meas proof q jr 1 = Ok ver /\ bbcggi19_query v meas' proof' q jr' 1 = Ok ver) ->
  meas = meas'.
Proof.
  intros HG (T1 & T2 & T3) Lm Lm' Lp Lp' Lj Lj' ND LQ HQ. assert (I0 : 0 < G) by lia.
  assert (HM1 : (Z.of_nat 1 < MODULUS P)%Z) by exact (one_lt_modulus HP).
  assert (LQ2 : 2 ^ Lw 0 <= length Q) by (rewrite wire_poly_len_pow in LQ; exact LQ).
  destruct Q as [|q0 Q0] eqn:EQ; [cbn in LQ2; pose proof (pow2_pos (Lw 0)); lia|]. rewrite <- EQ in *.
  assert (HI : forall q, In q Q -> forall (m0 p0 j0 : list F), length m0 = vMEAS_LEN v -> length p0 = proof_len v -> length j0 = vJOINT_RAND_LEN v ->
     forall w, bbcggi19_query v m0 p0 q j0 1 = Ok w -> exists out, w = verifier_of v p0 q out [reads m0 j0]).
  { intros q I m0 p0 j0 A B C w E. destruct (HQ q I) as [Lq _].
    destruct (query_ok HP v HV m0 p0 q j0 1 A B Lq C ltac:(lia) HM1) as (out & log & _ & Et & _ & Eq). rewrite E in Eq.
    destruct (existsb _ _); [discriminate|]. exists out. injection Eq as ->. f_equal.
    rewrite HG in Et. exact (T1 _ m0 j0 out log A C Et). }
  apply (T3 meas meas' jr jr' Lm Lm'). intros k j Hk Hj.
  apply (inputs_determined 0 proof proof' [reads meas jr] [reads meas' jr'] Q I0 Lp Lp'); cbn [nth]; rewrite ?T2; try lia; try assumption.
  - rewrite <- (map_ext (fun q => test_point v q 0) (fun q => tp v q 0)); [exact ND|].
    intros q. unfold test_point, tp. rewrite query_rand_len_eq. f_equal. lia.
  - intros q I. destruct (HQ q I) as (Lq & ver & E1 & E2).
    destruct (HI q I meas proof jr Lm Lp Lj ver E1) as (o1 & V1). destruct (HI q I meas' proof' jr' Lm' Lp' Lj' ver E2) as (o2 & V2).
    rewrite V1 in V2. unfold verifier_of in V2. rewrite HG in V2. cbn [seq map concat] in V2. rewrite !app_nil_r in V2.
    now injection V2.
Qed.
End V.

(** * The circuits *)
Lemma telling_Count : telling (Count P) (fun meas _ => [[nth 0 meas f0; nth 0 meas f0]]).
Proof.
  split; [|split].
  - intros o meas jr out log Lm Lj. cbn [vMEAS_LEN vJOINT_RAND_LEN Count] in Lm, Lj.
    destruct meas as [|x [|]]; cbn in Lm; try lia. destruct jr; [|discriminate]. cbn. intros [= _ <-]. reflexivity.
  - reflexivity.
  - intros meas meas' _ _ Lm Lm' H. destruct meas as [|x [|]]; cbn in Lm; try lia. destruct meas' as [|y [|]]; cbn in Lm'; try lia.
    specialize (H 0 0 ltac:(cbn; lia) ltac:(cbn; lia)). cbn in H. now rewrite H.
Qed.

Lemma telling_Sum max : telling (Sum P max) (fun meas _ => map (fun k => [nth k meas f0]) (seq 0 (bit_length max))).
Proof.
  split; [|split].
  - intros o meas jr out log Lm Lj. cbn [vMEAS_LEN vJOINT_RAND_LEN Sum] in Lm, Lj.
    unfold valid_eval, Sum, check_valid_eval. rewrite Lm, Lj, !Nat.eqb_refl. cbn [check bind plift pbind].
    assert (H : forall l acc pre, trun o (pfold (fun out b => let+ y := pcall 0 [b] in Ret (out ++ [y])) l acc) [pre] = Some (out, log) ->
      log = [pre ++ map (fun x => [x]) l]).
    { induction l as [|x l IH]; intros acc pre.
      - cbn. rewrite app_nil_r. congruence.
      - cbn [pfold pbind pcall trun nth upd]. intros E. rewrite (IH _ _ E). cbn [map]. now rewrite <- app_assoc. }
    intros E. rewrite (H meas _ _ E). cbn [app]. do 1 f_equal. rewrite <- Lm. apply (nth_ext' []); rewrite !map_length, ?seq_length; [reflexivity|].
    intros k Hk. rewrite nth_map_seq by exact Hk. now rewrite (nth_map' _ _ _ f0).
  - intros meas _. rewrite map_length, seq_length. reflexivity.
  - intros meas meas' _ _ Lm Lm' H. cbn [vMEAS_LEN Sum] in Lm, Lm'. apply (nth_ext' f0); [lia|]. intros k Hk.
    specialize (H k 0 ltac:(cbn; lia) ltac:(cbn; lia)). rewrite !nth_map_seq in H by lia. exact H.
Qed.

Definition loop_reads (chunk calls : nat) (meas jr : list F) : list (list F) :=
  map (fun i => chunk_inputs meas f1 chunk i (nth i jr f0)) (range 0 calls).

Lemma trun_bind {A B} o (m : prog P A) (f : A -> prog P B) log b log' : trun o (pbind m f) log = Some (b, log') ->
  exists a log1, trun o m log = Some (a, log1) /\ trun o (f a) log1 = Some (b, log').
Proof.
  revert log. induction m as [a|e|i inp k IH]; intros log H.
  - now exists a, log.
  - discriminate.
  - cbn [pbind trun] in H |- *. now apply IH.
Qed.

Lemma trun_loop o (meas jr : list F) chunk calls out log : length jr = calls ->
  trun o (range_check_loop meas jr f1 chunk calls) [[]] = Some (out, log) -> log = [loop_reads chunk calls meas jr].
Proof.
  intros Lj. unfold range_check_loop, loop_reads.
  assert (H : forall l acc pre, (forall x, In x l -> x < calls) ->
    trun o (pfold (fun acc i => let+ r := plift (get jr i) in let+ y := pcall 0 (chunk_inputs meas f1 chunk i r) in Ret (fadd acc y)) l acc) [pre]
      = Some (out, log) -> log = [pre ++ map (fun i => chunk_inputs meas f1 chunk i (nth i jr f0)) l]).
  { induction l as [|x l IH]; intros acc pre Hl.
    - cbn. rewrite app_nil_r. congruence.
    - cbn [pfold]. rewrite (get_nth _ _ f0) by (rewrite Lj; apply Hl; now left). cbn [plift pbind pcall trun nth upd].
      intros E. rewrite (IH _ _ (fun y I => Hl y (or_intror I)) E). cbn [map]. now rewrite <- app_assoc. }
  intros E. apply (H _ _ [] (fun x I => proj2 (proj1 (in_range _ _ _) I)) E).
Qed.

Lemma loop_reads_inj len chunk calls (meas meas' jr jr' : list F) : 0 < chunk -> len <= calls * chunk ->
  length meas = len -> length meas' = len ->
  (forall k j, k < calls -> j < 2 * chunk -> nth j (nth k (loop_reads chunk calls meas jr) []) f0 = nth j (nth k (loop_reads chunk calls meas' jr') []) f0) ->
  meas = meas'.
Proof.
  intros Hc Hl Lm Lm' H. apply (nth_ext' f0); [lia|]. intros i Hi.
  assert (D := Nat.div_mod i chunk ltac:(lia)). assert (Mo := Nat.mod_upper_bound i chunk ltac:(lia)).
  assert (Hk : i / chunk < calls) by (apply Nat.div_lt_upper_bound; nia).
  specialize (H (i / chunk) (2 * (i mod chunk) + 1) Hk ltac:(lia)). unfold loop_reads in H.
  rewrite !(nth_map' _ _ _ 0) in H by (rewrite length_range; lia). rewrite nth_range in H by lia.
  rewrite !chunk_inputs_eq in H. rewrite !(proj2 (nth_chunk_spec _ _ _ _ _ _ _ Mo)) in H. cbn [Nat.add] in H.
  replace (i / chunk * chunk + i mod chunk) with i in H by lia.
  replace (nth i meas f0) with (fadd (fsub (nth i meas f0) f1) f1) by ring. rewrite H. ring.
Qed.

Lemma sinv_1 : shares_inv (P := P) 1 = Ok f1.
Proof.
  unfold shares_inv. rewrite field_init_ok by (pose proof (mod_gt_1 HP); lia). cbn [bind]. f_equal.
  change (fof (Z.of_nat 1) : F) with (f1 : F).
  assert (E : fmul (finv f1) f1 = f1 :> F) by (apply (finv_l Hp), (f1_neq_f0 Hp)).
  rewrite <- E at 2. ring.
Qed.

Lemma ceil_mul len chunk : 0 < chunk -> len <= (len + chunk - 1) / chunk * chunk.
Proof.
  intros H. pose proof (Nat.div_mod (len + chunk - 1) chunk ltac:(lia)). pose proof (Nat.mod_upper_bound (len + chunk - 1) chunk ltac:(lia)). lia.
Qed.

Lemma loop_telling (v : Valid P) chunk calls (rest : list F -> F -> prog P (list F)) : 0 < chunk ->
  GADGETS v = [ParallelSum Mul chunk] -> GADGET_CALLS v = [calls] -> vJOINT_RAND_LEN v = calls -> vMEAS_LEN v <= calls * chunk ->
  (forall meas jr, valid_eval v meas jr 1 =
     let+ _ := plift (check_valid_eval (vMEAS_LEN v) calls meas jr) in
     let+ sinv := plift (shares_inv 1) in
     let+ y := range_check_loop meas jr sinv chunk calls in rest meas y) ->
  (forall meas y o log out log', trun o (rest meas y) log = Some (out, log') -> log' = log) ->
  telling v (loop_reads chunk calls).
Proof.
  intros Hc EG EC EJ EM EV HR. unfold telling. rewrite EG, EC. cbn [nth]. split; [|split].
  - intros o meas jr out log Lm Lj. rewrite EJ in Lj. rewrite EV. unfold check_valid_eval.
    rewrite Lm, Lj, !Nat.eqb_refl. cbn [check bind plift pbind]. rewrite sinv_1. cbn [plift pbind]. intros E.
    apply trun_bind in E. destruct E as (y & log1 & E1 & E2). rewrite (HR _ _ _ _ _ _ E2). exact (trun_loop o meas jr chunk calls y log1 Lj E1).
  - intros meas jr. unfold loop_reads. rewrite map_length, length_range. lia.
  - intros meas meas' jr jr' Lm Lm' H. apply (loop_reads_inj (vMEAS_LEN v) chunk calls meas meas' jr jr'); try assumption.
Qed.

Lemma std_telling v : std_circuit P v -> exists reads, telling v reads.
Proof.
  intros H. destruct H as [Hf | l c v E Hf | l w c v E Hf | l mx c v E Hf | mx v E Hm Hf].
  - eexists. apply telling_Count.
  - unfold Histogram_init in E. destruct (0 <? l)%Z eqn:E1; [|discriminate]. destruct (0 <? c)%Z eqn:E2; [|discriminate].
    cbn [check bind] in E. assert (v = Histogram P (Z.to_nat l) (Z.to_nat c)) as -> by congruence. clear E.
    apply Z.ltb_lt in E2. exists (loop_reads (Z.to_nat c) (Histogram_calls (Z.to_nat l) (Z.to_nat c))).
    apply (loop_telling _ _ _ (fun meas y => Ret [y; fold_left fadd meas (fneg f1)])); try reflexivity; [lia | |  | ].
    + apply ceil_mul. lia.
    + intros meas jr. unfold valid_eval, Histogram. rewrite sinv_1. reflexivity.
    + intros meas y o log out log'. cbn. congruence.
  - unfold MultihotCountVec_init in E. repeat (match type of E with context [check ?b _] => destruct b eqn:?; [|discriminate E]; cbn [check bind] in E end).
    assert (v = MultihotCountVec P (Z.to_nat l) (Z.to_nat w) (Z.to_nat c)) as -> by congruence. clear E.
    match goal with H : (0 <? c)%Z = true |- _ => apply Z.ltb_lt in H end.
    exists (loop_reads (Z.to_nat c) (Multihot_calls (Z.to_nat l) (Z.to_nat w) (Z.to_nat c))).
    apply (loop_telling _ _ _ (fun meas y =>
      let+ wr := plift (decode_range_checked_int (skipn (Z.to_nat l) meas) (Z.of_nat (Z.to_nat w))) in
      Ret [y; fsub (fold_left fadd (firstn (Z.to_nat l) meas) f0) wr])); try reflexivity; [lia | |].
    + apply ceil_mul. lia.
    + intros meas y o log out log'. destruct (decode_range_checked_int _ _); cbn; congruence.
  - unfold SumVec_init in E. repeat (match type of E with context [check ?b _] => destruct b eqn:?; [|discriminate E]; cbn [check bind] in E end).
    assert (v = SumVec P (Z.to_nat l) mx (Z.to_nat c)) as -> by congruence. clear E.
    match goal with H : (0 <? c)%Z = true |- _ => apply Z.ltb_lt in H end.
    exists (loop_reads (Z.to_nat c) (SumVec_calls (Z.to_nat l) (bit_length mx) (Z.to_nat c))).
    apply (loop_telling _ _ _ (fun meas y => Ret [y])); try reflexivity; [lia | |].
    + apply ceil_mul. lia.
    + intros meas y o log out log'. cbn. congruence.
  - unfold Sum_init in E. assert (v = Sum P mx) as ->.
    { repeat (match type of E with context [check ?b _] => destruct b eqn:?; [|discriminate E]; cbn [check bind] in E end).
      destruct (PolyEval_init _ _); [|discriminate E]. cbn [bind] in E. congruence. }
    eexists. apply telling_Sum.
Qed.

Theorem std_reuse v (meas meas' proof proof' jr jr' : list F) Q : std_circuit P v ->
  length meas = vMEAS_LEN v -> length meas' = vMEAS_LEN v -> length proof = proof_len v -> length proof' = proof_len v ->
  length jr = vJOINT_RAND_LEN v -> length jr' = vJOINT_RAND_LEN v ->
  NoDup (map (fun q => test_point v q 0) Q) -> wire_poly_len (nth 0 (GADGET_CALLS v) 0) <= length Q ->
  (forall q, In q Q -> length q = query_rand_len v /\ exists ver,
     bbcggi19_query v meas proof q jr 1 = Ok ver /\ bbcggi19_query v meas' proof' q jr' 1 = Ok ver) ->
  meas = meas'.
Proof.
  intros Hv. destruct (std_telling v Hv) as (reads & T). apply (reuse_determines v (proj1 (std_ok HP v Hv)) reads); [|exact T].
  destruct Hv as [Hf | l c v E Hf | l w c v E Hf | l mx c v E Hf | mx v E Hm Hf]; [reflexivity | | | |];
    unfold Histogram_init, MultihotCountVec_init, SumVec_init, Sum_init in E;
    repeat (match type of E with context [check ?b _] => destruct b; [|discriminate E]; cbn [check bind] in E end);
    try (destruct (PolyEval_init _ _); [|discriminate E]; cbn [bind] in E);
    match type of E with Ok ?x = Ok _ => replace v with x by congruence end; reflexivity.
Qed.
End R.
