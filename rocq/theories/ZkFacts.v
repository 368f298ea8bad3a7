(** Proofs about ZkSpec.v. *)
From Verif Require Import ZkSpec FlpFacts FlpProofs GadgetFacts InterpFacts CircuitFacts CircuitSpec PolyAlg Roots VecFacts
  FieldFacts FieldProofs BaseFacts CommonFacts Field Spec Circuits Flp FlpBBCGGI19 FlpSpec Common.
Open Scope nat_scope.

Section W.
Context {P : NttFieldClass} (HP : NttOk P).
Notation F := (F P).
Let Hp : prime (MODULUS P) := ntt_prime P HP.
Add Ring FringZK : (@F_ring P).

(** The Lagrange basis polynomial of the position of the seed. *)
Definition lag (L : nat) (t : F) : F := peval (ipoly L (f1 :: repeat f0 (2 ^ L - 1))) t.

Lemma lag_neq L t : L <= gen_log P -> npow t (2 ^ L) <> f1 -> lag L t <> f0.
Proof.
  intros HL Ht E. unfold lag in E. set (ys := f1 :: repeat f0 (2 ^ L - 1)) in *.
  assert (Hy : length ys = 2 ^ L).
  { unfold ys. cbn. rewrite repeat_length. pose proof (pow2_pos L). lia. }
  destruct (ipoly_spec HP L ys HL ltac:(lia)) as [H1 H2].
  assert (Z : allzero (ipoly L ys)).
  { apply (poly_roots_zero Hp (t :: map (npow (nth_root P L)) (seq 1 (2 ^ L - 1)))).
    - constructor.
      + intros Hi. apply in_map_iff in Hi as (k & <- & Hk). apply in_seq in Hk. apply Ht.
        apply (in_roots HP L _ HL). unfold roots. apply in_map. apply in_seq. lia.
      + pose proof (NoDup_roots HP L HL) as N. unfold roots in N.
        replace (2 ^ L) with (S (2 ^ L - 1)) in N at 1 by (pose proof (pow2_pos L); lia).
        cbn [seq map] in N. now inversion N.
    - cbn [length]. rewrite map_length, seq_length. pose proof (pow2_pos L). lia.
    - intros x [<-|Hi]; [exact E|]. apply in_map_iff in Hi as (k & <- & Hk). apply in_seq in Hk.
      rewrite H2 by lia. unfold ys. destruct k; [lia|]. cbn. apply nth_repeat. }
  specialize (H2 0 ltac:(pose proof (pow2_pos L); lia)). rewrite (peval_allzero _ _ Z) in H2.
  apply (f1_neq_f0 Hp). symmetry. exact H2.
Qed.

Lemma ipoly_scale L (k : F) (ys : list F) x : L <= gen_log P -> length ys <= 2 ^ L ->
  peval (ipoly L (map (fmul k) ys)) x = fmul k (peval (ipoly L ys) x).
Proof.
  intros HL Hl. destruct (ipoly_spec HP L ys HL Hl) as [H1 H2].
  rewrite <- peval_map_scale. apply (ipoly_unique HP); rewrite ?map_length; try easy.
  intros i Hi. rewrite peval_map_scale, H2 by easy.
  rewrite (nth_indep (map (fmul k) ys) f0 (fmul k f0)) by (rewrite map_length; exact Hi). now rewrite map_nth.
Qed.

(** A wire polynomial is linear in its seed. *)
Lemma wire_seed L (s : F) (rest : list F) t : L <= gen_log P -> length rest = 2 ^ L - 1 ->
  peval (wpoly L (s :: rest)) t = fadd (fmul s (lag L t)) (peval (wpoly L (f0 :: rest)) t).
Proof.
  intros HL Hr. pose proof (pow2_pos L). rewrite !peval_wpoly. unfold lag.
  rewrite <- (ipoly_scale L s (f1 :: _)) by (try easy; cbn; rewrite repeat_length; lia).
  rewrite (ipoly_sum HP L 2 (s :: rest) (fun i => if i =? 0 then map (fmul s) (f1 :: repeat f0 (2 ^ L - 1)) else f0 :: rest) t HL).
  - cbn. ring.
  - cbn. lia.
  - intros i _. destruct i; cbn [Nat.eqb]; [|easy]. rewrite map_length. cbn. rewrite repeat_length. lia.
  - intros i. cbn [fsum Nat.eqb]. destruct i; cbn [map nth].
    + ring.
    + replace (nth i (map (fmul s) (repeat f0 (2 ^ L - 1))) f0) with (f0 : F); [ring|].
      symmetry. clear. revert i. induction (2 ^ L - 1); intros [|i]; cbn; try easy. ring.
Qed.
End W.

(** Lists of blocks. *)
Lemma blocks_inj {A} (a b : nat -> list A) n : (forall i, i < n -> length (a i) = length (b i)) ->
  concat (map a (seq 0 n)) = concat (map b (seq 0 n)) -> forall i, i < n -> a i = b i.
Proof.
  induction n; intros Hl E i Hi; [lia|]. rewrite !concat_seq_S in E.
  assert (L : length (concat (map a (seq 0 n))) = length (concat (map b (seq 0 n)))).
  { rewrite !concat_seq_length. apply nsum_ext. intros; apply Hl; lia. }
  assert (E1 : concat (map a (seq 0 n)) = concat (map b (seq 0 n))).
  { apply (f_equal (firstn (length (concat (map a (seq 0 n)))))) in E.
    rewrite firstn_app_exact in E by reflexivity. rewrite firstn_app_exact in E by congruence. exact E. }
  rewrite E1 in E. apply app_inv_head in E.
  destruct (Nat.eq_dec i n) as [->|]; [exact E|]. apply IHn; try easy; [intros; apply Hl; lia|lia].
Qed.

Lemma blocks_of {A} (f : nat -> nat) n (l : list A) : length l = nsum n f ->
  l = concat (map (fun i => firstn (f i) (skipn (nsum i f) l)) (seq 0 n)).
Proof.
  revert l. induction n; intros l Hl.
  - destruct l; [reflexivity|discriminate].
  - rewrite concat_seq_S. cbn [nsum] in Hl.
    rewrite <- (firstn_skipn (nsum n f) l) at 1. f_equal.
    + rewrite (IHn (firstn (nsum n f) l)) at 1 by (rewrite firstn_length; lia).
      apply concat_ext. intros i Hi.
      assert (nsum i f + f i <= nsum n f) by (change (nsum (S i) f <= nsum n f); apply nsum_le; lia).
      rewrite skipn_firstn_comm, firstn_firstn. f_equal. lia.
    + symmetry. apply firstn_all2. rewrite skipn_length. lia.
Qed.

Section Zk.
Context {P : NttFieldClass} (HP : NttOk P) (v : Valid P) (HV : ValidOk v).
Notation F := (F P).
Notation G := (length (GADGETS v)).
Notation gd i := (nth i (GADGETS v) Mul).
Notation Lw i := (wlog (nth i (GADGET_CALLS v) 0)).
Let Hp : prime (MODULUS P) := ntt_prime P HP.
Add Ring FringZK2 : (@F_ring P).

(** The simulator, block by block. *)
Lemma simulate_gadgets_ok gs (w : list F) : (forall g, In g gs -> exists L, gwf P L g) -> length w = nsum (length gs) (fun i => ARITY (nth i gs Mul)) ->
  simulate_gadgets gs w = Ok (concat (map (fun i =>
    let x := firstn (ARITY (nth i gs Mul)) (skipn (nsum i (fun i => ARITY (nth i gs Mul))) w) in
    x ++ [gval (nth i gs Mul) x]) (seq 0 (length gs)))).
Proof.
  revert w. induction gs as [|g gs IH]; intros w Hg Hl; [reflexivity|].
  cbn [simulate_gadgets length]. cbn [length] in Hl. rewrite nsum_S_l in Hl. cbn [nth] in Hl.
  destruct (Hg g (or_introl eq_refl)) as [L HL].
  rewrite (gadget_eval_gval L) by (try easy; rewrite firstn_length; lia). cbn [bind].
  rewrite IH; [|intros; apply Hg; now right|rewrite skipn_length; lia]. cbn [bind]. f_equal.
  cbn [seq map concat nth nsum skipn]. rewrite <- !app_assoc. f_equal. f_equal.
  rewrite <- seq_shift, map_map. f_equal. apply map_ext_in. intros i Hi. cbv zeta.
  rewrite nsum_S_l. cbn [nth]. rewrite skipn_skipn'. now rewrite (Nat.add_comm (ARITY g)).
Qed.

Lemma simulate_ok (w : list F) : length w = prove_rand_len v ->
  simulate v w = Ok (f0 :: concat (map (fun i => pseeds v w i ++ [gval (gd i) (pseeds v w i)]) (seq 0 G))).
Proof.
  intros Hw. unfold simulate. rewrite simulate_gadgets_ok; [reflexivity| |].
  - intros g Hg. destruct (In_nth _ _ Mul Hg) as (i & Hi & <-). exists (Lw i). now apply (g_wf v HV).
  - rewrite Hw. apply prove_rand_len_eq.
Qed.

(** The wires at the test point. *)
Definition wires (log : list (list (list F))) (query_rand prove_rand : list F) (i : nat) : list F :=
  map (fun c => peval c (tp v query_rand i)) (wpolys v i (pseeds v prove_rand i) (nth i log [])).

Lemma honest_ok meas query_rand joint_rand :
  length meas = vMEAS_LEN v -> length joint_rand = vJOINT_RAND_LEN v -> length query_rand = query_rand_len v ->
  circuit_zero v meas joint_rand -> test_points_ok v query_rand ->
  exists log, extends (GADGETS v) (GADGET_CALLS v) (repeat [] G) log /\
    forall prove_rand, length prove_rand = prove_rand_len v ->
    honest_verifier v meas prove_rand query_rand joint_rand
    = Ok (f0 :: concat (map (fun i => wires log query_rand prove_rand i ++ [gval (gd i) (wires log query_rand prove_rand i)]) (seq 0 G))).
Proof.
  intros Hm Hj Hq (out0 & E0 & Hz) Hg.
  destruct (prove_ok HP v HV meas (repeat f0 (prove_rand_len v)) joint_rand Hm (repeat_length _ _) Hj) as (out & log & E1 & E2 & E3 & E4 & _).
  exists log. split; [easy|]. intros pr Hr. unfold honest_verifier.
  destruct (prove_ok HP v HV meas pr joint_rand Hm Hr Hj) as (out' & log' & E1' & _ & E3' & _ & E5).
  assert (out' = out /\ log' = log) as [-> ->].
  { rewrite E3 in E3'. injection E3' as -> ->. easy. }
  destruct (complete_single HP v HV meas pr joint_rand Hm Hr Hj) as (out2 & log2 & proof & Eo & Ho & Ep & Hl & Hx & Hgood & Ht).
  rewrite Ep. cbn [bind].
  assert (T2 := proj2 (good_run_eq HP v HV meas joint_rand proof out2 log2 Hm Hj Hl Hx Hgood) Ht).
  assert (out2 = out /\ log2 = log) as [-> ->].
  { rewrite E3 in T2. injection T2 as -> ->. easy. }
  destruct (query_ok HP v HV meas proof query_rand joint_rand 1 Hm Hl Hq Hj ltac:(lia) (one_lt_modulus HP))
    as (out3 & log3 & _ & Ht3 & _ & Eq3).
  rewrite Ht in Ht3. injection Ht3 as <- <-. rewrite Eq3, (proj2 (bad_points_iff v query_rand) Hg).
  f_equal. unfold verifier_of. assert (out0 = out) as -> by congruence. rewrite (allzero_red v) by easy. f_equal.
  apply concat_ext. intros i Hi. unfold vblock, wires.
  assert (Hs : qseeds v proof i = pseeds v pr i).
  { rewrite Ep in E5. injection E5 as ->. unfold proof_block.
    refine (proj1 (proj2 (parse_blocks v HV (pseeds v pr) (fun i => firstn (glen (gd i) (Lw i)) (evals (glog (gd i) (Lw i)) (gcomp (gd i) (wpolys v i (pseeds v pr i) (nth i log []))))) i Hi _ _))).
    - intros j Hj'. now apply (pseeds_length v).
    - intros j Hj'. rewrite firstn_length, evals_length. pose proof (glog_bound (gd j) (Lw j)). lia. }
  rewrite (Hgood i _ Hi). rewrite Hs. f_equal. f_equal. symmetry.
  apply (gval_peval (Lw i)).
  - now apply (g_wf v HV).
  - rewrite wpolys_length. now apply (pseeds_length v).
Qed.

Lemma wires_length log q w i : i < G -> length w = prove_rand_len v -> length (wires log q w i) = ARITY (gd i).
Proof. intros Hi Hw. unfold wires. rewrite map_length, wpolys_length. now apply (pseeds_length v). Qed.

(** Each wire value is an affine function of the seed, with a nonzero slope. *)
Lemma nth_wires log q w i j : extends (GADGETS v) (GADGET_CALLS v) (repeat [] G) log -> i < G -> j < ARITY (gd i) -> length w = prove_rand_len v ->
  nth j (wires log q w i) f0 = fadd (fmul (nth j (pseeds v w i) f0) (lag (Lw i) (tp v q i)))
    (peval (wpoly (Lw i) (f0 :: map (fun inp => nth j inp f0) (nth i log []) ++ repeat f0 (2 ^ Lw i - 1 - length (nth i log [])))) (tp v q i)).
Proof.
  intros Hx Hi Hj Hw. destruct (ext_log _ _ _ _ _ Hx Hi) as [Hl _].
  pose proof (g_room v i) as Hroom.
  rewrite <- (wire_seed HP).
  - unfold wires, wpolys, fill. rewrite !map_map. rewrite (pseeds_length v) by easy.
    now rewrite nth_map_seq.
  - now apply (g_L HP v HV).
  - rewrite app_length, map_length, repeat_length. lia.
Qed.

Lemma pseeds_inj (a b : list F) : length a = prove_rand_len v -> length b = prove_rand_len v ->
  (forall i, i < G -> pseeds v a i = pseeds v b i) -> a = b.
Proof.
  intros Ha Hb H. rewrite prove_rand_len_eq in Ha, Hb.
  rewrite (blocks_of (ar v) G a Ha), (blocks_of (ar v) G b Hb). apply concat_ext. intros i Hi. exact (H i Hi).
Qed.

Lemma pseeds_concat (b : nat -> list F) i : i < G -> (forall j, j < G -> length (b j) = ARITY (gd j)) ->
  length (concat (map b (seq 0 G))) = prove_rand_len v /\ pseeds v (concat (map b (seq 0 G))) i = b i.
Proof.
  intros Hi Hb. split.
  - rewrite concat_seq_length, prove_rand_len_eq. now apply nsum_ext.
  - unfold pseeds, seeds_at. destruct (skipn_concat b (ar v) G i Hi Hb) as [r E]. rewrite E. apply firstn_app_exact. now apply Hb.
Qed.

Theorem zk_verifier meas query_rand joint_rand :
  length meas = vMEAS_LEN v -> length joint_rand = vJOINT_RAND_LEN v -> length query_rand = query_rand_len v ->
  circuit_zero v meas joint_rand -> test_points_ok v query_rand ->
  (forall prove_rand, length prove_rand = prove_rand_len v ->
     exists w, length w = prove_rand_len v /\ honest_verifier v meas prove_rand query_rand joint_rand = simulate v w) /\
  (forall w, length w = prove_rand_len v ->
     exists prove_rand, length prove_rand = prove_rand_len v /\
       honest_verifier v meas prove_rand query_rand joint_rand = simulate v w /\
       forall prove_rand', length prove_rand' = prove_rand_len v ->
         honest_verifier v meas prove_rand' query_rand joint_rand = simulate v w -> prove_rand' = prove_rand).
Proof.
  intros Hm Hj Hq Hc Hg. destruct (honest_ok meas query_rand joint_rand Hm Hj Hq Hc Hg) as (log & Hx & HH).
  assert (NZ : forall i, i < G -> lag (Lw i) (tp v query_rand i) <> f0).
  { intros i Hi. apply (lag_neq HP); [now apply (g_L HP v HV)|].
    specialize (Hg i Hi). rewrite wire_poly_len_pow in Hg. unfold tp.
    unfold test_point in Hg. rewrite query_rand_len_eq in Hg. replace (roff v + G - G + i) with (roff v + i) in Hg by lia. exact Hg. }
  split.
  - intros pr Hr. exists (concat (map (wires log query_rand pr) (seq 0 G))).
    assert (Hw : forall j, j < G -> length (wires log query_rand pr j) = ARITY (gd j)) by (intros; now apply wires_length).
    assert (Hlen : length (concat (map (wires log query_rand pr) (seq 0 G))) = prove_rand_len v).
    { rewrite concat_seq_length, prove_rand_len_eq. now apply nsum_ext. }
    split; [easy|]. rewrite (HH pr Hr), simulate_ok by easy. f_equal. f_equal. apply concat_ext. intros i Hi.
    now rewrite (proj2 (pseeds_concat _ i Hi Hw)).
  - intros w Hw.
    set (b := fun i => map (fun j => fmul (fsub (nth j (pseeds v w i) f0)
      (peval (wpoly (Lw i) (f0 :: map (fun inp => nth j inp f0) (nth i log []) ++ repeat f0 (2 ^ Lw i - 1 - length (nth i log [])))) (tp v query_rand i)))
      (finv (lag (Lw i) (tp v query_rand i)))) (seq 0 (ARITY (gd i)))).
    assert (Hb : forall j, j < G -> length (b j) = ARITY (gd j)) by (intros; unfold b; now rewrite map_length, seq_length).
    assert (Hlen : length (concat (map b (seq 0 G))) = prove_rand_len v).
    { rewrite concat_seq_length, prove_rand_len_eq. now apply nsum_ext. }
    exists (concat (map b (seq 0 G))). split; [easy|]. split.
    + rewrite HH, simulate_ok by easy. f_equal. f_equal. apply concat_ext. intros i Hi.
      assert (E : wires log query_rand (concat (map b (seq 0 G))) i = pseeds v w i).
      { apply (vec_eq (ARITY (gd i))); [now apply wires_length|now apply (pseeds_length v)|].
        intros j Hj'. rewrite nth_wires by easy. rewrite (proj2 (pseeds_concat b i Hi Hb)).
        unfold b. rewrite nth_map_seq by easy.
        set (c := peval _ _). set (d := lag _ _).
        pose proof (finv_l Hp d (NZ i Hi)) as FI.
        replace (fadd (fmul (fmul (fsub (nth j (pseeds v w i) f0) c) (finv d)) d) c)
          with (fadd (fmul (fsub (nth j (pseeds v w i) f0) c) (fmul (finv d) d)) c) by ring.
        rewrite FI. ring. }
      now rewrite E.
    + intros pr' Hr' E. apply pseeds_inj; try easy. intros i Hi.
      rewrite (proj2 (pseeds_concat b i Hi Hb)).
      rewrite (HH pr' Hr'), simulate_ok in E by easy. injection E as E.
      apply blocks_inj with (i := i) in E; [|intros k Hk; rewrite !app_length, wires_length, (pseeds_length v) by easy; reflexivity|easy].
      apply app_inj_tail in E as [E _].
      apply (vec_eq (ARITY (gd i))); [now apply (pseeds_length v)|now apply Hb|].
      intros j Hj'. unfold b. rewrite nth_map_seq by easy. rewrite <- E, nth_wires by easy.
      set (c := peval _ _). set (d := lag _ _).
      pose proof (finv_r Hp d (NZ i Hi)) as FI.
      replace (fmul (fsub (fadd (fmul (nth j (pseeds v pr' i) f0) d) c) c) (finv d))
        with (fmul (nth j (pseeds v pr' i) f0) (fmul d (finv d))) by ring.
      rewrite FI. ring.
Qed.

(** ** Views of coalitions *)
Lemma without_combine {A B} j (a : list A) (b : list B) : length a = length b ->
  without j (combine a b) = combine (without j a) (without j b).
Proof.
  unfold without. revert a b. induction j; intros [|x a] [|y b] H; try discriminate; try reflexivity.
  cbn in *. f_equal. apply (IHj a b). lia.
Qed.
Lemma mapM_without {A B} (f : A -> res B) j l r : mapM f l = Ok r -> mapM f (without j l) = Ok (without j r).
Proof.
  unfold without. revert l r. induction j; intros [|x l] r H.
  - now injection H as <-.
  - cbn in H. destruct (f x); [|discriminate]. cbn in H. destruct (mapM f l) eqn:E; [|discriminate]. injection H as <-. exact E.
  - now injection H as <-.
  - cbn in H. destruct (f x) as [y|] eqn:E1; [|discriminate]. cbn in H. destruct (mapM f l) as [ys|] eqn:E; [|discriminate]. injection H as <-.
    change (mapM f (x :: (firstn j l ++ skipn (S j) l)) = Ok (y :: (firstn j ys ++ skipn (S j) ys))).
    cbn [mapM]. rewrite E1. cbn [bind]. rewrite (IHj _ _ E). reflexivity.
Qed.
Lemma without_split {A} j (l : list A) d : j < length l -> l = firstn j (without j l) ++ nth j l d :: skipn j (without j l).
Proof.
  unfold without. revert l. induction j; intros [|x l] H; cbn in *; try lia; [reflexivity|].
  f_equal. apply IHj. lia.
Qed.
Lemma vecs_eq n len j (a b : list (list F)) : vecs n len a -> vecs n len b -> j < n ->
  without j a = without j b -> vsum len a = vsum len b -> a = b.
Proof.
  intros [La Fa] [Lb Fb] Hj E S.
  pose proof (without_split j a [] ltac:(lia)) as A. pose proof (without_split j b [] ltac:(lia)) as B.
  rewrite E in A. rewrite Forall_forall in Fa, Fb.
  assert (S' : vsum len (without j b ++ [nth j a []]) = vsum len (without j b ++ [nth j b []])).
  { rewrite <- !(vsum_insert len j (without j b)), <- A, <- B. exact S. }
  assert (N : nth j a [] = nth j b []).
  { apply (share_sum_unique len _ _ _ (without j b)) with (3 := S'); [apply Fa, nth_In; lia|apply Fb, nth_In; lia|reflexivity]. }
  rewrite N in A. exact (eq_trans A (eq_sym B)).
Qed.

Lemma view_ok k j meas query_rand joint_rand prove_rand meas_rands proof_rands :
  length meas = vMEAS_LEN v -> length joint_rand = vJOINT_RAND_LEN v -> length query_rand = query_rand_len v ->
  test_points_ok v query_rand -> (Z.of_nat (S k) < MODULUS P)%Z ->
  coins_wf v k (prove_rand, meas_rands, proof_rands) ->
  exists proof ms ps vs,
    bbcggi19_prove v meas prove_rand joint_rand = Ok proof /\ length proof = proof_len v /\
    additive_secret_share meas meas_rands = Ok ms /\ additive_secret_share proof proof_rands = Ok ps /\
    vecs (S k) (vMEAS_LEN v) ms /\ vecs (S k) (proof_len v) ps /\ vecs (S k) (verifier_len v) vs /\
    mapM (fun '(m, p) => bbcggi19_query v m p query_rand joint_rand (S k)) (combine ms ps) = Ok vs /\
    honest_verifier v meas prove_rand query_rand joint_rand = Ok (vsum (verifier_len v) vs) /\
    coalition_view v (S k) j meas query_rand joint_rand (prove_rand, meas_rands, proof_rands) = Ok (without j ms, without j ps, vs).
Proof.
  intros Hm Hj Hq Hg Hk (Hr & [Lm Fm] & [Lp Fp]).
  destruct (prove_total HP v HV meas prove_rand joint_rand Hm Hr Hj) as (proof & Ep & Hpl).
  assert (exists ms, additive_secret_share meas meas_rands = Ok ms) as [ms Em].
  { rewrite <- Hm in Fm. rewrite (share_ok meas meas_rands Fm). eauto. }
  assert (exists ps, additive_secret_share proof proof_rands = Ok ps) as [ps Es].
  { rewrite <- Hpl in Fp. rewrite (share_ok proof proof_rands Fp). eauto. }
  destruct (share_vecs meas meas_rands ms ltac:(now rewrite Hm) Em) as [Vm Sm].
  destruct (share_vecs proof proof_rands ps ltac:(now rewrite Hpl) Es) as [Vp Sp].
  rewrite Lm, Hm in *. rewrite Lp, Hpl in *.
  destruct (query_linear_mapM HP v HV (S k) ms ps query_rand joint_rand ltac:(lia) Hk Vm Vp Hq Hj Hg) as (vs & Vv & Eq & E1).
  exists proof, ms, ps, vs. repeat apply conj; try assumption; try (now destruct Vm); try (now destruct Vp); try (now destruct Vv).
  - unfold honest_verifier. rewrite Ep. cbn [bind]. rewrite Sm, Sp in E1. exact E1.
  - unfold coalition_view. rewrite Ep. cbn [bind]. rewrite Em. cbn [bind]. rewrite Es. cbn [bind]. rewrite Eq. reflexivity.
Qed.

Lemma without_length {A} j (l : list A) k : length l = S k -> j <= k -> length (without j l) = k.
Proof. intros Hl Hj. unfold without. rewrite app_length, firstn_length, skipn_length. lia. Qed.
Lemma without_Forall {A} (Q : A -> Prop) j l : Forall Q l -> Forall Q (without j l).
Proof.
  rewrite !Forall_forall. intros H x Hx. apply H. unfold without in Hx. apply in_app_or in Hx as [Hx|Hx].
  - rewrite <- (firstn_skipn j l). apply in_or_app. now left.
  - rewrite <- (firstn_skipn (S j) l). apply in_or_app. now right.
Qed.

Theorem zk_view k j meas meas' query_rand joint_rand :
  length meas = vMEAS_LEN v -> length meas' = vMEAS_LEN v -> length joint_rand = vJOINT_RAND_LEN v ->
  length query_rand = query_rand_len v -> circuit_zero v meas joint_rand -> circuit_zero v meas' joint_rand ->
  test_points_ok v query_rand -> (Z.of_nat (S k) < MODULUS P)%Z -> j <= k ->
  forall c, coins_wf v k c ->
  exists view, coalition_view v (S k) j meas query_rand joint_rand c = Ok view /\
  exists c', coins_wf v k c' /\ coalition_view v (S k) j meas' query_rand joint_rand c' = Ok view /\
    forall c'', coins_wf v k c'' -> coalition_view v (S k) j meas' query_rand joint_rand c'' = Ok view -> c'' = c'.
Proof.
  intros Hm Hm' Hj Hq Hc Hc' Hg Hk Hjk ((pr & mr) & pf) W.
  destruct (view_ok k j meas query_rand joint_rand pr mr pf Hm Hj Hq Hg Hk W)
    as (proof & ms & ps & vs & Ep & Lp & Em & Es & Vm & Vp & Vv & Eq & EH & EV).
  exists (without j ms, without j ps, vs). split; [exact EV|].
  destruct (proj1 (zk_verifier meas query_rand joint_rand Hm Hj Hq Hc Hg) pr (proj1 W)) as (w & Hw & ES).
  destruct (proj2 (zk_verifier meas' query_rand joint_rand Hm' Hj Hq Hc' Hg) w Hw) as (pr' & Hr' & ES' & U').
  rewrite EH in ES. symmetry in ES.
  destruct (prove_total HP v HV meas' pr' joint_rand Hm' Hr' Hj) as (proof' & Ep' & Lp').
  destruct (share_hiding meas' (without j ms) j) as (mr' & Fm' & Lm' & (ms' & Em' & Om') & Um').
  { rewrite Hm'. apply without_Forall, Vm. }
  { rewrite (without_length j ms k); [easy|apply Vm|easy]. }
  destruct (share_hiding proof' (without j ps) j) as (pf' & Fp' & Lpf' & (ps' & Es' & Op') & Up').
  { rewrite Lp'. apply without_Forall, Vp. }
  { rewrite (without_length j ps k); [easy|apply Vp|easy]. }
  rewrite (without_length j ms k (proj1 Vm) Hjk) in Lm', Um'. rewrite (without_length j ps k (proj1 Vp) Hjk) in Lpf', Up'.
  assert (W' : coins_wf v k (pr', mr', pf')).
  { split; [easy|]. rewrite Hm' in Fm'. rewrite Lp' in Fp'. split; split; easy. }
  exists (pr', mr', pf'). split; [exact W'|].
  assert (VU : forall pr2 mr2 pf2, coins_wf v k (pr2, mr2, pf2) ->
    coalition_view v (S k) j meas' query_rand joint_rand (pr2, mr2, pf2) = Ok (without j ms, without j ps, vs) ->
    (pr2, mr2, pf2) = (pr', mr', pf')).
  { intros pr2 mr2 pf2 W2 E2.
    destruct (view_ok k j meas' query_rand joint_rand pr2 mr2 pf2 Hm' Hj Hq Hg Hk W2)
      as (proof2 & ms2 & ps2 & vs2 & Ep2 & Lp2 & Em2 & Es2 & Vm2 & Vp2 & Vv2 & Eq2 & EH2 & EV2).
    rewrite EV2 in E2. injection E2 as O1 O2 ->.
    assert (pr2 = pr') as ->. { apply U'; [apply W2|]. now rewrite EH2. }
    assert (proof2 = proof') as -> by congruence.
    destruct W2 as (_ & [L1 F1] & [L2 F2]). rewrite <- Hm' in F1. rewrite <- Lp' in F2.
    f_equal; [f_equal|].
    - apply Um'; try easy. exists ms2. split; [easy|]. symmetry. exact O1.
    - apply Up'; try easy. exists ps2. split; [easy|]. symmetry. exact O2. }
  split; [|intros ((pr2 & mr2) & pf2); apply VU].
  destruct (view_ok k j meas' query_rand joint_rand pr' mr' pf' Hm' Hj Hq Hg Hk W')
    as (proof2 & ms2 & ps2 & vs2 & Ep2 & Lp2 & Em2 & Es2 & Vm2 & Vp2 & Vv2 & Eq2 & EH2 & EV2).
  rewrite EV2.
  assert (proof2 = proof') as -> by congruence.
  assert (ms2 = ms') as -> by congruence. assert (ps2 = ps') as -> by congruence.
  change (without j ms = without j ms') in Om'. change (without j ps = without j ps') in Op'. rewrite <- Om', <- Op'.
  assert (vs2 = vs) as ->; [|reflexivity].
  apply (vecs_eq (S k) (verifier_len v) j); try easy; [lia| |].
  - pose proof (mapM_without _ j _ _ Eq) as A1. pose proof (mapM_without _ j _ _ Eq2) as A2.
    rewrite without_combine in A1, A2 by (destruct Vm, Vp, Vm2, Vp2; congruence).
    rewrite <- Om', <- Op', A1 in A2. now injection A2.
  - rewrite EH2 in ES'. rewrite ES in ES'. congruence.
Qed.
End Zk.
