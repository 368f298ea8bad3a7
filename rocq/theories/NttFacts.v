(** Correctness of [NttField.ntt] and [NttField.inv_ntt] (field.py:138-177). *)
From Verif Require Export Roots.
Open Scope nat_scope.

Section Ntt.
Context {P : NttFieldClass}.
Notation root := (nth_root P).
Add Ring FringN : (@F_ring P).

Definition shift_root (set_s : bool) (k : nat) : F P := if set_s then root (k + 1) else f1.

Lemma block_inj y B B' i i' : i < y -> i' < y -> B * y + i = B' * y + i' -> B = B' /\ i = i'.
Proof. intros. apply (Nat.div_mod_unique y B B' i i'); auto. lia. Qed.

(** One iteration of the outer loop of ntt. *)
Lemma ntt_stage_spec set_s L k (q : list (F P)) :
  1 <= k <= L -> length q = 2 ^ L ->
  exists q', ntt_stage set_s (2 ^ L) q k = Ok q' /\ length q' = 2 ^ L /\
    forall j i, j < 2 ^ (L - k) -> i < 2 ^ (k - 1) ->
      let y := 2 ^ (k - 1) in
      let w := fmul (shift_root set_s k) (npow (root k) i) in
      let u := nth ((2 * j) * y + i) q f0 in
      let t := nth ((2 * j + 1) * y + i) q f0 in
      nth ((2 * j) * y + i) q' f0 = fadd u (fmul w t) /\
      nth ((2 * j + 1) * y + i) q' f0 = fsub u (fmul w t).
Proof.
  intros Hk Hq. unfold ntt_stage. fold (shift_root set_s k).
  rewrite Nat.shiftl_1_l. rewrite Nat.shiftr_div_pow2.
  assert (Hdiv : 2 ^ L / 2 ^ k = 2 ^ (L - k)).
  { rewrite <- Nat.pow_sub_r by lia. reflexivity. }
  rewrite Hdiv. set (y := 2 ^ (k - 1)).
  assert (Hy : 0 < y) by (pose proof (Nat.pow_nonzero 2 (k - 1)); lia).
  assert (H2y : 2 ^ k = 2 * y).
  { unfold y. rewrite <- Nat.pow_succ_r'. f_equal. lia. }
  set (J := 2 ^ (L - k)).
  assert (Hn : 2 ^ L = J * (2 * y)).
  { unfold J. rewrite <- H2y, <- Nat.pow_add_r. f_equal. lia. }
  set (s := shift_root set_s k).
  set (w := fun i => fmul s (npow (root k) i)).
  set (old := fun B i => nth (B * y + i) q f0).
  set (new := fun B i => let u := old (2 * Nat.div2 B) i in
                         let v := fmul (w i) (old (2 * Nat.div2 B + 1) i) in
                         if Nat.even B then fadd u v else fsub u v).
  set (Inv := fun (i j : nat) (r : list (F P)) => length r = 2 ^ L /\
    forall B i', B < 2 * J -> i' < y ->
      nth (B * y + i') r f0 =
      if (i' <? i) || ((i' =? i) && (Nat.div2 B <? j)) then new B i' else old B i').
  set (body := fun '(q, w) i => _).
  assert (LOOP : exists r, for_range 0 y (q, s) body = Ok r /\
             (Inv y 0 (fst r) /\ snd r = w y)).
  { apply (for_range_inv (fun i r => Inv i 0 (fst r) /\ snd r = w i)); [lia| |].
    - cbn [fst snd]. split.
      + split; auto. intros B i' HB Hi'.
        rewrite (proj2 (Nat.ltb_ge i' 0)), (proj2 (Nat.ltb_ge (Nat.div2 B) 0)), andb_false_r by lia.
        reflexivity.
      + unfold w. rewrite npow_0. ring.
    - intros i [r wi] Hi [HI Hwi]. cbn [fst snd] in HI, Hwi |- *. subst wi.
      unfold body.
      assert (IN : exists r', for_range 0 J r (fun q j => butterfly (w i) q (Nat.shiftl j k + i) y) = Ok r'
                 /\ Inv i J r').
      { apply (for_range_inv (Inv i)); [lia|auto|].
        intros j r0 Hj [Hl HB]. unfold butterfly.
        rewrite Nat.shiftl_mul_pow2, H2y.
        replace (j * (2 * y) + i) with ((2 * j) * y + i) by lia.
        replace ((2 * j) * y + i + y) with ((2 * j + 1) * y + i) by lia.
        assert (B1 : (2 * j) * y + i < length r0) by (rewrite Hl, Hn; nia).
        assert (B2 : (2 * j + 1) * y + i < length r0) by (rewrite Hl, Hn; nia).
        rewrite (get_nth r0 _ f0) by auto. cbn [bind].
        rewrite (get_nth r0 _ f0) by auto. cbn [bind].
        rewrite set_lt by auto. cbn [bind].
        rewrite set_lt by (rewrite length_upd; auto).
        eexists. split; [reflexivity|]. split; [now rewrite !length_upd|].
        intros B i' HB' Hi'.
        assert (D0 : Nat.div2 (2 * j) = j) by apply Nat.div2_double.
        assert (D1 : Nat.div2 (2 * j + 1) = j) by (rewrite Nat.add_1_r; apply Nat.div2_succ_double).
        pose proof (HB (2 * j) i ltac:(lia) ltac:(lia)) as E0.
        pose proof (HB (2 * j + 1) i ltac:(lia) ltac:(lia)) as E1.
        rewrite D0 in E0. rewrite D1 in E1.
        rewrite Nat.ltb_irrefl, Nat.eqb_refl, Nat.ltb_irrefl in E0, E1. cbn [orb andb] in E0, E1.
        rewrite E0, E1.
        rewrite nth_upd by (rewrite length_upd; auto).
        destruct (Nat.eqb_spec ((2 * j + 1) * y + i) (B * y + i')) as [Eq|Nq].
        { apply block_inj in Eq as [<- <-]; auto; try lia.
          rewrite Nat.ltb_irrefl, Nat.eqb_refl, D1. rewrite (proj2 (Nat.ltb_lt j (S j))) by lia.
          cbn [orb andb]. unfold new. rewrite D1.
          replace (Nat.even (2 * j + 1)) with false; [reflexivity|].
          symmetry. rewrite Nat.even_add, Nat.even_mul. reflexivity. }
        rewrite nth_upd by auto.
        destruct (Nat.eqb_spec ((2 * j) * y + i) (B * y + i')) as [Eq|Nq2].
        { apply block_inj in Eq as [<- <-]; auto; try lia.
          rewrite Nat.ltb_irrefl, Nat.eqb_refl, D0. rewrite (proj2 (Nat.ltb_lt j (S j))) by lia.
          cbn [orb andb]. unfold new. rewrite D0.
          replace (Nat.even (2 * j)) with true; [reflexivity|].
          symmetry. rewrite Nat.even_mul. reflexivity. }
        rewrite HB by auto.
        destruct (Nat.ltb_spec i' i); cbn [orb]; auto.
        destruct (Nat.eqb_spec i' i) as [->|]; cbn [andb]; auto.
        destruct (Nat.ltb_spec (Nat.div2 B) j).
        - rewrite (proj2 (Nat.ltb_lt _ _)) by lia. auto.
        - rewrite (proj2 (Nat.ltb_ge _ _)); auto.
          assert (Nat.div2 B <> j); [|lia]. intros E.
          pose proof (Nat.div2_odd B) as EB. rewrite E in EB.
          destruct (Nat.odd B); simpl Nat.b2n in EB.
          + apply Nq. rewrite EB. lia.
          + apply Nq2. rewrite EB. lia. }
      destruct IN as (r' & Hr' & [Hl' HI']). rewrite Hr'. cbn [bind].
      eexists. split; [reflexivity|]. cbn [fst snd]. split.
      + split; auto. intros B i' HB Hi'. rewrite HI' by auto.
        assert (Nat.div2 B < J).
        { pose proof (Nat.div2_odd B). destruct (Nat.odd B); simpl Nat.b2n in *; lia. }
        destruct (Nat.ltb_spec i' i).
        * rewrite (proj2 (Nat.ltb_lt i' (S i))) by lia. auto.
        * destruct (Nat.eqb_spec i' i) as [->|].
          -- rewrite (proj2 (Nat.ltb_lt i (S i))) by lia.
             rewrite (proj2 (Nat.ltb_lt _ J)) by lia. auto.
          -- rewrite (proj2 (Nat.ltb_ge i' (S i))) by lia. cbn [orb andb].
             rewrite andb_false_r. auto.
      + unfold w. rewrite npow_S. ring. }
  destruct LOOP as ([r wr] & -> & [Hl HI] & _). cbn [fst snd bind] in *.
  exists r. split; auto. split; auto.
  intros j i Hj Hi. fold y. fold s.
  pose proof (HI (2 * j) i ltac:(lia) Hi) as E0.
  pose proof (HI (2 * j + 1) i ltac:(lia) Hi) as E1.
  rewrite (proj2 (Nat.ltb_lt i y) Hi) in E0, E1. cbn [orb] in E0, E1.
  unfold new in E0, E1.
  rewrite Nat.div2_double in E0. rewrite Nat.add_1_r, Nat.div2_succ_double in E1.
  replace (Nat.even (2 * j)) with true in E0 by (symmetry; rewrite Nat.even_mul; reflexivity).
  replace (Nat.even (S (2 * j))) with false in E1
    by (symmetry; rewrite Nat.even_succ, Nat.odd_mul; reflexivity).
  rewrite <- Nat.add_1_r in E1. split; [exact E0 | exact E1].
Qed.

Lemma fsum_double n (f : nat -> F P) :
  fsum (2 * n) f = fadd (fsum n (fun m => f (2 * m))) (fsum n (fun m => f (2 * m + 1))).
Proof.
  induction n; [simpl; ring|].
  replace (2 * S n) with (S (S (2 * n))) by lia. cbn [fsum]. rewrite IHn.
  replace (2 * n + 1) with (S (2 * n)) by lia. ring.
Qed.

Context (HP : NttOk P).

Lemma ntt_spec (p : list (F P)) (L : nat) (set_s : bool) :
  (if set_s then S L else L) <= gen_log P ->
  ntt p (2 ^ L) set_s =
  Ok (map (fun i => peval (firstn (2 ^ L) p)
                      (fmul (shift_root set_s L) (npow (root L) i))) (seq 0 (2 ^ L))).
Proof.
  intros HL. unfold ntt. rewrite assert_power_of_2_nat. cbn [bind].
  assert (Hpos : 2 ^ L <> 0) by now apply Nat.pow_nonzero.
  assert (HL' : L <= gen_log P) by (destruct set_s; lia).
  set (a := fun i : nat => nth i p f0).
  set (br := fun k j : nat => Z.to_nat (brev k (Z.of_nat j))).
  assert (Hbr : forall k j, br k j < 2 ^ k).
  { intros k j. unfold br. pose proof (brev_range k (Z.of_nat j)). rewrite <- pow2_nat_Z in H. lia. }
  (* bit-reversed copy *)
  assert (Hq : mapM (fun i => let* j := bitrev L (Z.of_nat i) in get (ntt_arg p (2 ^ L)) (Z.to_nat j))
                (range 0 (2 ^ L)) = Ok (map (fun i => a (br L i)) (range 0 (2 ^ L)))).
  { apply mapM_map. intros i Hi. apply in_range in Hi.
    rewrite bitrev_brev by (rewrite <- pow2_nat_Z; lia). cbn [bind].
    fold (br L i). specialize (Hbr L i). unfold ntt_arg.
    rewrite (get_nth _ _ f0) by (rewrite app_length, repeat_length; lia).
    f_equal. unfold a. destruct (Nat.lt_ge_cases (br L i) (length p)).
    - now rewrite app_nth1.
    - rewrite app_nth2, nth_repeat', (nth_overflow p) by lia. now destruct (_ <? _). }
  rewrite Hq. cbn [bind]. clear Hq.
  set (S_ := fun (k j : nat) (z : F P) => fsum (2 ^ k) (fun m : nat => fmul (a (br (L - k) j + 2 ^ (L - k) * m)) (npow z m))).
  set (zz := fun k i : nat => fmul (shift_root set_s k) (npow (root k) i)).
  set (Inv := fun k (q : list (F P)) => length q = 2 ^ L /\
    forall j i, j < 2 ^ (L - (k - 1)) -> i < 2 ^ (k - 1) ->
      nth (j * 2 ^ (k - 1) + i) q f0 = S_ (k - 1) j (zz (k - 1) i)).
  assert (LOOP : exists q, for_range 1 (L + 1) (map (fun i => a (br L i)) (range 0 (2 ^ L)))
                   (ntt_stage set_s (2 ^ L)) = Ok q /\ Inv (L + 1) q).
  { apply (for_range_inv Inv); [lia| |].
    - split; [now rewrite map_length, length_range, Nat.sub_0_r|].
      intros j i Hj Hi. simpl in Hi. assert (i = 0) as -> by lia.
      replace (j * 2 ^ (1 - 1) + 0) with j by (simpl; lia).
      simpl (1 - 1) in *. rewrite Nat.sub_0_r in Hj.
      rewrite (nth_map' _ _ _ 0) by (rewrite length_range; lia).
      rewrite nth_range by lia. unfold S_. cbn [Nat.pow fsum]. rewrite Nat.sub_0_r, npow_0.
      replace (br L j + 2 ^ L * 0) with (br L j) by lia. simpl. ring.
    - intros k q Hk [Hl HI].
      destruct (ntt_stage_spec set_s L k q) as (q' & Hq' & Hl' & HB); [lia|auto|].
      exists q'. split; auto. split; auto.
      replace (S k - 1) with k by lia. intros J i HJ Hi.
      set (y := 2 ^ (k - 1)) in *.
      assert (H2y : 2 ^ k = 2 * y).
      { unfold y. rewrite <- Nat.pow_succ_r'. f_equal. lia. }
      assert (HLk : 2 ^ (L - (k - 1)) = 2 * 2 ^ (L - k)).
      { replace (L - (k - 1)) with (S (L - k)) by lia. reflexivity. }
      assert (Hyp : 0 < y) by (pose proof (Nat.pow_nonzero 2 (k - 1)); lia).
      (* the common part: index i0 < y *)
      assert (CORE : forall i0, i0 < y ->
        nth ((2 * J) * y + i0) q f0 = fsum y (fun m => fmul (a (br (L - k) J + 2 ^ (L - k) * (2 * m))) (npow (zz (k - 1) i0) m)) /\
        nth ((2 * J + 1) * y + i0) q f0 = fsum y (fun m => fmul (a (br (L - k) J + 2 ^ (L - k) * (2 * m + 1))) (npow (zz (k - 1) i0) m))).
      { intros i0 Hi0.
        rewrite (HI (2 * J) i0) by lia. rewrite (HI (2 * J + 1) i0) by lia.
        unfold S_. fold y. replace (L - (k - 1)) with (S (L - k)) by lia.
        assert (br (S (L - k)) (2 * J) = br (L - k) J) as ->.
        { unfold br. rewrite Nat2Z.inj_mul. change (Z.of_nat 2) with 2%Z. now rewrite brev_double. }
        assert (br (S (L - k)) (2 * J + 1) = br (L - k) J + 2 ^ (L - k)) as ->.
        { unfold br. rewrite Nat2Z.inj_add, Nat2Z.inj_mul. change (Z.of_nat 2) with 2%Z.
          change (Z.of_nat 1) with 1%Z. rewrite brev_double1.
          rewrite <- pow2_nat_Z. pose proof (brev_range (L - k) (Z.of_nat J)). lia. }
        rewrite Nat.pow_succ_r'.
        split; apply fsum_ext; intros m Hm; f_equal; f_equal; lia. }
      (* z_k^2 = z_{k-1} *)
      assert (SQ : forall i0, fmul (zz k i0) (zz k i0) = zz (k - 1) i0).
      { intros i0. unfold zz. replace k with (S (k - 1)) at 1 2 3 4 by lia.
        assert (Hs : fmul (shift_root set_s (S (k - 1))) (shift_root set_s (S (k - 1))) = shift_root set_s (k - 1)).
        { unfold shift_root. destruct set_s; [|ring].
          replace (S (k - 1) + 1) with (S (k - 1 + 1)) by lia. apply root_sq; auto. lia. }
        rewrite <- Hs. rewrite <- (root_sq HP (k - 1)) by lia. rewrite npow_mul_base. ring. }
      assert (PW : forall (z : F P) (m : nat), npow (fmul z z) m = npow z (2 * m) :> F P).
      { intros. rewrite npow_mul_base, <- npow_add. f_equal. lia. }
      assert (SUM : forall i0 (z : F P), fmul z z = zz (k - 1) i0 -> i0 < y ->
         fadd (nth ((2 * J) * y + i0) q f0) (fmul z (nth ((2 * J + 1) * y + i0) q f0)) = S_ k J z).
      { intros i0 z Hz Hi0. destruct (CORE i0 Hi0) as [-> ->].
        unfold S_. rewrite H2y, fsum_double. rewrite <- fsum_scale. f_equal.
        - apply fsum_ext. intros m Hm. now rewrite <- Hz, PW.
        - apply fsum_ext. intros m Hm. rewrite <- Hz, PW, Nat.add_1_r, npow_S. ring. }
      destruct (Nat.lt_ge_cases i y) as [Hiy|Hiy].
      + destruct (HB J i HJ Hiy) as [E _]. fold y in E.
        rewrite H2y. replace (J * (2 * y) + i) with (2 * J * y + i) by lia. rewrite E.
        apply SUM; auto.
      + set (i0 := i - y). assert (Hi0 : i0 < y) by lia.
        destruct (HB J i0 HJ Hi0) as [_ E]. fold y in E.
        rewrite H2y. replace (J * (2 * y) + i) with ((2 * J + 1) * y + i0) by lia. rewrite E.
        assert (NEG : zz k i = fneg (zz k i0)).
        { unfold zz. replace i with (i0 + y) by lia. rewrite npow_add. unfold y.
          rewrite root_half by (auto; lia). ring. }
        rewrite <- (SUM i0 (zz k i)); auto.
        * rewrite NEG. unfold zz. ring.
        * rewrite NEG, <- SQ. ring. }
  destruct LOOP as (q & -> & Hl & HI). f_equal.
  replace (L + 1 - 1) with L in HI by lia. rewrite Nat.sub_diag in HI.
  apply (nth_ext' f0).
  { now rewrite map_length, seq_length. }
  intros i Hi. rewrite Hl in Hi. specialize (HI 0 i ltac:(simpl; lia) Hi).
  rewrite Nat.mul_0_l, Nat.add_0_l in HI. rewrite HI.
  rewrite (nth_map' _ _ _ 0) by now rewrite seq_length. rewrite seq_nth by auto.
  rewrite Nat.add_0_l. unfold S_. rewrite Nat.sub_diag.
  rewrite (peval_fsum_ge _ _ (2 ^ L)) by (rewrite firstn_length; lia).
  apply fsum_ext. intros m Hm. unfold br. cbn [brev Z.to_nat Nat.pow].
  rewrite Nat.mul_1_l, Nat.add_0_l. rewrite nth_firstn', (proj2 (Nat.ltb_lt _ _) Hm). reflexivity.
Qed.

(** Values at the [2^L]-th roots of unity. *)

Lemma evals_length L (c : list (F P)) : length (evals L c) = 2 ^ L.
Proof. unfold evals. now rewrite map_length, seq_length. Qed.
Lemma nth_evals L (c : list (F P)) i d : i < 2 ^ L -> nth i (evals L c) d = peval c (npow (root L) i).
Proof.
  intros H. unfold evals. rewrite (nth_map' _ _ _ 0) by now rewrite seq_length. now rewrite seq_nth.
Qed.

Lemma ntt_evals (p : list (F P)) L : L <= gen_log P -> length p <= 2 ^ L ->
  ntt p (2 ^ L) false = Ok (evals L p).
Proof.
  intros HL Hp. rewrite ntt_spec by auto. f_equal. apply map_ext. intros i.
  rewrite firstn_all2 by auto. unfold shift_root. f_equal. ring.
Qed.

(** inv_ntt: the coefficient list [inv_coeffs L v]. *)
Definition inv_coeffs (L : nat) (v : list (F P)) : list (F P) :=
  map (fun i => fmul (peval v (npow (root L) ((2 ^ L - i) mod 2 ^ L)))
                     (finv (fof (Z.of_nat (2 ^ L))))) (seq 0 (2 ^ L)).

Lemma inv_ntt_ok (v : list (F P)) L : L <= gen_log P ->
  inv_ntt v (2 ^ L) = Ok (inv_coeffs L (firstn (2 ^ L) v)).
Proof.
  intros HL. unfold inv_ntt. rewrite ntt_spec by auto. cbn [bind].
  assert (Hpos : 2 ^ L <> 0) by now apply Nat.pow_nonzero.
  set (f := fun i => peval (firstn (2 ^ L) v) (fmul (shift_root false L) (npow (root L) i))).
  assert (Hs : seq 0 (2 ^ L) = 0 :: seq 1 (2 ^ L - 1)).
  { replace (2 ^ L) with (S (2 ^ L - 1)) at 1 by lia. reflexivity. }
  rewrite Hs at 1. cbn [map].
  pose proof (pow2_lt_modulus HP L HL) as Hlt.
  rewrite field_init_ok by lia. cbn [bind]. f_equal.
  apply (nth_ext' f0).
  - rewrite map_length, rev_length, app_length, map_length, seq_length. unfold inv_coeffs.
    rewrite map_length, seq_length. simpl. lia.
  - intros i Hi.
    rewrite map_length, rev_length, app_length, map_length, seq_length in Hi. simpl in Hi.
    rewrite (nth_map' _ _ _ f0).
    2:{ rewrite rev_length, app_length, map_length, seq_length. simpl. lia. }
    unfold inv_coeffs. rewrite (nth_map' _ _ _ 0) by (rewrite seq_length; lia).
    rewrite seq_nth by lia. rewrite Nat.add_0_l. f_equal.
    rewrite rev_unit. destruct i as [|i].
    + cbn [nth]. rewrite Nat.sub_0_r, Nat.mod_same by lia. unfold f. f_equal. unfold shift_root. ring.
    + cbn [nth]. rewrite rev_nth by (rewrite map_length, seq_length; lia).
      rewrite map_length, seq_length.
      rewrite (nth_map' _ _ _ 0) by (rewrite seq_length; lia). rewrite seq_nth by lia.
      unfold f. f_equal. unfold shift_root. rewrite Nat.mod_small by lia.
      replace (1 + (2 ^ L - 1 - S i)) with (2 ^ L - S i) by lia. ring.
Qed.

Lemma inv_coeffs_length L v : length (inv_coeffs L v) = 2 ^ L.
Proof. unfold inv_coeffs. now rewrite map_length, seq_length. Qed.

Lemma root_exp_mod L i : L <= gen_log P -> npow (root L) (i mod 2 ^ L) = npow (root L) i.
Proof.
  intros HL. rewrite (Nat.div_mod i (2 ^ L)) at 2 by now apply Nat.pow_nonzero.
  rewrite npow_add, npow_mul, root_pow, npow_1_l by auto. ring.
Qed.

(** The interpolant takes the given values. *)
Lemma evals_inv_coeffs L v : L <= gen_log P -> length v = 2 ^ L -> evals L (inv_coeffs L v) = v.
Proof.
  intros HL Hv. assert (Hpos : 2 ^ L <> 0) by now apply Nat.pow_nonzero.
  set (Hp := ntt_prime P HP).
  apply (nth_ext' f0); [now rewrite evals_length|].
  intros k Hk. rewrite evals_length in Hk. rewrite nth_evals by auto.
  set (w := root L). set (ni := finv (fof (Z.of_nat (2 ^ L)) : F P)).
  unfold inv_coeffs. rewrite peval_map_seq.
  transitivity (fsum (2 ^ L) (fun j => fmul (fmul (nth j v f0) ni)
     (fsum (2 ^ L) (fun i => npow (npow w ((2 ^ L - j + k) mod 2 ^ L)) i)))).
  - transitivity (fsum (2 ^ L) (fun i => fsum (2 ^ L) (fun j =>
       fmul (fmul (nth j v f0) ni) (npow (npow w ((2 ^ L - j + k) mod 2 ^ L)) i)))).
    + apply fsum_ext. intros i Hi. rewrite (peval_fsum_ge v _ (2 ^ L)) by lia.
      fold w ni.
      transitivity (fmul (fsum (2 ^ L) (fun j => fmul (nth j v f0) (npow (npow w ((2 ^ L - i) mod 2 ^ L)) j))) (fmul ni (npow (npow w k) i))); [ring|].
      rewrite <- fsum_scale_r. apply fsum_ext. intros j Hj.
      transitivity (fmul (fmul (nth j v f0) ni) (fmul (npow (npow w ((2 ^ L - i) mod 2 ^ L)) j) (npow (npow w k) i))); [ring|].
      f_equal. unfold w. rewrite !root_exp_mod by auto. rewrite <- !npow_mul, <- npow_add.
      (* both exponents are congruent modulo 2^L *)
      rewrite <- (root_exp_mod L) by auto. symmetry. rewrite <- (root_exp_mod L) by auto. f_equal.
      apply Nat2Z.inj. rewrite !Nat2Z.inj_mod.
      rewrite !Nat2Z.inj_add, !Nat2Z.inj_mul, !Nat2Z.inj_add, !Nat2Z.inj_sub by lia.
      set (N := Z.of_nat (2 ^ L)).
      assert (N <> 0)%Z by lia.
      replace ((N - Z.of_nat j + Z.of_nat k) * Z.of_nat i)%Z
        with ((Z.of_nat k - Z.of_nat j) * Z.of_nat i + Z.of_nat i * N)%Z by ring.
      replace ((N - Z.of_nat i) * Z.of_nat j + Z.of_nat k * Z.of_nat i)%Z
        with ((Z.of_nat k - Z.of_nat j) * Z.of_nat i + Z.of_nat j * N)%Z by ring.
      now rewrite !Z.mod_add by auto.
    + rewrite fsum_exchange. apply fsum_ext. intros j Hj. now rewrite fsum_scale.
  - rewrite (fsum_single _ k); auto.
    + replace (2 ^ L - k + k) with (2 ^ L) by lia. rewrite Nat.mod_same by auto.
      rewrite npow_0.
      rewrite (fsum_ext _ _ (fun _ => f1)) by (intros; apply npow_1_l).
      rewrite fsum_const.
      pose proof (finv_l Hp (fof (Z.of_nat (2 ^ L))) (fof_pow2_neq_0 HP L HL)) as E.
      fold ni in E. transitivity (fmul (nth k v f0) (fmul ni (fof (Z.of_nat (2 ^ L))))); [ring|].
      rewrite E. ring.
    + intros j Hj Hjk. unfold w.
      rewrite (root_sum_zero HP L ((2 ^ L - j + k) mod 2 ^ L)); auto; [ring|].
      pose proof (Nat.mod_upper_bound (2 ^ L - j + k) (2 ^ L) Hpos).
      assert ((2 ^ L - j + k) mod 2 ^ L <> 0); [|lia].
      intros E. apply Nat.mod_divides in E as [q Hq]; auto.
      destruct q as [|[|q]]; nia.
Qed.

Lemma evals_inj L (c d : list (F P)) : L <= gen_log P -> length c = length d -> length c <= 2 ^ L ->
  evals L c = evals L d -> c = d.
Proof.
  intros HL Hl Hn E. apply (poly_agree_coeffs (ntt_prime P HP) c d (roots L)); auto.
  - now apply NoDup_roots.
  - now rewrite roots_length.
  - intros x Hx. apply in_map_iff in Hx as (i & <- & Hi). apply in_seq in Hi.
    apply (f_equal (fun l => nth i l f0)) in E. rewrite !nth_evals in E by lia. exact E.
Qed.

Lemma evals_peval_eq L (c d : list (F P)) : L <= gen_log P -> length c <= 2 ^ L -> length d <= 2 ^ L ->
  evals L c = evals L d -> forall x, peval c x = peval d x.
Proof.
  intros HL Hc Hd E. apply (poly_agree (ntt_prime P HP) c d (roots L) (2 ^ L)); auto.
  - now apply NoDup_roots.
  - now rewrite roots_length.
  - intros x Hx. apply in_map_iff in Hx as (i & <- & Hi). apply in_seq in Hi.
    apply (f_equal (fun l => nth i l f0)) in E. rewrite !nth_evals in E by lia. exact E.
Qed.

Lemma inv_coeffs_evals L (c : list (F P)) : L <= gen_log P -> length c = 2 ^ L -> inv_coeffs L (evals L c) = c.
Proof.
  intros HL Hl. apply (evals_inj L); auto.
  - now rewrite inv_coeffs_length.
  - rewrite inv_coeffs_length; lia.
  - now apply evals_inv_coeffs, evals_length.
Qed.

Lemma inv_ntt_evals L (v : list (F P)) : L <= gen_log P -> length v = 2 ^ L ->
  exists c, inv_ntt v (2 ^ L) = Ok c /\ length c = 2 ^ L /\ evals L c = v.
Proof.
  intros HL Hv. exists (inv_coeffs L v). rewrite inv_ntt_ok by auto.
  rewrite firstn_all2 by lia. split; auto. split; [apply inv_coeffs_length|].
  now apply evals_inv_coeffs.
Qed.
End Ntt.
