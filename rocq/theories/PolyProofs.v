(** Proofs of the properties stated in Props_Poly.v. *)
From Verif Require Export LagrangeFacts FieldProofs.
Open Scope nat_scope.

Lemma interpolant {P : NttFieldClass} (HP : NttOk P) (L : nat) (p : list (F P)) :
  (2 ^ Z.of_nat L <= GEN_ORDER P)%Z -> length p = 2 ^ L ->
  exists c, length c = 2 ^ L /\ evals L c = p /\
    (forall d, length d = 2 ^ L -> evals L d = p -> d = c) /\
    (forall d, length d <= 2 ^ L -> evals L d = p -> forall x, peval d x = peval c x).
Proof.
  intros HL Lp. apply (le_gen_log HP) in HL. exists (inv_coeffs L p).
  rewrite inv_coeffs_length, (evals_inv_coeffs HP) by auto. repeat split; auto.
  - intros d Ld E. apply (evals_inj HP L); rewrite ?inv_coeffs_length; auto; try lia.
    now rewrite (evals_inv_coeffs HP).
  - intros d Ld E. apply (evals_peval_eq HP L); rewrite ?inv_coeffs_length; auto; try lia.
    now rewrite (evals_inv_coeffs HP).
Qed.

Lemma eval_batched {P : NttFieldClass} (HP : NttOk P) (L : nat) (polys : list (list (F P))) (x : F P) :
  (2 ^ Z.of_nat L <= GEN_ORDER P)%Z -> polys <> [] -> (forall p, In p polys -> length p = 2 ^ L) ->
  exists cs, length cs = length polys /\
    (forall i, i < length polys -> length (nth i cs []) = 2 ^ L /\ evals L (nth i cs []) = nth i polys []) /\
    lag_poly_eval_batched polys x = Ok (map (fun c => peval c x) cs) /\
    forall i, i < length polys -> lag_poly_eval (nth i polys []) x = Ok (peval (nth i cs []) x).
Proof.
  intros HL Hne Hlen. apply (le_gen_log HP) in HL.
  exists (map (inv_coeffs L) polys). rewrite map_length.
  assert (G : forall i, i < length polys ->
    length (nth i (map (inv_coeffs L) polys) []) = 2 ^ L /\
    evals L (nth i (map (inv_coeffs L) polys) []) = nth i polys []).
  { intros i Hi. rewrite (nth_map' _ _ _ []) by auto. rewrite inv_coeffs_length. split; auto.
    apply (evals_inv_coeffs HP); auto. apply Hlen, nth_In, Hi. }
  split; auto. split; [exact G|]. split.
  - rewrite <- (lag_poly_eval_batched_spec HP L); auto.
    + rewrite map_map. f_equal. symmetry. rewrite <- (map_id polys) at 2.
      apply map_ext_in. intros p Hp. apply (evals_inv_coeffs HP); auto.
    + destruct polys; [congruence|discriminate].
    + intros c Hc. apply in_map_iff in Hc as (p & <- & _). rewrite inv_coeffs_length. lia.
  - intros i Hi. destruct (G i Hi) as [G1 G2]. rewrite <- G2.
    apply (lag_poly_eval_spec HP); auto. lia.
Qed.

Lemma eval_batched_bad {P : NttFieldClass} (polys : list (list (F P))) (x : F P) :
  polys = [] \/ (exists p q, In p polys /\ In q polys /\ length p <> length q) \/
  (exists p, In p polys /\ forall L, length p <> 2 ^ L) ->
  exists e, lag_poly_eval_batched polys x = Raise e.
Proof.
  intros H. unfold lag_poly_eval_batched. destruct polys as [|p0 polys]; [eauto|].
  set (ps := p0 :: polys) in *.
  destruct (forallb (fun p => length p =? length p0) ps) eqn:E; [|simpl; eauto].
  rewrite forallb_forall in E. cbn [check bind].
  destruct H as [H|[(p & q & Hp & Hq & H)|(p & Hp & H)]]; [discriminate| |].
  - apply E in Hp, Hq. apply Nat.eqb_eq in Hp, Hq. lia.
  - apply E in Hp. apply Nat.eqb_eq in Hp.
    destruct (assert_power_of_2_Raise (Z.of_nat (length p0))) as [e He].
    + intros k Ek. rewrite <- pow2_nat_Z in Ek. apply Nat2Z.inj in Ek. apply (H k). lia.
    + exists e. now rewrite He.
Qed.

Lemma extend_correct {P : NttFieldClass} (HP : NttOk P) (L m : nat) (c : list (F P)) :
  (2 ^ Z.of_nat L <= GEN_ORDER P)%Z -> m <= 2 ^ L -> length c <= m ->
  exists r, extend_values_to_power_of_2 (firstn m (evals L c)) (2 ^ L) = Ok r /\
    length r = 2 ^ L /\ firstn m r = firstn m (evals L c) /\
    forall i, i < 2 ^ L -> nth i r f0 = peval c (npow (nth_root P L) i).
Proof.
  intros HL Hm Lc. apply (le_gen_log HP) in HL. exists (evals L c).
  rewrite (extend_spec HP L c _ m) by auto. rewrite evals_length. repeat split; auto.
  intros. now apply nth_evals.
Qed.

(** Any [m <= 2^L] values are the first values of a polynomial of degree < m. *)
Lemma values_interpolant {P : NttFieldClass} (HP : NttOk P) (L : nat) (p : list (F P)) :
  L <= gen_log P -> length p <= 2 ^ L ->
  exists c, length c <= length p /\ p = firstn (length p) (evals L c).
Proof.
  intros HL Lp. set (m := length p).
  destruct (Nat.eq_dec m 0) as [E0|E0].
  { exists []. split; [simpl; lia|]. destruct p; [reflexivity|discriminate]. }
  set (xs := map (npow (nth_root P L)) (seq 0 m)).
  destruct (poly_interp_spec (ntt_prime P HP) xs p) as (c & _ & Lc & Hc).
  - unfold xs. now rewrite map_length, seq_length.
  - intros E. apply (f_equal (@length _)) in E. unfold xs in E. rewrite map_length, seq_length in E.
    simpl in E. lia.
  - unfold xs. apply NoDup_map_inj; [|apply seq_NoDup]. intros a b Ha Hb. apply in_seq in Ha, Hb.
    apply (root_inj HP); lia.
  - assert (Lx : length xs = m) by (unfold xs; now rewrite map_length, seq_length).
    exists c. split; [lia|]. apply (nth_ext' f0).
    + rewrite firstn_length, evals_length. lia.
    + intros i Hi. fold m in Hi. rewrite nth_firstn', (proj2 (Nat.ltb_lt _ _) Hi), nth_evals by lia.
      rewrite <- (Hc i) by lia. f_equal. unfold xs. rewrite (nth_map' _ _ _ 0) by now rewrite seq_length.
      now rewrite seq_nth.
Qed.

Lemma extend_any {P : NttFieldClass} (HP : NttOk P) (L : nat) (p : list (F P)) :
  (2 ^ Z.of_nat L <= GEN_ORDER P)%Z -> length p <= 2 ^ L ->
  exists c r, length c <= length p /\ extend_values_to_power_of_2 p (2 ^ L) = Ok r /\
    length r = 2 ^ L /\ firstn (length p) r = p /\
    forall i, i < 2 ^ L -> nth i r f0 = peval c (npow (nth_root P L) i).
Proof.
  intros HL Lp. pose proof (le_gen_log HP _ HL) as HL'.
  destruct (values_interpolant HP L p HL' Lp) as (c & Lc & Hc).
  destruct (extend_correct HP L (length p) c HL Lp Lc) as (r & Hr & Lr & Hf & Hn).
  rewrite <- Hc in Hr, Hf. exists c, r. auto.
Qed.

Lemma double_mul {P : NttFieldClass} (HP : NttOk P) (L : nat) (c d : list (F P)) :
  (2 ^ Z.of_nat (S L) <= GEN_ORDER P)%Z -> length c <= 2 ^ L -> length d <= 2 ^ L ->
  double_evaluations (evals L c) = Ok (evals (S L) c) /\
  exists r, lag_poly_mul (evals L c) (evals L d) = Ok r /\ length r = 2 ^ S L /\
    forall i, i < 2 ^ S L ->
      nth i r f0 = fmul (peval c (npow (nth_root P (S L)) i)) (peval d (npow (nth_root P (S L)) i)).
Proof.
  intros HL Lc Ld. apply (le_gen_log HP) in HL. split; [now apply double_evaluations_spec|].
  exists (evals (S L) (pmul c d)). rewrite (lag_poly_mul_spec HP) by auto. rewrite evals_length.
  repeat split; auto. intros i Hi. rewrite nth_evals by auto. apply peval_pmul.
Qed.

Lemma poly_arith {P : FieldClass} (p q : list (F P)) :
  (exists z, p = poly_strip p ++ z /\ allzero z) /\
  (poly_strip p = [] \/ last (poly_strip p) f0 <> f0) /\
  (exists s, poly_add p q = Ok s /\ (s = [] \/ last s f0 <> f0) /\
     forall x, peval s x = fadd (peval p x) (peval q x)) /\
  (exists m, poly_mul p q = Ok m /\ (m = [] \/ last m f0 <> f0) /\
     length m <= length p + length q - 1 /\
     forall x, peval m x = fmul (peval p x) (peval q x)) /\
  (forall x, p = [] \/ ~ allzero p -> poly_eval p x = Ok (peval p x)).
Proof.
  split; [|split; [|split; [|split]]].
  - destruct (poly_strip_spec p) as [(z & Hz) _]. exists (repeat f0 z). split; auto.
    apply allzero_repeat.
  - apply poly_strip_spec.
  - destruct (poly_add_spec p q) as (s & Hs & S1 & _ & S2). eauto.
  - destruct (poly_mul_spec p q) as (s & Hs & S1 & S3 & S2). eauto 6.
  - intros x. apply poly_eval_spec.
Qed.

Lemma interp_correct {P : FieldClass} (xs ys : list (F P)) :
  prime (MODULUS P) -> length xs = length ys -> xs <> [] -> NoDup xs ->
  exists c, poly_interp xs ys = Ok c /\ length c <= length xs /\
    (forall i, i < length xs -> peval c (nth i xs f0) = nth i ys f0) /\
    (forall d, length d <= length xs ->
       (forall i, i < length xs -> peval d (nth i xs f0) = nth i ys f0) ->
       forall x, peval d x = peval c x).
Proof.
  intros Hp L Hne Hnd. destruct (poly_interp_spec Hp xs ys L Hne Hnd) as (c & Hc & Lc & Hi).
  exists c. repeat split; auto. intros d Ld Hd.
  apply (poly_agree Hp d c xs (length xs)); auto.
  intros x Hx. apply (In_nth _ _ f0) in Hx as (i & Hil & <-). now rewrite Hd, Hi.
Qed.

Lemma interp_bad {P : FieldClass} (xs ys : list (F P)) :
  (length xs <> length ys -> poly_interp xs ys = Raise AssertionError) /\
  (length xs = length ys -> xs = [] -> poly_interp xs ys = Raise IndexError).
Proof.
  split.
  - intros H. unfold poly_interp. apply Nat.eqb_neq in H. now rewrite H.
  - intros H ->. destruct ys; [reflexivity|discriminate].
Qed.
