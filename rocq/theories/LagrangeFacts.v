(** Correctness of class [Lagrange] (Poly.v). *)
From Verif Require Export PolyFacts NttFacts.
Open Scope nat_scope.

Section Lagrange.
Context {P : NttFieldClass} (HP : NttOk P).
Notation root := (nth_root P).
Let Hp : prime (MODULUS P) := ntt_prime P HP.
Add Ring FringL : (@F_ring P).

Lemma evals_ext L (c d : list (F P)) : (forall x, peval c x = peval d x) -> evals L c = evals L d.
Proof. intros H. unfold evals. apply map_ext. intros; apply H. Qed.

(** ** double_evaluations *)
Lemma interleave_nth {A} (e o : list A) d : length e = length o ->
  length (concat (map (fun '(a, b) => [a; b]) (combine e o))) = 2 * length e /\
  forall i, i < length e ->
    nth (2 * i) (concat (map (fun '(a, b) => [a; b]) (combine e o))) d = nth i e d /\
    nth (2 * i + 1) (concat (map (fun '(a, b) => [a; b]) (combine e o))) d = nth i o d.
Proof.
  revert o. induction e as [|a e IH]; intros [|b o] H; try discriminate.
  - simpl. split; auto. intros; lia.
  - injection H as H. destruct (IH o H) as [IH1 IH2]. cbn [combine map concat app length].
    split; [rewrite IH1; lia|]. intros [|i] Hi; [auto|].
    replace (2 * S i) with (S (S (2 * i))) by lia.
    replace (S (S (2 * i)) + 1) with (S (S (2 * i + 1))) by lia. cbn [nth]. apply IH2. lia.
Qed.

Lemma double_evaluations_spec L (c : list (F P)) : S L <= gen_log P -> length c <= 2 ^ L ->
  double_evaluations (evals L c) = Ok (evals (S L) c).
Proof.
  intros HL Lc. unfold double_evaluations. rewrite evals_length, assert_power_of_2_nat. cbn [bind].
  destruct (inv_ntt_evals HP L (evals L c)) as (m & -> & Lm & Em); [lia|apply evals_length|].
  cbn [bind]. rewrite (ntt_spec HP) by exact HL. cbn [bind]. f_equal.
  rewrite firstn_all2 by lia.
  assert (Ev : forall x, peval m x = peval c x) by (apply (evals_peval_eq HP L); auto; lia).
  set (odd := map _ (seq 0 (2 ^ L))).
  assert (Lo : length odd = 2 ^ L) by (unfold odd; now rewrite map_length, seq_length).
  destruct (interleave_nth (evals L c) odd f0) as [Hl Hn]; [rewrite evals_length; lia|].
  rewrite evals_length in *.
  assert (Hr : forall i, npow (root L) i = npow (root (S L)) (2 * i)).
  { intros i. rewrite npow_mul. f_equal. rewrite <- (root_sq HP) by lia.
    rewrite npow_S, npow_1. ring. }
  apply (nth_ext' f0).
  - rewrite Hl, evals_length. cbn [Nat.pow]. lia.
  - rewrite Hl. intros i Hi. rewrite nth_evals by (cbn [Nat.pow]; lia).
    pose proof (Nat.div_mod i 2 ltac:(lia)) as Hd.
    assert (Hi2 : i / 2 < 2 ^ L) by (apply Nat.div_lt_upper_bound; lia).
    destruct (Hn (i / 2) Hi2) as [Hn1 Hn2].
    pose proof (Nat.mod_upper_bound i 2 ltac:(lia)).
    destruct (Nat.eq_dec (i mod 2) 0) as [E0|E1].
    + rewrite E0, Nat.add_0_r in Hd. rewrite Hd at 1. rewrite Hn1, nth_evals by auto.
      rewrite Hr, <- Hd. reflexivity.
    + assert (i mod 2 = 1) as E by lia. rewrite E in Hd. rewrite Hd at 1. rewrite Hn2.
      unfold odd. rewrite (nth_map' _ _ _ 0) by now rewrite seq_length.
      rewrite seq_nth, Nat.add_0_l by auto. rewrite Ev. f_equal.
      unfold shift_root. rewrite Nat.add_1_r, Hr, <- npow_S. f_equal. lia.
Qed.

Lemma evals_map_mul L (c d : list (F P)) :
  zip_with fmul (evals L c) (evals L d) = evals L (pmul c d).
Proof.
  unfold evals. generalize (seq 0 (2 ^ L)) as l. induction l; simpl; auto.
  rewrite IHl. f_equal. now rewrite peval_pmul.
Qed.

Lemma lag_poly_mul_spec L (c d : list (F P)) : S L <= gen_log P ->
  length c <= 2 ^ L -> length d <= 2 ^ L ->
  lag_poly_mul (evals L c) (evals L d) = Ok (evals (S L) (pmul c d)).
Proof.
  intros HL Lc Ld. unfold lag_poly_mul. rewrite !evals_length, assert_power_of_2_nat, Nat.eqb_refl.
  cbn [bind check]. rewrite !double_evaluations_spec by auto. cbn [bind]. f_equal.
  apply evals_map_mul.
Qed.

(** ** poly_eval_batched *)
Lemma root_prod L r : L <= gen_log P -> r < 2 ^ L ->
  lprod (map (fun j => fsub (npow (root L) r) (npow (root L) j)) (others (2 ^ L) r)) =
  fmul (fof (Z.of_nat (2 ^ L))) (npow (npow (root L) r) (2 ^ L - 1)).
Proof.
  intros HL Hr. set (n := 2 ^ L) in *. set (w := root L). set (a := npow w r).
  assert (Hn : 0 < n) by lia.
  set (A := mon (map (npow w) (others n r))).
  set (B := map (fun i => npow a (n - 1 - i)) (seq 0 n)).
  assert (HA : forall x, peval A x = lprod (map (fun j => fsub x (npow w j)) (others n r))).
  { intros x. unfold A. now rewrite peval_mon, map_map. }
  assert (LA : length A = n).
  { unfold A. rewrite mon_length, map_length, others_length by auto. lia. }
  assert (LB : length B = n) by (unfold B; now rewrite map_length, seq_length).
  assert (HB : forall x, peval B x = fsum n (fun i => fmul (npow a (n - 1 - i)) (npow x i))).
  { intros x. apply peval_map_seq. }
  assert (HBt : forall x m, fmul (fsub x a) (fsum (S m) (fun i => fmul (npow a (m - i)) (npow x i))) =
                          fsub (npow x (S m)) (npow a (S m))).
  { intros x m. induction m.
    - simpl. rewrite !npow_0, !npow_1. ring.
    - assert (G : fsum (S m) (fun i => fmul (npow a (S m - i)) (npow x i)) =
                  fmul a (fsum (S m) (fun i => fmul (npow a (m - i)) (npow x i)))).
      { rewrite <- fsum_scale. apply fsum_ext. intros i Hi.
        replace (S m - i) with (S (m - i)) by lia. rewrite npow_S. ring. }
      remember (S m) as k. cbn [fsum]. rewrite G, Nat.sub_diag, npow_0.
      transitivity (fadd (fmul a (fmul (fsub x a) (fsum k (fun i => fmul (npow a (m - i)) (npow x i)))))
                         (fmul (fsub x a) (npow x k))); [ring|].
      rewrite IHm, !(npow_S _ k). ring. }
  assert (E : peval A a = peval B a).
  { apply (top_agree Hp A B (n - 1) (map (npow w) (others n r))); try lia.
    - unfold A at 1. replace (n - 1) with (length (map (npow w) (others n r)))
        by (rewrite map_length, others_length; lia).
      rewrite mon_monic. rewrite map_length, others_length by auto.
      unfold B. rewrite (nth_map' _ _ _ 0) by (rewrite seq_length; lia).
      rewrite seq_nth by lia. replace (n - 1 - (0 + (n - 1))) with 0 by lia. reflexivity.
    - apply NoDup_map_inj; [|apply NoDup_others]. intros i j Hi Hj.
      apply in_others in Hi, Hj. apply (root_inj HP); tauto.
    - rewrite map_length. now apply others_length.
    - intros x Hx. rewrite HA, HB. apply in_map_iff in Hx as (j & <- & Hj).
      rewrite lprod_zero.
      2: { apply in_map_iff. exists j. split; auto. ring. }
      pose proof (HBt (npow w j) (n - 1)) as H. replace (S (n - 1)) with n in H by lia.
      apply in_others in Hj.
      assert (Hne : fsub (npow w j) a <> f0).
      { intros E. apply fsub_eq_0 in E. unfold a in E. apply (root_inj HP) in E; lia. }
      assert (Hz : fmul (fsub (npow w j) a) (fsum n (fun i => fmul (npow a (n - 1 - i)) (npow (npow w j) i))) = f0).
      { rewrite H. unfold a. rewrite (npow_comm w j), (npow_comm w r). unfold w, n.
        rewrite (root_pow HP), !npow_1_l by auto. ring. }
      symmetry. apply (fmul_0 Hp) in Hz as [Hz|Hz]; [contradiction|exact Hz]. }
  rewrite HA, HB in E. fold w a. rewrite E. rewrite <- (fsum_const n).
  apply fsum_ext. intros i Hi. rewrite <- npow_add. f_equal. lia.
Qed.

Lemma lprod_opp_sub (l : list nat) (f : nat -> F P) x :
  lprod (map (fun j => fsub (f j) x) l) =
  fmul (npow (fof (-1)) (length l)) (lprod (map (fun j => fsub x (f j)) l)).
Proof.
  induction l; cbn [map length lprod fold_right].
  - rewrite npow_0. ring.
  - fold (lprod (map (fun j => fsub (f j) x) l)). fold (lprod (map (fun j => fsub x (f j)) l)).
    rewrite IHl, npow_S. change (-1)%Z with (- (1))%Z. rewrite fof_opp. fold (f1 : F P). ring.
Qed.

Lemma npow_neg1_sq n : fmul (npow (fof (-1)) n) (npow (fof (-1)) n) = f1 :> F P.
Proof.
  rewrite <- npow_mul_base. replace (fmul (fof (-1)) (fof (-1))) with (f1 : F P).
  - apply npow_1_l.
  - rewrite <- fof_mul. reflexivity.
Qed.

Lemma lagrange_roots L (c : list (F P)) x : L <= gen_log P -> length c <= 2 ^ L ->
  peval c x =
  fmul (fsum (2 ^ L) (fun m => fmul (fmul (peval c (npow (root L) m)) (npow (root L) m))
          (lprod (map (fun j => fsub (npow (root L) j) x) (others (2 ^ L) m)))))
       (fmul (npow (fof (-1)) (2 ^ L - 1)) (finv (fof (Z.of_nat (2 ^ L))))).
Proof.
  intros HL Lc. set (n := 2 ^ L) in *. set (w := root L).
  assert (Hn : 0 < n) by (unfold n; pose proof (Nat.pow_nonzero 2 L); lia).
  rewrite (lagrange_interp Hp n (npow w)); auto.
  2: { intros i j Hi Hj. now apply (root_inj HP). }
  rewrite <- fsum_scale_r. apply fsum_ext. intros m Hm.
  unfold w, n at 3. rewrite root_prod by auto. fold n w.
  rewrite lprod_opp_sub, others_length by auto.
  assert (Hnz : fof (Z.of_nat n) <> f0 :> F P) by now apply (fof_pow2_neq_0 HP).
  assert (Hwz : npow (npow w m) (n - 1) <> f0).
  { apply (fpow_neq_0 Hp), (fpow_neq_0 Hp), (root_neq_0 HP). auto. }
  rewrite (finv_mul Hp) by auto.
  assert (Hi : finv (npow (npow w m) (n - 1)) = npow w m).
  { symmetry. apply (finv_unique Hp). rewrite <- npow_S.
    replace (S (n - 1)) with n by lia. rewrite npow_comm. unfold w, n. rewrite (root_pow HP) by auto.
    apply npow_1_l. }
  rewrite Hi. set (L1 := lprod _). set (iv := finv _). set (s := npow (fof (-1)) (n - 1)).
  transitivity (fmul (fmul s s) (fmul (fmul (peval c (npow w m)) (npow w m)) (fmul L1 iv))); [|ring].
  unfold s. rewrite npow_neg1_sq. ring.
Qed.

Lemma batched_inner (polys : list (list (F P))) u i d t :
  length u = length polys -> (forall p, In p polys -> i < length p) ->
  foldM (fun u '(j, p) =>
    let* uj := get u j in
    let uj := fmul uj d in
    if i <? length p then
      let* pi := get p i in
      set u j (fadd uj (fmul t pi))
    else set u j uj) (enumerate polys) u =
  Ok (zip_with (fun uj p => fadd (fmul uj d) (fmul t (nth i p f0))) u polys).
Proof.
  intros Lu Hi.
  destruct (foldM_inv (0, []) (fun J (r : list (F P)) => length r = length u /\
      forall k, nth k r f0 = if k <? J then nth k (zip_with (fun uj p => fadd (fmul uj d) (fmul t (nth i p f0))) u polys) f0
                             else nth k u f0)
    (enumerate polys) u (fun u '(j, p) =>
    let* uj := get u j in
    let uj := fmul uj d in
    if i <? length p then
      let* pi := get p i in
      set u j (fadd uj (fmul t pi))
    else set u j uj)) as (r & -> & Lr & Hr).
  - split; auto.
  - rewrite enumerate_length. intros j r Hj [Lr Hr]. rewrite nth_enumerate by auto.
    rewrite (get_nth r j f0) by lia. cbn [bind].
    pose proof (Hi (nth j polys []) (nth_In _ _ Hj)) as Hip. apply Nat.ltb_lt in Hip as Hip'. rewrite Hip'.
    rewrite (get_nth (nth j polys []) i f0) by auto. cbn [bind]. rewrite set_lt by lia.
    eexists. split; [reflexivity|]. rewrite length_upd. split; auto.
    intros k. rewrite nth_upd by lia. rewrite !Hr.
    destruct (Nat.eqb_spec j k), (Nat.ltb_spec k (S j)), (Nat.ltb_spec k j); subst; try lia; auto.
    rewrite (nth_zip_with _ _ _ _ f0 []) by lia. destruct (Nat.ltb_spec k k); [lia|reflexivity].
  - rewrite enumerate_length in Hr. f_equal. apply (nth_ext' f0).
    + rewrite zip_with_length. lia.
    + intros k Hk. rewrite Hr. destruct (Nat.ltb_spec k (length polys)); auto. lia.
Qed.

Definition batched_sum L (x : F P) (i : nat) (p : list (F P)) : F P :=
  fsum (S i) (fun m => fmul (fmul (nth m p f0) (npow (root L) m))
    (lprod (map (fun j => fsub (npow (root L) j) x) (others (S i) m)))).

Lemma lag_poly_eval_batched_spec L (cs : list (list (F P))) x :
  L <= gen_log P -> cs <> [] -> (forall c, In c cs -> length c <= 2 ^ L) ->
  lag_poly_eval_batched (map (evals L) cs) x = Ok (map (fun c => peval c x) cs).
Proof.
  intros HL Hne Lc.
  assert (Hn : 0 < 2 ^ L) by (pose proof (Nat.pow_nonzero 2 L); lia).
  unfold lag_poly_eval_batched. destruct cs as [|c0 cs0] eqn:Ecs; [congruence|].
  cbn [map]. change (evals L c0 :: map (evals L) cs0) with (map (evals L) (c0 :: cs0)).
  change (peval c0 x :: map (fun c => peval c x) cs0) with (map (fun c => peval c x) (c0 :: cs0)).
  rewrite <- Ecs in *.
  assert (Hchk : forallb (fun p => length p =? length (evals L c0)) (map (evals L) cs) = true).
  { apply forallb_forall. intros p Hip. apply in_map_iff in Hip as (c & <- & _).
    rewrite !evals_length. apply Nat.eqb_refl. }
  rewrite Hchk. cbn [check bind]. rewrite !evals_length, assert_power_of_2_nat, nth_root_powers_ok.
  cbn [bind].
  rewrite (mapM_map _ (fun p => nth 0 p f0)).
  2: { intros p Hip. apply in_map_iff in Hip as (c & <- & _). apply get_nth. now rewrite evals_length. }
  cbn [bind]. rewrite (get_nth (roots L) 0 f0) by now rewrite roots_length. cbn [bind].
  rewrite nth_roots by auto.
  set (polys := map (evals L) cs). set (w := root L). set (n := 2 ^ L) in *.
  destruct (for_range_inv (fun i '(k, u, d) =>
      k = lprod (map (fun j => fsub (npow w j) x) (seq 0 (i - 1))) /\
      u = map (batched_sum L x (i - 1)) polys /\ d = fsub (npow w (i - 1)) x)
      1 n (f1, map (fun p => nth 0 p f0) polys, fsub (npow w 0) x) (batched_step (roots L) polys x))
    as ([[k u] d] & -> & Hk & Hu & Hd).
  - lia.
  - split; auto. split; auto. apply map_ext. intros p. unfold batched_sum. simpl.
    rewrite npow_0. ring.
  - intros i [[k u] d] Hi (Hk & Hu & Hd). unfold batched_step.
    rewrite (get_nth (roots L) i f0) by (rewrite roots_length; fold n; lia). cbn [bind].
    rewrite nth_roots by (fold n; lia).
    rewrite batched_inner.
    2: { rewrite Hu. apply map_length. }
    2: { unfold polys. intros p Hip. apply in_map_iff in Hip as (c & <- & _).
         rewrite evals_length. fold n. lia. }
    cbn [bind]. eexists. split; [reflexivity|]. cbn beta iota.
    assert (Hk' : fmul k d = lprod (map (fun j => fsub (npow w j) x) (seq 0 i))).
    { replace i with (S (i - 1)) at 1 by lia. rewrite seq_S, map_app, lprod_app, <- Hk. simpl. rewrite Hd. ring. }
    replace (S i - 1) with i by lia. split; auto. split; auto.
    rewrite Hk', Hu. fold w.
    assert (G : forall l : list (list (F P)), zip_with (fun uj p =>
        fadd (fmul uj (fsub (npow w i) x))
             (fmul (fmul (lprod (map (fun j => fsub (npow w j) x) (seq 0 i))) (npow w i)) (nth i p f0)))
        (map (batched_sum L x (i - 1)) l) l = map (batched_sum L x i) l).
    { induction l as [|p l IH]; simpl; auto. rewrite IH. f_equal.
      unfold batched_sum. replace (S (i - 1)) with i by lia.
      cbn [fsum]. rewrite others_S, Nat.eqb_refl, app_nil_r, others_ge by lia. fold w.
      rewrite <- fsum_scale_r.
      assert (G2 : fsum i (fun m => fmul (fmul (nth m p f0) (npow w m))
                     (lprod (map (fun j => fsub (npow w j) x) (others (S i) m)))) =
                   fsum i (fun m => fmul (fmul (fmul (nth m p f0) (npow w m))
                     (lprod (map (fun j => fsub (npow w j) x) (others i m)))) (fsub (npow w i) x))).
      { apply fsum_ext. intros m Hm. rewrite others_S.
        destruct (Nat.eqb_spec m i); [lia|]. rewrite map_app, lprod_app. simpl. ring. }
      rewrite G2. f_equal. ring. }
    exact (G polys).
  - cbn [bind]. rewrite field_init_ok.
    2: { pose proof (pow2_lt_modulus HP L HL). fold n in H. lia. }
    cbn [bind]. f_equal. rewrite Hu. unfold polys. rewrite !map_map. apply map_ext_in.
    intros c Hc. rewrite (lagrange_roots L c x) by auto. unfold batched_sum.
    replace (S (n - 1)) with n by lia. fold n w.
    f_equal.
    apply fsum_ext. intros m Hm. now rewrite nth_evals by auto.
Qed.

Lemma lag_poly_eval_spec L (c : list (F P)) x :
  L <= gen_log P -> length c <= 2 ^ L -> lag_poly_eval (evals L c) x = Ok (peval c x).
Proof.
  intros HL Lc. unfold lag_poly_eval.
  pose proof (lag_poly_eval_batched_spec L [c] x HL) as H. cbn [map] in H. rewrite H.
  - reflexivity.
  - discriminate.
  - intros c' [<-|[]]. auto.
Qed.

(** ** extend_values_to_power_of_2 *)
Lemma extend_spec L (c p : list (F P)) m : L <= gen_log P -> m <= 2 ^ L -> length c <= m ->
  p = firstn m (evals L c) ->
  extend_values_to_power_of_2 p (2 ^ L) = Ok (evals L c).
Proof.
  intros HL Hm Lc Hpe. set (n := 2 ^ L) in *. set (w := root L). set (X := npow w).
  assert (Lp : length p = m). { rewrite Hpe, firstn_length, evals_length. fold n. lia. }
  assert (Xinj : forall i j, i < n -> j < n -> X i = X j -> i = j).
  { intros i j Hi Hj. now apply (root_inj HP). }
  assert (HX : forall i, i < n -> get (roots L) i = Ok (X i)).
  { intros i Hi. rewrite (get_nth _ _ f0) by (rewrite roots_length; auto). now rewrite nth_roots. }
  unfold extend_values_to_power_of_2. unfold n at 1. rewrite assert_power_of_2_nat. cbn [bind].
  rewrite Lp, (proj2 (Nat.leb_le _ _) Hm). cbn [check bind].
  unfold n at 1. rewrite nth_root_powers_ok. cbn [bind].
  set (W k i := lprod (map (fun j => fsub (X i) (X j)) (others k i))).
  assert (HW : forall k i, k <= n -> i < k -> W k i <> f0).
  { intros k i Hk Hi. apply (lprod_neq_0 Hp). intros y Hy. apply in_map_iff in Hy as (j & <- & Hj).
    apply in_others in Hj. intros E. apply fsub_eq_0 in E. apply Xinj in E; lia. }
  match goal with |- context [for_range 0 m (repeat f0 n) ?b] =>
    destruct (for_range_inv (fun I w' => length w' = n /\ forall i, i < I -> nth i w' f0 = W m i)
      0 m (repeat f0 n) b) as (w0 & -> & Lw0 & Hw0) end.
  - lia.
  - split; [apply repeat_length|]. intros; lia.
  - intros i w' Hi [Lw' Hw']. rewrite HX by lia. cbn [bind].
    rewrite (mapM_map _ (fun j => fsub (X i) (X j))).
    2: { intros j Hj. apply filter_In in Hj as [Hj _]. apply in_range in Hj.
         rewrite HX by lia. reflexivity. }
    cbn [bind]. rewrite set_lt by lia. eexists. split; [reflexivity|]. rewrite length_upd. split; auto.
    intros j Hj. rewrite nth_upd by lia. rewrite fprod_lprod.
    destruct (Nat.eqb_spec i j) as [->|Hne]; [|apply Hw'; lia].
    unfold W, others, range. now rewrite Nat.sub_0_r.
  - cbn [bind].
    match goal with |- context [for_range m n (p, w0) ?b] =>
      destruct (for_range_inv (fun k '(p', w') =>
          p' = firstn k (evals L c) /\ length w' = n /\ forall i, i < k -> nth i w' f0 = W k i)
        m n (p, w0) b) as ([p' w'] & -> & Hp' & _) end.
    + auto.
    + auto.
    + intros k [p' w'] Hk (Hp' & Lw' & Hw'). unfold extend_step.
      assert (Lp' : length p' = k). { rewrite Hp', firstn_length, evals_length. fold n. lia. }
      match goal with |- context [for_range 0 k w' ?b] =>
        destruct (for_range_inv (fun I w'' => length w'' = n /\
            forall i, i < k -> nth i w'' f0 = if i <? I then W (S k) i else W k i)
          0 k w' b) as (w1 & -> & Lw1 & Hw1) end.
      * lia.
      * split; auto.
      * intros i w'' Hi [Lw'' Hw'']. rewrite (get_nth w'' i f0) by lia. cbn [bind].
        rewrite !HX by lia. cbn [bind]. rewrite set_lt by lia. eexists. split; [reflexivity|].
        rewrite length_upd. split; auto. intros j Hj. rewrite nth_upd by lia. rewrite !Hw'' by lia.
        destruct (Nat.eqb_spec i j), (Nat.ltb_spec j (S i)), (Nat.ltb_spec i i), (Nat.ltb_spec j i);
          subst; try lia; auto.
        unfold W. rewrite others_S. destruct (Nat.eqb_spec j k); [lia|].
        rewrite map_app, lprod_app. simpl. ring.
      * assert (Hw1' : forall i, i < k -> nth i w1 f0 = W (S k) i).
        { intros i Hi. rewrite Hw1 by auto. now rewrite (proj2 (Nat.ltb_lt _ _) Hi). }
        cbn [bind].
        match goal with |- context [foldM ?b (enumerate p') (f0, f1)] =>
          destruct (foldM_inv (0, f0) (fun I '(yn, yd) => yd <> f0 /\
              yn = fmul yd (fsum I (fun i => fmul (nth i p' f0) (finv (W (S k) i)))))
            (enumerate p') (f0, f1) b) as ([yn yd] & -> & Hyd & Hyn) end.
        { split; [apply (f1_neq_f0 Hp)|]. simpl. ring. }
        { rewrite enumerate_length. intros i [yn yd] Hi [Hyd Hyn]. rewrite nth_enumerate by auto.
          rewrite (get_nth w1 i f0) by lia. cbn [bind]. rewrite Hw1' by lia.
          assert (Hnz : W (S k) i <> f0) by (apply HW; lia).
          eexists. split; [reflexivity|]. cbn beta iota. split; [now apply (fmul_neq_0 Hp)|].
          cbn [fsum]. rewrite Hyn. pose proof (finv_r Hp _ Hnz) as E.
          transitivity (fadd (fmul yd (fmul (fsum i (fun i0 => fmul (nth i0 p' f0) (finv (W (S k) i0)))) (W (S k) i)))
             (fmul (fmul yd (nth i p' f0)) (fmul (W (S k) i) (finv (W (S k) i))))); [rewrite E; ring|ring]. }
        rewrite enumerate_length in Hyn. cbn [bind]. rewrite HX by lia. cbn [bind].
        rewrite (mapM_map _ (fun j => fsub (X k) (X j))).
        2: { intros j Hj. apply in_range in Hj. rewrite HX by lia. reflexivity. }
        cbn [bind]. rewrite set_lt by lia. cbn [bind].
        eexists. split; [reflexivity|]. cbn beta iota. rewrite fprod_lprod.
        assert (Ewk : lprod (map (fun j => fsub (X k) (X j)) (range 0 k)) = W (S k) k).
        { unfold W. rewrite others_S, Nat.eqb_refl, app_nil_r, others_ge by lia.
          unfold range. now rewrite Nat.sub_0_r. }
        rewrite Ewk.
        assert (Ev : fmul (fmul (fneg (W (S k) k)) yn) (finv yd) = peval c (X k)).
        { rewrite Hyn, Lp'.
          transitivity (fmul (fmul (fneg (W (S k) k))
              (fsum k (fun i => fmul (nth i p' f0) (finv (W (S k) i))))) (fmul yd (finv yd))); [ring|].
          rewrite (finv_r Hp) by auto.
          rewrite (lagrange_interp Hp k X c (X k)).
          2: { intros i j Hi Hj. apply Xinj; lia. }
          2: lia.
          transitivity (fmul (fneg (W (S k) k)) (fsum k (fun i => fmul (nth i p' f0) (finv (W (S k) i))))); [ring|].
          rewrite <- fsum_scale. apply fsum_ext. intros i Hi.
          rewrite Hp', nth_firstn', (proj2 (Nat.ltb_lt _ _) Hi), nth_evals by (fold n; lia).
          change (npow (root L) i) with (X i).
          assert (E1 : W (S k) i = fmul (W k i) (fsub (X i) (X k))).
          { unfold W. rewrite others_S. destruct (Nat.eqb_spec i k); [lia|].
            rewrite map_app, lprod_app. simpl. ring. }
          assert (E2 : W (S k) k = fmul (fsub (X k) (X i)) (lprod (map (fun j => fsub (X k) (X j)) (others k i)))).
          { unfold W. rewrite others_S, Nat.eqb_refl, app_nil_r, others_ge by lia.
            now rewrite (lprod_others k i). }
          assert (Hne : fsub (X i) (X k) <> f0).
          { intros E. apply fsub_eq_0 in E. apply Xinj in E; lia. }
          rewrite E1, E2, (finv_mul Hp) by (auto; apply HW; lia).
          fold (W k i). set (R := lprod _). pose proof (finv_r Hp _ Hne) as E.
          transitivity (fmul (peval c (X i)) (fmul (fmul R (finv (W k i))) (fmul (fsub (X i) (X k)) (finv (fsub (X i) (X k)))))).
          - ring.
          - rewrite E. ring. }
        rewrite Ev. split; [|split].
        { rewrite Hp'. apply (nth_ext' f0).
          - rewrite app_length, !firstn_length, evals_length. fold n. cbn [length]. lia.
          - intros i Hi. rewrite app_length, firstn_length, evals_length in Hi. fold n in Hi. simpl in Hi.
            rewrite nth_firstn'. destruct (Nat.eq_dec i k) as [->|Hne].
            + rewrite app_nth2 by (rewrite firstn_length, evals_length; fold n; lia).
              rewrite firstn_length, evals_length. fold n.
              replace (k - Nat.min k n) with 0 by lia. simpl nth.
              rewrite nth_evals by (fold n; lia).
              destruct (Nat.ltb_spec k (S k)); [reflexivity|lia].
            + rewrite app_nth1 by (rewrite firstn_length, evals_length; fold n; lia).
              rewrite nth_firstn'. destruct (Nat.ltb_spec i k), (Nat.ltb_spec i (S k)); auto; lia. }
        { now rewrite length_upd. }
        { intros i Hi. rewrite nth_upd by lia. destruct (Nat.eqb_spec k i) as [->|]; auto.
          apply Hw1'. lia. }
    + cbn [bind]. rewrite Hp', firstn_all2; auto. rewrite evals_length. auto.
Qed.
End Lagrange.
