(** End-to-end runs of Poplar1 over a batch of reports. *)
From Verif Require Export Poplar1Run.
Open Scope nat_scope.

Section P1E.
Context (p : Poplar1) (lim : Z) (HO : Poplar1Ok p lim) (n : nat).
Notation idpf := (p1_idpf p).
Notation xof := (p1_xof p).
Notation Pi := (id_field_inner (p1_idpf p)).
Notation Pl := (id_field_leaf (p1_idpf p)).
Notation BITS := (id_BITS (p1_idpf p)).
Notation E0 := (fun e => e = OutOfFuel /\ p1_ran_out p n).

(** The sum of the one-hot vectors is the vector of counts. *)
Definition counts {P : FieldClass} (prefixes : list (list bool)) (ms : list (list bool)) : list (F P) :=
  map (fun x => fof (Z.of_nat (count_prefix x ms))) prefixes.

Lemma count_prefix_cons level x m ms : length x = S level ->
  count_prefix x (m :: ms) = (if list_eq_dec Bool.bool_dec x (firstn (S level) m) then 1 else 0) + count_prefix x ms.
Proof.
  intros H. unfold count_prefix. cbn [filter]. rewrite H.
  now destruct (list_eq_dec Bool.bool_dec x (firstn (S level) m)).
Qed.

Lemma counts_cons {P : FieldClass} level prefixes m ms : Forall (fun x => length x = S level) prefixes ->
  @counts P prefixes (m :: ms) = zip_with fadd (hot prefixes level m) (counts prefixes ms).
Proof.
  intros H. unfold counts, hot. induction H as [|x l Hx H IH]; [easy|]. cbn [map zip_with]. f_equal; [|exact IH].
  rewrite (count_prefix_cons level) by easy.
  destruct (list_eq_dec Bool.bool_dec x (firstn (S level) m)); unfold f0, f1; rewrite <- fof_add; f_equal; lia.
Qed.

Lemma counts_nil {P : FieldClass} prefixes : @counts P prefixes [] = fzeros (length prefixes).
Proof. unfold counts. induction prefixes as [|x l IH]; [easy|]. cbn [map length]. rewrite IH. easy. Qed.

Lemma zip4 {P : FieldClass} k (a b c d : list (F P)) : length a = k -> length b = k -> length c = k -> length d = k ->
  zip_with fadd (zip_with fadd a b) (zip_with fadd c d) = zip_with fadd (zip_with fadd a c) (zip_with fadd b d).
Proof.
  intros. apply (vec_eq k); try (rewrite !zip_with_length; lia).
  intros i Hi. rewrite !(nth_zip_with _ _ _ _ f0 f0) by (rewrite ?zip_with_length; lia).
  set (w := nth i a f0). set (x := nth i b f0). set (y := nth i c f0). set (z := nth i d f0).
  rewrite <- (fof_val w), <- (fof_val x), <- (fof_val y), <- (fof_val z). rewrite <- !fof_add. f_equal. ring.
Qed.

Lemma zip_assoc {P : FieldClass} k (a b c : list (F P)) : length a = k -> length b = k -> length c = k ->
  zip_with fadd a (zip_with fadd b c) = zip_with fadd (zip_with fadd a b) c.
Proof.
  intros. apply (vec_eq k); try (rewrite !zip_with_length; lia).
  intros i Hi. rewrite !(nth_zip_with _ _ _ _ f0 f0) by (rewrite ?zip_with_length; lia).
  apply (Radd_assoc (@F_ring P)).
Qed.

Lemma zip_zero_l {P : FieldClass} k (a : list (F P)) : length a = k -> zip_with fadd (fzeros k) a = a.
Proof.
  intros. apply (vec_eq k); [unfold fzeros; rewrite zip_with_length, repeat_length; lia | easy |].
  intros i Hi. rewrite !(nth_zip_with _ _ _ _ f0 f0) by (unfold fzeros; rewrite ?repeat_length; lia).
  unfold fzeros. rewrite nth_repeat. apply (Radd_0_l (@F_ring P)).
Qed.

Lemma fint_fof {P : FieldClass} z : fint (@fof P z) = (z mod MODULUS P)%Z.
Proof. unfold fint. apply val_fof. Qed.

Section Batch.
Context (P : FieldClass) (inj : list (F P) -> FieldVec Pi Pl) (V : View p P inj).
Context (key ctx : bytes) (level : nat) (prefixes : list (list bool)).
Context (Lp : length prefixes = n) (Hpl : Forall (fun x => length x = S level) prefixes).
Context (Hinit : p1_agg_init p (Z.of_nat level, prefixes) = Ok (inj (fzeros n))).
Context (Hrep : forall m nonce rand a0 a1, length m = BITS -> length nonce = p1_NONCE_SIZE -> length rand = p1_RAND_SIZE p ->
  length a0 = n -> length a1 = n ->
  post (run_report (p1_vdaf p) key ctx (Z.of_nat level, prefixes) [inj a0; inj a1] (m, nonce, rand))
    (fun aggs => exists d0 d1, length d0 = n /\ length d1 = n /\ zip_with fadd d0 d1 = hot prefixes level m /\
       aggs = [inj (zip_with fadd a0 d0); inj (zip_with fadd a1 d1)]) E0).

Lemma batch_post ms : forall a0 a1, length a0 = n -> length a1 = n -> p1_sizes_ok p ms ->
  Forall (fun r => length (fst (fst r)) = BITS) ms ->
  post (foldM (run_report (p1_vdaf p) key ctx (Z.of_nat level, prefixes)) ms [inj a0; inj a1])
    (fun aggs => exists b0 b1, length b0 = n /\ length b1 = n /\ aggs = [inj b0; inj b1] /\
       zip_with fadd b0 b1 = zip_with fadd (zip_with fadd a0 a1) (counts prefixes (map (fun r => fst (fst r)) ms))) E0.
Proof.
  induction ms as [|[[m nonce] rand] ms IH]; intros a0 a1 L0 L1 Hs Hm.
  - cbn [foldM post map]. exists a0, a1. repeat apply conj; try easy.
    rewrite counts_nil, Lp. symmetry. apply (vec_eq n); try (unfold fzeros; rewrite !zip_with_length, ?repeat_length; lia).
    intros i Hi. rewrite (nth_zip_with _ _ (fzeros n) _ f0 f0) by (unfold fzeros; rewrite ?zip_with_length, ?repeat_length; lia).
    unfold fzeros. rewrite nth_repeat. rewrite (Radd_comm (@F_ring P)). apply (Radd_0_l (@F_ring P)).
  - cbn [foldM]. unfold p1_sizes_ok in Hs. apply Forall_cons_iff in Hs. destruct Hs as [[Hn Hr] Hs']. apply Forall_cons_iff in Hm. destruct Hm as [Hm1 Hm'].
    eapply post_bind; [apply (Hrep m nonce rand a0 a1 Hm1 Hn Hr L0 L1)|].
    intros aggs _ (d0 & d1 & Ld0 & Ld1 & Hd & ->).
    assert (X0 : length (zip_with fadd a0 d0) = n) by (rewrite zip_with_length; lia).
    assert (X1 : length (zip_with fadd a1 d1) = n) by (rewrite zip_with_length; lia).
    eapply post_weak; [apply (IH _ _ X0 X1 Hs' Hm')| |].
    + intros x _ (b0 & b1 & Lb0 & Lb1 & -> & Hb). exists b0, b1. repeat apply conj; try easy.
      rewrite Hb. cbn [map fst]. rewrite (counts_cons level) by easy.
      rewrite (zip4 n a0 d0 a1 d1) by easy. rewrite Hd. symmetry.
      apply (zip_assoc n); [rewrite zip_with_length; lia | unfold hot; now rewrite map_length | unfold counts; now rewrite map_length].
    + intros e He. exact He.
Qed.

Theorem batch_ok ms : length key = p1_VERIFY_KEY_SIZE p -> p1_sizes_ok p ms -> Forall (fun r => length (fst (fst r)) = BITS) ms ->
  run_vdaf (p1_vdaf p) key (Z.of_nat level, prefixes) ctx ms
  = Ok (map (fun x => (Z.of_nat (count_prefix x (map (fun r => fst (fst r)) ms)) mod MODULUS P)%Z) prefixes) \/
  (run_vdaf (p1_vdaf p) key (Z.of_nat level, prefixes) ctx ms = Raise OutOfFuel /\ p1_ran_out p n).
Proof.
  intros Hk Hs Hm. unfold run_vdaf. change (vd_VERIFY_KEY_SIZE (p1_vdaf p)) with (p1_VERIFY_KEY_SIZE p).
  rewrite Hk, Nat.eqb_refl. cbn [check bind]. change (vd_SHARES (p1_vdaf p)) with 2.
  change (range 0 2) with [0; 1]. cbn [mapM]. change (vd_agg_init (p1_vdaf p)) with (p1_agg_init p). rewrite Hinit. cbn [bind].
  assert (Lz : length (@fzeros P n) = n) by (unfold fzeros; apply repeat_length).
  pose proof (batch_post ms (fzeros n) (fzeros n) Lz Lz Hs Hm) as HB.
  change (vd_AggShare (p1_vdaf p)) with (FieldVec Pi Pl).
  destruct (foldM (run_report (p1_vdaf p) key ctx (Z.of_nat level, prefixes)) ms [inj (fzeros n); inj (fzeros n)]) as [aggs|e] eqn:Ef.
  2:{ right. cbn [post] in HB. destruct HB as [-> HR]. split; [|exact HR].  exact (f_equal (fun r => bind r _) Ef). }
  left. destruct HB as (b0 & b1 & L0 & L1 & -> & Hb).
  refine (eq_trans (f_equal (fun r => bind r _) Ef) _). cbn [bind].
  change (vd_unshard (p1_vdaf p)) with (p1_unshard p). unfold p1_unshard, p1_merge. rewrite Hinit. cbn [bind foldM].
  rewrite (vw_add _ _ _ V), vec_add_ok by congruence. cbn [bind].
  rewrite (vw_add _ _ _ V), vec_add_ok by (rewrite zip_with_length; lia). cbn [bind].
  rewrite (vw_vals _ _ _ V). f_equal. rewrite (zip_zero_l n) by easy. rewrite Hb.
  rewrite (zip_zero_l n) by easy.
  rewrite (zip_zero_l n) by (unfold counts; now rewrite map_length).
  unfold counts. rewrite map_map. apply map_ext. intros x. apply fint_fof.
Qed.
End Batch.

Theorem run_ok1 key ctx level prefixes ms : length prefixes = n -> NoDup prefixes -> Forall (fun x => length x = S level) prefixes ->
  ctx_ok ctx -> length key = p1_VERIFY_KEY_SIZE p -> level < BITS -> (Z.of_nat level < 65536)%Z ->
  p1_sizes_ok p ms -> Forall (fun r => length (fst (fst r)) = BITS) ms ->
  run_vdaf (p1_vdaf p) key (Z.of_nat level, prefixes) ctx ms
  = Ok (map (fun x => (Z.of_nat (count_prefix x (map (fun r => fst (fst r)) ms)) mod level_modulus p level)%Z) prefixes) \/
  (run_vdaf (p1_vdaf p) key (Z.of_nat level, prefixes) ctx ms = Raise OutOfFuel /\ p1_ran_out p n).
Proof.
  intros Lp Hnd Hpl Hc Hk Hlev H16 Hs Hm. unfold level_modulus. destruct (level <? BITS - 1) eqn:El.
  - apply Nat.ltb_lt in El. apply (batch_ok Pi Inner (view_inner p lim HO) key ctx level prefixes Lp Hpl); try easy.
    + unfold p1_agg_init. rewrite level_is_inner_nat, (proj2 (Nat.ltb_lt _ _) El). now rewrite Lp.
    + intros. apply (report_inner p lim HO n); easy.
  - apply Nat.ltb_ge in El. apply (batch_ok Pl Leaf (view_leaf p lim HO) key ctx level prefixes Lp Hpl); try easy.
    + unfold p1_agg_init. rewrite level_is_inner_nat, (proj2 (Nat.ltb_ge _ _) El). now rewrite Lp.
    + intros. apply (report_leaf p lim HO n); easy.
Qed.
End P1E.
