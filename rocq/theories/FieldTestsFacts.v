(** Which draws the tests of test_field.py pass on. *)
From Verif Require Export FieldTests PolyProofs CodecProofs.
Open Scope nat_scope.

Lemma vec_eqb_eq {P : FieldClass} (x y : list (F P)) : vec_eqb x y = true <-> x = y.
Proof.
  revert y. induction x as [|a x IH]; intros [|b y]; cbn; split; intros H; try congruence.
  - apply andb_prop in H as [H1 H2]. apply feqb_eq in H1. apply IH in H2. congruence.
  - injection H as -> ->. rewrite feqb_refl. cbn. now apply IH.
Qed.

Lemma vec_eqb_refl {P : FieldClass} (x : list (F P)) : vec_eqb x x = true.
Proof. now apply vec_eqb_eq. Qed.

(** A loop of assertions passes iff all of them do. *)
Lemma foldM_unit {A} (body : unit -> A -> res unit) l :
  foldM body l tt = Ok tt <-> forall x, In x l -> body tt x = Ok tt.
Proof.
  induction l as [|a l IH]; cbn; [split; [intros _ ? []|auto]|]. split.
  - intros H. destruct (body tt a) as [[]|e] eqn:E; [|discriminate]. cbn in H.
    intros x [<-|I]; auto. now apply IH.
  - intros H. rewrite (H a) by auto. cbn. apply IH. auto.
Qed.
Lemma for_range_unit (a b : nat) body :
  for_range a b tt body = Ok tt <-> forall i, a <= i < b -> body tt i = Ok tt.
Proof.
  unfold for_range, range. rewrite foldM_unit. split; intros H i Hi; apply H.
  - apply in_seq. lia.
  - apply in_seq in Hi. lia.
Qed.
Lemma foldM_unit_raise {A} (body : unit -> A -> res unit) (E : exn -> Prop) l e :
  (forall x e, In x l -> body tt x = Raise e -> E e) -> foldM body l tt = Raise e -> E e.
Proof.
  induction l as [|a l IH]; cbn; [discriminate|]. intros H Q.
  destruct (body tt a) as [[]|e'] eqn:Ea; cbn in Q.
  - apply IH; eauto.
  - injection Q as <-. eauto.
Qed.

Lemma field_init_val {P : FieldClass} v : (0 <= v < MODULUS P)%Z -> exists e : F P, field_init v = Ok e /\ fint e = v.
Proof.
  intros H. exists (fof v). rewrite field_init_ok by lia. split; auto. unfold fint. cbn. now apply Z.mod_small.
Qed.

Lemma field_init_mod {P : FieldClass} v : field_init (v mod MODULUS P) = Ok (fof v : F P).
Proof.
  pose proof (Z.mod_pos_bound v (MODULUS P) eq_refl). rewrite field_init_ok by lia. f_equal.
  apply F_eq. cbn. now rewrite Z.mod_mod.
Qed.

Lemma field_test {P : FieldClass} : prime (MODULUS P) -> wf_field P -> (1337 < MODULUS P)%Z ->
  forall (vec want : list (F P)) x y, length vec = 23 -> (0 <= x < MODULUS P)%Z -> (0 <= y < MODULUS P)%Z ->
  run_field_test P vec x y want = if (x =? 0)%Z then Raise AssertionError else Ok tt.
Proof.
  intros Hp W H13 vec want x y Lv Hx Hy. unfold run_field_test.
  destruct (field_init_val (P := P) 1337) as (e & -> & Ee); [lia|]. cbn [bind]. rewrite Ee. cbn [Z.eqb assert_true check bind].
  change (assert_true (1337 =? 1337)%Z) with (Ok tt). cbn [bind].
  unfold fzeros. rewrite repeat_length. cbn [Nat.eqb assert_true check bind].
  replace (foldM _ (repeat f0 23) tt) with (Ok tt).
  2:{ symmetry. apply foldM_unit. intros z Hz. apply repeat_spec in Hz. subst z. reflexivity. }
  cbn [bind]. rewrite Lv. cbn [Nat.eqb assert_true check bind].
  destruct (field_init_val (P := P) x Hx) as (fx & -> & Ex). destruct (field_init_val (P := P) y Hy) as (fy & -> & Ey).
  cbn [bind]. rewrite !field_init_mod. cbn [bind].
  unfold fint.
  replace (feqb (fadd fx fy) (fof (val fx + val fy))) with true by (symmetry; apply feqb_refl).
  replace (feqb (fsub fx fy) (fof (val fx - val fy))) with true by (symmetry; apply feqb_refl).
  replace (feqb (fneg fx) (fof (- val fx))) with true by (symmetry; apply feqb_refl).
  replace (feqb (fmul fx fy) (fof (val fx * val fy))) with true by (symmetry; apply feqb_refl).
  cbn [assert_true check bind].
  rewrite field_init_ok by lia. cbn [bind]. change (fof 1) with (f1 : F P).
  destruct (inverse_spec (P := P)) as [I1 I0]; [auto|lia|].
  destruct (Z.eqb_spec x 0) as [->|N].
  - assert (Z0 : fx = f0) by (apply F_eq; exact Ex). subst fx. rewrite I0.
    replace (feqb (fmul f0 f0) (f1 : F P)) with false; [reflexivity|]. symmetry. apply feqb_neq.
    intros Q. apply (f1_neq_f0 Hp). rewrite <- Q. apply F_eq. reflexivity.
  - rewrite I1.
    2:{ intros ->. apply N. now rewrite <- Ex. }
    rewrite feqb_refl. cbn [assert_true check bind].
    destruct (codec_vec (P := P) W) as (C & _). destruct (C want) as (b & -> & _ & D & _). cbn [bind]. rewrite D. cbn [bind].
    rewrite vec_eqb_refl. reflexivity.
Qed.

Section Ntt.
Context {P : NttFieldClass} (HP : NttOk P).
Notation root := (nth_root P).
Notation g := (gen_log P).
Let Hp : prime (MODULUS P) := ntt_prime P HP.
Add Ring FringFT : (@F_ring P).

Lemma init_one : field_init 1 = Ok (f1 : F P).
Proof. pose proof (ntt_odd P HP). now rewrite field_init_ok by lia. Qed.

Lemma nth_roots_test log_n : log_n <= g -> run_nth_roots_test P log_n = Ok tt.
Proof.
  intros HL. unfold run_nth_roots_test. rewrite init_one. cbn [bind]. rewrite (root_0 HP), feqb_refl. cbn [assert_true check bind].
  rewrite Nat.shiftl_1_l. fold (npow (root log_n) (2 ^ log_n)). rewrite (root_pow HP) by auto. rewrite feqb_refl. cbn [assert_true check bind].
  apply for_range_unit. intros k Hk. rewrite Nat.shiftl_1_l. fold (npow (root log_n) (2 ^ k)).
  destruct (feqb (npow (root log_n) (2 ^ k)) f1) eqn:E; [|reflexivity]. exfalso. apply feqb_eq in E.
  pose proof (Nat.pow_nonzero 2 k). pose proof (Nat.pow_lt_mono_r 2 k log_n).
  apply (root_order HP) in E; [|auto|lia]. lia.
Qed.

Lemma ntt_arg_full (p : list (F P)) n : length p = n -> ntt_arg p n = p.
Proof. intros <-. unfold ntt_arg. rewrite Nat.sub_diag. cbn. apply app_nil_r. Qed.

Lemma mapM_ok {A B} (f : A -> res B) (h : A -> B) l : (forall x, In x l -> f x = Ok (h x)) -> mapM f l = Ok (map h l).
Proof.
  induction l as [|a l IH]; intros H; cbn; auto. rewrite (H a) by (left; auto). cbn. rewrite IH; [reflexivity|].
  intros; apply H; now right.
Qed.

Lemma poly_eval_nz (p : list (F P)) x : ~ allzero p -> poly_eval p x = Ok (peval p x).
Proof. intros H. apply poly_eval_spec. now right. Qed.
Lemma nonempty_pow (p : list (F P)) L : length p = 2 ^ L -> p <> [].
Proof. intros H ->. pose proof (Nat.pow_nonzero 2 L). cbn in H. lia. Qed.
Lemma range_pow L : range 0 (2 ^ L) = 0 :: seq 1 (2 ^ L - 1).
Proof.
  unfold range. pose proof (Nat.pow_nonzero 2 L). replace (2 ^ L - 0) with (S (2 ^ L - 1)) by lia. reflexivity.
Qed.

Lemma ntt_test log_n (p : list (F P)) : log_n <= g -> length p = 2 ^ log_n ->
  (~ allzero p -> run_ntt_test P log_n p = Ok tt) /\ (allzero p -> run_ntt_test P log_n p = Raise IndexError).
Proof.
  intros HL Lp. unfold run_ntt_test. rewrite Nat.shiftl_1_l, (ntt_evals HP) by lia. cbn [bind].
  rewrite ntt_arg_full by auto. split; intros Z.
  - rewrite (mapM_ok _ (fun i => peval p (npow (root log_n) i))) by (intros; now apply poly_eval_nz). cbn [bind].
    unfold range. rewrite Nat.sub_0_r. fold (evals log_n p). now rewrite vec_eqb_refl.
  - rewrite range_pow. cbn [mapM]. rewrite poly_eval_zero; auto. apply (nonempty_pow _ _ Lp).
Qed.

Lemma ntt_set_s_test log_n (p : list (F P)) : S log_n <= g -> length p = 2 ^ log_n ->
  (~ allzero p -> run_ntt_set_s_test P log_n p = Ok tt) /\ (allzero p -> run_ntt_set_s_test P log_n p = Raise IndexError).
Proof.
  intros HL Lp. unfold run_ntt_set_s_test. rewrite Nat.shiftl_1_l. split; intros Z.
  - rewrite (mapM_ok _ (fun i => peval p (fmul (root (log_n + 1)) (npow (root log_n) i)))) by (intros; now apply poly_eval_nz).
    cbn [bind]. rewrite (ntt_spec HP) by auto. cbn [bind]. rewrite firstn_all2 by lia.
    unfold range. rewrite Nat.sub_0_r. unfold shift_root. now rewrite vec_eqb_refl.
  - rewrite range_pow. cbn [mapM]. rewrite poly_eval_zero; auto. apply (nonempty_pow _ _ Lp).
Qed.

Lemma ntt_field_test : wf_field P -> (1337 < MODULUS P)%Z -> 8 <= g ->
  forall (vec want : list (F P)) x y (ps qs : nat -> list (F P)),
  length vec = 23 -> (0 <= x < MODULUS P)%Z -> (0 <= y < MODULUS P)%Z ->
  (forall L, length (ps L) = 2 ^ L) -> (forall L, length (qs L) = 2 ^ L) ->
  (run_ntt_field_test P vec x y want ps qs = Ok tt <->
   x <> 0%Z /\ forall L, L < 8 -> ~ allzero (ps L) /\ ~ allzero (qs L)) /\
  (forall e, run_ntt_field_test P vec x y want ps qs = Raise e ->
   e = if (x =? 0)%Z then AssertionError else IndexError).
Proof.
  intros W H13 G vec want x y ps qs Lv Hx Hy Lp Lq. unfold run_ntt_field_test.
  rewrite (field_test Hp W H13) by auto. destruct (Z.eqb_spec x 0) as [->|N]; cbn [bind].
  { split; [split; [discriminate|intros [[] _]; auto]|intros e [= <-]; auto]. }
  rewrite init_one. cbn [bind].
  replace (fpow (gen P) (Z.to_N (GEN_ORDER P))) with (root 0).
  2:{ unfold nth_root. now rewrite Z.shiftr_0_r. }
  rewrite (root_0 HP), feqb_refl. cbn [assert_true check bind].
  set (body := fun (_ : unit) log_n => let* _ := run_nth_roots_test P log_n in _).
  assert (B : forall L, L < 8 -> ((~ allzero (ps L) /\ ~ allzero (qs L)) /\ body tt L = Ok tt) \/
                                 ((allzero (ps L) \/ allzero (qs L)) /\ body tt L = Raise IndexError)).
  { intros L HL. unfold body. rewrite nth_roots_test by lia. cbn [bind].
    destruct (ntt_test L (ps L)) as [T1 T2]; auto; [lia|]. destruct (ntt_set_s_test L (qs L)) as [S1 S2]; auto; [lia|].
    destruct (allzero_dec (ps L)) as [Z|Z].
    - right. rewrite (T2 Z). auto.
    - rewrite (T1 Z). cbn [bind]. destruct (allzero_dec (qs L)) as [Z'|Z'].
      + right. rewrite (S2 Z'). auto.
      + left. rewrite (S1 Z'). auto. }
  split.
  - rewrite for_range_unit. split.
    + intros H. split; auto. intros L HL. destruct (B L HL) as [[? _]|[_ Q]]; auto. rewrite H in Q by lia. discriminate.
    + intros [_ H] i Hi. destruct (B i) as [[_ ?]|[[Q|Q] _]]; auto; try lia; exfalso; destruct (H i); auto; lia.
  - intros e. unfold for_range. apply (foldM_unit_raise _ (fun e => e = IndexError)). intros L e' I Q. apply in_seq in I.
    destruct (B L) as [[_ ?]|[_ ?]]; [lia|congruence|congruence].
Qed.

Lemma small_inits n : (Z.of_nat n <= MODULUS P)%Z ->
  mapM (fun x => field_init (P := P) (Z.of_nat x)) (range 0 n) = Ok (map (fun i => fof (Z.of_nat i)) (seq 0 n)).
Proof.
  intros H. unfold range. rewrite Nat.sub_0_r. apply mapM_ok. intros i I. apply in_seq in I. rewrite field_init_ok by lia. reflexivity.
Qed.

Lemma small_NoDup n : (Z.of_nat n <= MODULUS P)%Z -> NoDup (map (fun i => fof (Z.of_nat i) : F P) (seq 0 n)).
Proof.
  intros H. apply NoDup_map_inj; [|apply seq_NoDup].
  intros i j Hi Hj E. apply in_seq in Hi, Hj. apply (f_equal val) in E. cbn in E. rewrite !Z.mod_small in E by lia. lia.
Qed.

Lemma interp_test (p : list (F P)) : (10 <= MODULUS P)%Z -> length p = 10 ->
  (~ allzero p -> test_interp P p = Ok tt) /\ (allzero p -> test_interp P p = Raise IndexError).
Proof.
  intros HM Lp. unfold test_interp. rewrite (small_inits 10) by lia. cbn [bind].
  pose proof (small_NoDup 10 HM) as ND. set (xs := map _ (seq 0 10)) in *.
  assert (Lx : length xs = 10) by reflexivity. split; intros Z.
  - rewrite (mapM_ok _ (peval p)) by (intros; now apply poly_eval_nz). cbn [bind].
    destruct (poly_interp_spec Hp xs (map (peval p) xs)) as (q & -> & Lq & Vq); [now rewrite map_length|discriminate|exact ND|].
    cbn [bind]. apply foldM_unit. intros x I. rewrite poly_eval_nz by auto. cbn [bind].
    assert (A : forall z, In z xs -> peval q z = peval p z).
    { intros z Iz. destruct (In_nth _ _ f0 Iz) as (i & Hi & <-). rewrite Vq by auto. now rewrite (nth_map' _ _ _ f0) by auto. }
    assert (Nq : ~ allzero q).
    { intros Zq. apply Z. apply (poly_roots_zero Hp xs ND); [lia|]. intros z Iz. rewrite <- A by auto. now apply peval_allzero. }
    rewrite poly_eval_nz by auto. cbn [bind]. rewrite A by auto. now rewrite feqb_refl.
  - unfold xs. cbn [seq map mapM]. rewrite poly_eval_zero; auto. intros ->. discriminate.
Qed.

Lemma lagrange_test (batch : list (list (F P))) values : 4 <= g -> length batch = 4 -> Forall (fun p => length p = 16) batch ->
  (Forall (fun p => ~ allzero p) batch -> test_poly_eval_lagrange P batch values = Ok tt) /\
  (Exists allzero batch -> test_poly_eval_lagrange P batch values = Raise IndexError).
Proof.
  intros G Lb Lp. unfold test_poly_eval_lagrange. change 16 with (2 ^ 4) in *. rewrite Forall_forall in Lp.
  rewrite (mapM_ok _ (evals 4)).
  2:{ intros p I. apply (ntt_evals HP); auto. rewrite (Lp p I). auto. }
  cbn [bind]. rewrite nth_root_powers_ok. cbn [bind].
  replace (map (fun p_mon => ntt_arg p_mon (2 ^ 4)) batch) with batch.
  2:{ rewrite <- (map_id batch) at 1. apply map_ext_in. intros p I. symmetry. apply ntt_arg_full. auto. }
  split; intros Z.
  - rewrite Forall_forall in Z. apply foldM_unit. intros points _. apply foldM_unit. intros x _.
    rewrite (mapM_ok _ (fun p => peval p x)) by (intros p I; now apply poly_eval_nz, Z). cbn [bind].
    rewrite (lag_poly_eval_batched_spec HP); [|auto|intros ->; discriminate|intros p I; rewrite (Lp p I); auto].
    cbn [bind]. now rewrite vec_eqb_refl.
  - assert (Q : forall x, mapM (fun p => poly_eval p x) batch = Raise IndexError).
    { intros x. clear Lb. induction batch as [|p batch IH]; [inversion Z|]. cbn.
      assert (Np : p <> []) by (apply (nonempty_pow _ 4), Lp; now left).
      destruct (allzero_dec p) as [Zp|Zp].
      - now rewrite poly_eval_zero.
      - rewrite poly_eval_nz by auto. cbn. inversion Z; [contradiction|]. rewrite IH; auto. intros; apply Lp; now right. }
    cbn [foldM]. unfold roots at 1. rewrite <- (Nat.sub_0_r (2 ^ 4)).
    match goal with |- context [roots 4] => idtac | _ => idtac end.
    assert (R : exists w ws, roots (P := P) 4 = w :: ws).
    { destruct (roots (P := P) 4) eqn:E; [|eauto]. pose proof (roots_length (P := P) 4) as X. rewrite E in X. discriminate. }
    destruct R as (w & ws & R). unfold roots in R |- *. rewrite ?Nat.sub_0_r. rewrite R. cbn [foldM]. rewrite Q. reflexivity.
Qed.

Lemma change_basis_test (ps : nat -> list (F P)) : 7 <= g -> (forall L, length (ps L) = 2 ^ L) ->
  test_poly_change_basis P ps = Ok tt.
Proof.
  intros G Lp. apply for_range_unit. intros L HL. cbv zeta. rewrite Nat.shiftl_1_l, (ntt_evals HP) by (rewrite ?Lp; lia). cbn [bind].
  rewrite ntt_arg_full by auto. rewrite (inv_ntt_ok HP) by lia. cbn [bind].
  rewrite firstn_all2 by (rewrite evals_length; auto). rewrite (inv_coeffs_evals HP) by (auto; lia). now rewrite vec_eqb_refl.
Qed.

Lemma mul_lagrange_test (ps qs : nat -> list (F P)) : 8 <= g -> (forall L, length (ps L) = 2 ^ L) -> (forall L, length (qs L) = 2 ^ L) ->
  test_poly_mul_lagrange P ps qs = Ok tt.
Proof.
  intros G Lp Lq. apply for_range_unit. intros L HL. cbv zeta. rewrite Nat.shiftl_1_l. rewrite !(ntt_evals HP) by (rewrite ?Lp, ?Lq; lia). cbn [bind].
  rewrite !ntt_arg_full by auto. rewrite (lag_poly_mul_spec HP) by (rewrite ?Lp, ?Lq; lia). cbn [bind].
  destruct (poly_mul_spec (ps L) (qs L)) as (r & -> & _ & Lr & Vr). cbn [bind]. rewrite Lp, Lq in Lr.
  change (2 * 2 ^ L) with (2 ^ S L). rewrite (ntt_evals HP) by (cbn [Nat.pow]; lia). cbn [bind].
  rewrite (evals_ext (S L) (pmul (ps L) (qs L)) r); [now rewrite vec_eqb_refl|]. intros x. now rewrite peval_pmul, Vr.
Qed.

Lemma extend_test (ps : nat -> nat -> list (F P)) : 6 <= g -> (forall L k, length (ps L k) = k) ->
  test_extend_values_to_power_of_2 P ps = Ok tt.
Proof.
  intros G Lp. apply for_range_unit. intros L HL. apply for_range_unit. intros k Hk. cbv zeta. rewrite Nat.shiftl_1_l in *.
  set (pm := ps L k ++ repeat f0 (2 ^ L - k)). assert (Lm : length pm = 2 ^ L) by (unfold pm; rewrite app_length, repeat_length, Lp; lia).
  rewrite (ntt_evals HP) by lia. cbn [bind].
  assert (E : evals L pm = evals L (ps L k)).
  { apply evals_ext. intros x. unfold pm. rewrite peval_app, peval_repeat0. ring. }
  rewrite E. rewrite (extend_spec HP L (ps L k) _ k) by (rewrite ?Lp; auto; lia). cbn [bind]. now rewrite vec_eqb_refl.
Qed.

Lemma double_test (ps : nat -> list (F P)) : 8 <= g -> (forall L, length (ps L) = 2 ^ L) -> test_double_evaluations P ps = Ok tt.
Proof.
  intros G Lp. apply for_range_unit. intros L HL. cbv zeta. rewrite Nat.shiftl_1_l, (ntt_evals HP) by (rewrite ?Lp; lia). cbn [bind].
  rewrite ntt_arg_full by auto. rewrite (double_evaluations_spec HP) by (rewrite ?Lp; lia). cbn [bind].
  change (2 * 2 ^ L) with (2 ^ S L). rewrite (ntt_evals HP) by (rewrite ?Lp; cbn [Nat.pow]; lia). cbn [bind]. now rewrite vec_eqb_refl.
Qed.
End Ntt.
