(** Roots of unity of the NTT-friendly fields (field.py:112-136). *)
From Verif Require Export PolyAlg Primes.
Open Scope Z_scope.

Lemma NttOk_Field64 : NttOk Field64.
Proof.
  constructor; [apply prime_Field64 | vm_compute; lia | vm_compute; reflexivity
               | reflexivity | apply F_eq; vm_compute; reflexivity].
Qed.
Lemma NttOk_Field96 : NttOk Field96.
Proof.
  constructor; [apply prime_Field96 | vm_compute; lia | vm_compute; reflexivity
               | reflexivity | apply F_eq; vm_compute; reflexivity].
Qed.
Lemma NttOk_Field128 : NttOk Field128.
Proof.
  constructor; [apply prime_Field128 | vm_compute; lia | vm_compute; reflexivity
               | reflexivity | apply F_eq; vm_compute; reflexivity].
Qed.

Section Roots.
Context {P : NttFieldClass} (HP : NttOk P).
Let Hp : prime (MODULUS P) := ntt_prime P HP.
Notation g := (gen_log P).
Notation root := (nth_root P).
Add Ring FringR : (@F_ring P).

Lemma fneg1_neq_1 : fneg f1 <> f1 :> F P.
Proof.
  intros H. pose proof (ntt_odd P HP).
  unfold f1 in H. rewrite <- fof_opp in H. apply fof_eq in H.
  rewrite (Z.mod_small 1) in H by lia.
  assert (E : (- (1)) mod MODULUS P = MODULUS P - 1).
  { symmetry. apply (Z.mod_unique _ _ (-1)); lia. }
  rewrite E in H. lia.
Qed.

Lemma nth_root_npow n : (n <= g)%nat -> root n = npow (gen P) (2 ^ (g - n)).
Proof.
  intros H. unfold nth_root, npow. f_equal.
  rewrite (ntt_order P HP), Z.shiftr_div_pow2 by lia.
  rewrite <- Z.pow_sub_r by lia.
  replace (Z.of_nat g - Z.of_nat n) with (Z.of_nat (g - n)) by lia.
  rewrite <- pow2_nat_Z. lia.
Qed.

Lemma root_sq n : (n < g)%nat -> fmul (root (S n)) (root (S n)) = root n.
Proof.
  intros H. rewrite !nth_root_npow by lia. rewrite <- npow_add. f_equal.
  replace (g - n)%nat with (S (g - S n)) by lia. simpl. lia.
Qed.

Lemma root_half n : (0 < n <= g)%nat -> npow (root n) (2 ^ (n - 1)) = fneg f1.
Proof.
  intros H. rewrite nth_root_npow by lia. rewrite <- npow_mul, <- Nat.pow_add_r.
  rewrite <- (ntt_gen P HP). unfold npow. f_equal.
  replace (g - n + (n - 1))%nat with (g - 1)%nat by lia.
  replace (Z.of_nat g - 1) with (Z.of_nat (g - 1)) by lia.
  rewrite <- pow2_nat_Z. lia.
Qed.

Lemma fneg1_sq : fmul (fneg f1) (fneg f1) = f1 :> F P.
Proof. ring. Qed.

Lemma root_0 : root 0 = f1.
Proof.
  pose proof (ntt_log_pos P HP). rewrite <- root_sq by lia.
  replace (root 1) with (fneg (f1 : F P)); [ring|].
  rewrite <- (root_half 1) by lia. reflexivity.
Qed.

Lemma root_pow n : (n <= g)%nat -> npow (root n) (2 ^ n) = f1.
Proof.
  intros H. destruct n as [|n].
  - apply root_0.
  - replace (2 ^ S n)%nat with (2 ^ n + 2 ^ n)%nat by (simpl; lia).
    rewrite npow_add. pose proof (root_half (S n) ltac:(lia)) as E.
    replace (S n - 1)%nat with n in E by lia. rewrite E. ring.
Qed.

Lemma root_neq_0 n : (n <= g)%nat -> root n <> f0.
Proof.
  intros H E. pose proof (root_pow n H) as R. rewrite E in R.
  unfold npow in R. rewrite fpow_0_l in R.
  - symmetry in R. revert R. apply (f1_neq_f0 Hp).
  - pose proof (Nat.pow_nonzero 2 n). lia.
Qed.

(** [root n] has order exactly 2^n. *)
Lemma root_order n i : (n <= g)%nat -> npow (root n) i = f1 -> (0 < i)%nat -> (2 ^ n <= i)%nat.
Proof.
  intros H E Hi. destruct n as [|n]; [simpl; lia|].
  assert (D : (2 ^ Z.of_nat (S n) | Z.of_nat i)).
  { apply (order_prime_power (root (S n)) 2 n (Z.of_nat i)); [apply prime_2|lia| | |].
    - unfold npow in E. replace (Z.to_N (Z.of_nat i)) with (N.of_nat i) by lia. exact E.
    - rewrite <- pow2_nat_Z. replace (Z.to_N _) with (N.of_nat (2 ^ S n)) by lia.
      now apply root_pow.
    - rewrite <- pow2_nat_Z. replace (Z.to_N _) with (N.of_nat (2 ^ n)) by lia.
      change (npow (root (S n)) (2 ^ n) <> f1).
      replace n with (S n - 1)%nat at 2 by lia. rewrite root_half by lia.
      apply fneg1_neq_1. }
  apply Z.divide_pos_le in D; [|lia]. rewrite <- pow2_nat_Z in D. lia.
Qed.

Lemma root_inj n i j : (n <= g)%nat -> (i < 2 ^ n)%nat -> (j < 2 ^ n)%nat ->
  npow (root n) i = npow (root n) j -> i = j.
Proof.
  intros H. assert (G : forall i j, (i < j)%nat -> (j < 2 ^ n)%nat -> npow (root n) i <> npow (root n) j).
  { intros a b Hab Hb E. replace b with (a + (b - a))%nat in E by lia. rewrite npow_add in E.
    assert (npow (root n) (b - a) = f1) as E1.
    { apply (fmul_cancel_l Hp (npow (root n) a)).
      - unfold npow. apply fpow_neq_0; auto. now apply root_neq_0.
      - rewrite <- E. ring. }
    apply root_order in E1; auto; lia. }
  intros Hi Hj E. destruct (Nat.lt_trichotomy i j) as [L|[L|L]]; auto; exfalso.
  - eapply G; eauto.
  - eapply G; eauto.
Qed.

(** The order of the generator divides the order of the group. *)
Lemma order_le_modulus : 2 ^ Z.of_nat g < MODULUS P.
Proof.
  pose proof (ntt_log_pos P HP). pose proof (ntt_odd P HP).
  assert (D : (2 ^ Z.of_nat (S (g - 1)) | MODULUS P - 1)).
  { apply (order_prime_power (gen P) 2 (g - 1)); [apply prime_2|lia| | |].
    - apply fermat; auto. intros E. pose proof (ntt_gen P HP) as G.
      rewrite E in G. rewrite fpow_0_l in G.
      + apply (f1_neq_f0 Hp). transitivity (fneg (fneg (f1 : F P))); [ring|].
        rewrite <- G. ring.
      + assert (0 < 2 ^ (Z.of_nat g - 1)) by (apply Z.pow_pos_nonneg; lia). lia.
    - pose proof (root_pow g ltac:(lia)) as R. rewrite nth_root_npow in R by lia.
      rewrite Nat.sub_diag in R. change (2 ^ 0)%nat with 1%nat in R. rewrite npow_1 in R.
      rewrite <- pow2_nat_Z. replace (S (g - 1)) with g by lia.
      replace (Z.to_N _) with (N.of_nat (2 ^ g)) by lia. exact R.
    - replace (Z.of_nat (g - 1)) with (Z.of_nat g - 1) by lia. rewrite (ntt_gen P HP).
      apply fneg1_neq_1. }
  replace (S (g - 1)) with g in D by lia.
  apply Z.divide_pos_le in D; lia.
Qed.

Lemma pow2_lt_modulus n : (n <= g)%nat -> Z.of_nat (2 ^ n) < MODULUS P.
Proof.
  intros H. pose proof order_le_modulus. rewrite pow2_nat_Z.
  assert (2 ^ Z.of_nat n <= 2 ^ Z.of_nat g) by (apply Z.pow_le_mono_r; lia). lia.
Qed.

Lemma fof_pow2_neq_0 n : (n <= g)%nat -> fof (Z.of_nat (2 ^ n)) <> f0 :> F P.
Proof.
  intros H E. apply fof_eq in E. pose proof (pow2_lt_modulus n H).
  pose proof (Nat.pow_nonzero 2 n).
  rewrite Zmod_0_l, Z.mod_small in E by lia. lia.
Qed.

Definition roots (n : nat) : list (F P) := map (npow (root n)) (seq 0 (2 ^ n)).

Lemma nth_root_powers_ok n : nth_root_powers P (2 ^ n) = Ok (roots n).
Proof.
  unfold nth_root_powers. rewrite assert_power_of_2_nat. cbn [bind].
  unfold roots, range. now rewrite Nat.sub_0_r.
Qed.

Lemma roots_length n : length (roots n) = (2 ^ n)%nat.
Proof. unfold roots. now rewrite map_length, seq_length. Qed.

Lemma nth_roots n i d : (i < 2 ^ n)%nat -> nth i (roots n) d = npow (root n) i.
Proof.
  intros H. unfold roots. rewrite (nth_map' _ _ _ 0%nat) by now rewrite seq_length.
  now rewrite seq_nth.
Qed.

Lemma NoDup_roots n : (n <= g)%nat -> NoDup (roots n).
Proof.
  intros H. apply NoDup_map_inj; [|apply seq_NoDup].
  intros i j Hi Hj E. apply in_seq in Hi, Hj. eapply root_inj; eauto; lia.
Qed.

Lemma in_roots n x : (n <= g)%nat -> In x (roots n) <-> npow x (2 ^ n) = f1.
Proof.
  intros H. split.
  - intros Hx. apply in_map_iff in Hx as (i & <- & _).
    rewrite npow_comm, root_pow by auto. apply npow_1_l.
  - intros E. destruct (in_dec feq_dec x (roots n)) as [|Hn]; auto. exfalso.
    (* x together with the 2^n roots would be 2^n+1 roots of X^(2^n) - 1 *)
    set (c := fneg f1 :: repeat f0 (2 ^ n - 1) ++ [f1 : F P]).
    pose proof (Nat.pow_nonzero 2 n ltac:(lia)).
    assert (Hc : forall y, peval c y = fsub (npow y (2 ^ n)) f1).
    { intros y. unfold c. cbn [peval]. rewrite peval_app, peval_repeat0, repeat_length.
      cbn [peval]. replace (2 ^ n)%nat with (S (2 ^ n - 1)) at 2 by lia.
      rewrite npow_S. ring. }
    assert (Z : (length (x :: roots n) < length c)%nat).
    { apply (poly_roots_bound Hp).
      - intros Z. inversion Z as [|? ? Z1 Z2]; subst. apply (f1_neq_f0 Hp).
        transitivity (fneg (fneg (f1 : F P))); [ring|]. rewrite Z1. ring.
      - constructor; auto. now apply NoDup_roots.
      - intros y [<-|Hy]; rewrite Hc.
        + rewrite E. ring.
        + apply in_map_iff in Hy as (i & <- & _).
          rewrite npow_comm, root_pow by auto. rewrite npow_1_l. ring. }
    unfold c in Z. cbn [length] in Z. rewrite roots_length, app_length, repeat_length in Z.
    simpl in Z. lia.
Qed.

(** Sum of the powers of a root of unity. *)
Lemma geom_sum (w : F P) n : fmul (fsub w f1) (fsum n (npow w)) = fsub (npow w n) f1.
Proof.
  induction n.
  - simpl. rewrite npow_0. ring.
  - cbn [fsum]. rewrite npow_S.
    transitivity (fadd (fmul (fsub w f1) (fsum n (npow w))) (fmul (fsub w f1) (npow w n))); [ring|].
    rewrite IHn. ring.
Qed.
Lemma root_sum_zero n i : (n <= g)%nat -> (0 < i < 2 ^ n)%nat ->
  fsum (2 ^ n) (fun k => npow (npow (root n) i) k) = f0.
Proof.
  intros H Hi. set (w := npow (root n) i).
  assert (Hw : fsub w f1 <> f0).
  { intros E. apply fsub_eq_0 in E. unfold w in E. apply root_order in E; auto; lia. }
  pose proof (geom_sum w (2 ^ n)) as E.
  assert (npow w (2 ^ n) = f1) as E1.
  { unfold w. rewrite npow_comm, root_pow by auto. apply npow_1_l. }
  rewrite E1 in E. assert (fmul (fsub w f1) (fsum (2 ^ n) (npow w)) = f0) as E2 by (rewrite E; ring).
  apply (fmul_0 Hp) in E2 as [|]; auto. contradiction.
Qed.

(** Sums of [k] ones. *)
Lemma fsum_const n (c : F P) : fsum n (fun _ => c) = fmul (fof (Z.of_nat n)) c.
Proof.
  induction n.
  - simpl. change (fof 0) with (f0 : F P). ring.
  - cbn [fsum]. rewrite IHn. rewrite Nat2Z.inj_succ. unfold Z.succ. rewrite fof_add.
    change (fof 1) with (f1 : F P). ring.
Qed.
End Roots.
