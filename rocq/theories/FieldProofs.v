(** Proofs of the properties stated in Props_Field.v. *)
From Verif Require Export NttFacts.
Open Scope Z_scope.

Lemma moduli_prime :
  prime (2 ^ 32 * 4294967295 + 1) /\ prime (2 ^ 64 * 4294966555 + 1) /\
  prime (2 ^ 66 * 4611686018427387897 + 1) /\ prime (2 ^ 255 - 19) /\
  MODULUS Field64 = 2 ^ 32 * 4294967295 + 1 /\ MODULUS Field96 = 2 ^ 64 * 4294966555 + 1 /\
  MODULUS Field128 = 2 ^ 66 * 4611686018427387897 + 1 /\ MODULUS Field255 = 2 ^ 255 - 19.
Proof.
  rewrite <- Field64_modulus, <- Field96_modulus, <- Field128_modulus, <- Field255_modulus.
  exact (conj prime_Field64 (conj prime_Field96 (conj prime_Field128 (conj prime_Field255
    (conj eq_refl (conj eq_refl (conj eq_refl eq_refl))))))).
Qed.

Lemma ops_modular {P : FieldClass} (x y : F P) (n : N) (v : Z) :
  0 <= val x < MODULUS P /\
  val (fadd x y) = (val x + val y) mod MODULUS P /\
  val (fsub x y) = (val x - val y) mod MODULUS P /\
  val (fmul x y) = (val x * val y) mod MODULUS P /\
  val (fneg x) = (- val x) mod MODULUS P /\
  val (fpow x n) = (val x ^ Z.of_N n) mod MODULUS P /\
  (feqb x y = true <-> x = y) /\
  (val x = val y -> x = y) /\
  (- MODULUS P < v < MODULUS P -> exists e, field_init v = Ok (e : F P) /\ val e = v mod MODULUS P) /\
  (~ - MODULUS P < v < MODULUS P -> field_init v = Raise AssertionError :> res (F P)).
Proof.
  split; [apply val_range|]. do 4 (split; [reflexivity|]).
  split. { rewrite <- (fof_val x) at 1. rewrite fpow_fof. reflexivity. }
  split; [apply feqb_eq|]. split; [apply F_eq|]. split.
  - intros H. exists (fof v). split; auto. now apply field_init_ok.
  - intros H. unfold field_init.
    destruct (Z.ltb_spec v (MODULUS P)), (Z.ltb_spec (- MODULUS P) v); auto. lia.
Qed.

Lemma inverse_spec {P : FieldClass} : prime (MODULUS P) -> 2 < MODULUS P ->
  (forall x : F P, x <> f0 -> fmul (finv x) x = f1) /\ finv (f0 : F P) = f0.
Proof. intros Hp H2. split; [now apply finv_l | now apply finv_0]. Qed.

Lemma le_gen_log {P : NttFieldClass} (HP : NttOk P) n :
  2 ^ Z.of_nat n <= GEN_ORDER P -> (n <= gen_log P)%nat.
Proof.
  intros H. rewrite (ntt_order P HP) in H. apply Z.pow_le_mono_r_iff in H; lia.
Qed.

Lemma root_primitive {P : NttFieldClass} (HP : NttOk P) n :
  (n <= gen_log P)%nat -> primitive_root (nth_root P n) (2 ^ n).
Proof.
  intros H. split; [now apply root_pow|].
  intros i Hi E. apply (root_order HP) in E; auto; lia.
Qed.

Lemma nth_root_spec {P : NttFieldClass} (HP : NttOk P) (n : nat) :
  2 ^ Z.of_nat n <= GEN_ORDER P ->
  primitive_root (nth_root P n) (2 ^ n) /\
  (2 ^ Z.of_nat (S n) <= GEN_ORDER P ->
   fmul (nth_root P (S n)) (nth_root P (S n)) = nth_root P n) /\
  exists l, nth_root_powers P (2 ^ n) = Ok l /\ length l = (2 ^ n)%nat /\ NoDup l /\
    (forall i, (i < 2 ^ n)%nat -> nth i l f0 = npow (nth_root P n) i) /\
    (forall x, In x l <-> npow x (2 ^ n) = f1).
Proof.
  intros H. apply (le_gen_log HP) in H. split; [now apply root_primitive|]. split.
  - intros H'. apply (le_gen_log HP) in H'. apply root_sq; auto.
  - exists (roots n). repeat split.
    + apply nth_root_powers_ok.
    + apply roots_length.
    + now apply NoDup_roots.
    + intros. now apply nth_roots.
    + now apply in_roots.
    + now apply in_roots.
Qed.

Lemma ntt_fields_ok : NttOk Field64 /\ NttOk Field96 /\ NttOk Field128.
Proof. exact (conj NttOk_Field64 (conj NttOk_Field96 NttOk_Field128)). Qed.

Lemma gen_order_spec {P : NttFieldClass} (HP : NttOk P) :
  primitive_root (gen P) (Z.to_nat (GEN_ORDER P)).
Proof.
  pose proof (root_primitive HP (gen_log P) ltac:(lia)) as H.
  rewrite nth_root_npow, Nat.sub_diag in H by (auto; lia).
  change (2 ^ 0)%nat with 1%nat in H. rewrite npow_1 in H.
  rewrite (ntt_order P HP), <- pow2_nat_Z, Nat2Z.id. exact H.
Qed.

Lemma ntt_correct {P : NttFieldClass} (HP : NttOk P) (p : list (F P)) (L : nat) (set_s : bool) :
  (length p <= 2 ^ L)%nat ->
  (if set_s then 2 ^ Z.of_nat (S L) else 2 ^ Z.of_nat L) <= GEN_ORDER P ->
  exists (s : F P) (q : list (F P)),
    (if set_s then fmul s s = nth_root P L /\ primitive_root s (2 ^ S L) else s = f1) /\
    ntt p (2 ^ L) set_s = Ok q /\ length q = (2 ^ L)%nat /\
    forall i, (i < 2 ^ L)%nat -> nth i q f0 = peval p (fmul s (npow (nth_root P L) i)).
Proof.
  intros Hp HL. exists (shift_root set_s L).
  assert (HL' : ((if set_s then S L else L) <= gen_log P)%nat).
  { destruct set_s; now apply (le_gen_log HP). }
  eexists. split; [|split; [|split]].
  - unfold shift_root. destruct set_s; auto. rewrite Nat.add_1_r. split.
    + apply root_sq; auto.
    + now apply root_primitive.
  - apply ntt_spec; auto.
  - now rewrite map_length, seq_length.
  - intros i Hi. rewrite (nth_map' _ _ _ 0%nat) by now rewrite seq_length.
    rewrite seq_nth by auto. rewrite firstn_all2 by auto. reflexivity.
Qed.

Lemma ntt_arg_spec {P : NttFieldClass} (p : list (F P)) (n : nat) :
  exists z, ntt_arg p n = p ++ z /\ allzero z /\ length (ntt_arg p n) = Nat.max (length p) n.
Proof.
  exists (repeat f0 (n - length p)). split; auto. split; [apply allzero_repeat|].
  unfold ntt_arg. rewrite app_length, repeat_length. lia.
Qed.

Lemma ntt_bad_size {P : NttFieldClass} (p : list (F P)) (n : nat) (set_s : bool) :
  (forall L, n <> 2 ^ L)%nat -> exists e, ntt p n set_s = Raise e.
Proof.
  intros H. unfold ntt. destruct (assert_power_of_2_Raise (Z.of_nat n)) as [e He].
  - intros k E. rewrite <- pow2_nat_Z in E. apply Nat2Z.inj in E. now apply H in E.
  - exists e. now rewrite He.
Qed.

Lemma inverse_ntt_spec {P : NttFieldClass} (HP : NttOk P) (v : list (F P)) (L : nat) :
  2 ^ Z.of_nat L <= GEN_ORDER P -> length v = (2 ^ L)%nat ->
  (exists e, ntt v (2 ^ L) false = Ok e /\ inv_ntt e (2 ^ L) = Ok v) /\
  (exists c, inv_ntt v (2 ^ L) = Ok c /\ ntt c (2 ^ L) false = Ok v).
Proof.
  intros HL Hv. apply (le_gen_log HP) in HL. split.
  - exists (evals L v). rewrite ntt_evals by (auto; lia). split; auto.
    rewrite inv_ntt_ok by auto. rewrite firstn_all2 by (rewrite evals_length; lia).
    now rewrite inv_coeffs_evals.
  - exists (inv_coeffs L v). rewrite inv_ntt_ok by auto. rewrite firstn_all2 by lia. split; auto.
    rewrite ntt_evals by (auto; rewrite inv_coeffs_length; lia). now rewrite evals_inv_coeffs.
Qed.
