(** Lemmas about the model of common.py. *)
From Verif Require Export BaseFacts Common.
Open Scope Z_scope.

(** ** Integer codecs *)
Lemma pow256_S n : 2 ^ (8 * Z.of_nat (S n)) = 256 * 2 ^ (8 * Z.of_nat n).
Proof.
  replace (8 * Z.of_nat (S n)) with (8 + 8 * Z.of_nat n) by lia.
  rewrite Z.pow_add_r by lia. reflexivity.
Qed.

Lemma pow256_pos n : 0 < 2 ^ (8 * Z.of_nat n).
Proof. apply Z.pow_pos_nonneg; lia. Qed.

Lemma le_bytes_length len v : length (le_bytes len v) = len.
Proof. revert v; induction len; simpl; auto. Qed.

Lemma from_le_bytes_range b : 0 <= from_le_bytes b < 2 ^ (8 * Z.of_nat (length b)).
Proof.
  induction b as [|x b IH].
  - simpl. lia.
  - cbn [from_le_bytes length]. rewrite pow256_S.
    pose proof (b2z_range x). lia.
Qed.

Lemma from_le_bytes_le_bytes len v :
  0 <= v < 2 ^ (8 * Z.of_nat len) -> from_le_bytes (le_bytes len v) = v.
Proof.
  revert v; induction len as [|len IH]; intros v H.
  - simpl in *. lia.
  - rewrite pow256_S in H. cbn [le_bytes from_le_bytes].
    rewrite b2z_z2b by (apply Z.mod_pos_bound; lia).
    rewrite IH.
    + pose proof (Z.div_mod v 256). lia.
    + split; [apply Z.div_pos; lia|]. apply Z.div_lt_upper_bound; lia.
Qed.

Lemma le_bytes_from_le_bytes b : le_bytes (length b) (from_le_bytes b) = b.
Proof.
  induction b as [|x b IH]; auto.
  cbn [from_le_bytes length le_bytes]. pose proof (b2z_range x).
  assert (E1 : (b2z x + 256 * from_le_bytes b) mod 256 = b2z x).
  { rewrite Z.mul_comm, Z.mod_add by lia. apply Z.mod_small; lia. }
  assert (E2 : (b2z x + 256 * from_le_bytes b) / 256 = from_le_bytes b).
  { rewrite Z.mul_comm, Z.div_add by lia. rewrite Z.div_small by lia. lia. }
  rewrite E1, E2, z2b_b2z, IH. reflexivity.
Qed.

Lemma from_le_bytes_inj a b :
  length a = length b -> from_le_bytes a = from_le_bytes b -> a = b.
Proof.
  intros H1 H2. rewrite <- (le_bytes_from_le_bytes a), <- (le_bytes_from_le_bytes b).
  now rewrite H1, H2.
Qed.

Lemma codec_guard v len :
  ((v <? 0) || (Z.shiftl 1 (8 * Z.of_nat len) <=? v) = false) <->
  0 <= v < 2 ^ (8 * Z.of_nat len).
Proof.
  rewrite Z.shiftl_1_l, orb_false_iff, Z.ltb_ge, Z.leb_gt. reflexivity.
Qed.

Lemma to_le_bytes_ok v len :
  0 <= v < 2 ^ (8 * Z.of_nat len) -> to_le_bytes v len = Ok (le_bytes len v).
Proof. intros H. unfold to_le_bytes. now rewrite (proj2 (codec_guard v len) H). Qed.

Lemma to_le_bytes_Ok v len b :
  to_le_bytes v len = Ok b <->
  0 <= v < 2 ^ (8 * Z.of_nat len) /\ b = le_bytes len v.
Proof.
  unfold to_le_bytes. rewrite <- codec_guard.
  destruct (_ || _); split; try congruence.
  - intros [? _]; congruence.
  - intros [= <-]; auto.
  - intros [_ ->]; auto.
Qed.

Lemma to_le_bytes_spec v len b :
  to_le_bytes v len = Ok b -> length b = len /\ from_le_bytes b = v.
Proof.
  intros H. apply to_le_bytes_Ok in H as [H ->].
  split; [apply le_bytes_length | now apply from_le_bytes_le_bytes].
Qed.

Lemma to_be_bytes_ok v len :
  0 <= v < 2 ^ (8 * Z.of_nat len) -> to_be_bytes v len = Ok (rev (le_bytes len v)).
Proof. intros H. unfold to_be_bytes. now rewrite (proj2 (codec_guard v len) H). Qed.

Lemma to_be_bytes_Ok v len b :
  to_be_bytes v len = Ok b <->
  0 <= v < 2 ^ (8 * Z.of_nat len) /\ b = rev (le_bytes len v).
Proof.
  unfold to_be_bytes. rewrite <- codec_guard.
  destruct (_ || _); split; try congruence.
  - intros [? _]; congruence.
  - intros [= <-]; auto.
  - intros [_ ->]; auto.
Qed.

Lemma to_be_bytes_spec v len b :
  to_be_bytes v len = Ok b -> length b = len /\ from_be_bytes b = v.
Proof.
  intros H. apply to_be_bytes_Ok in H as [H ->].
  unfold from_be_bytes. rewrite rev_involutive, rev_length.
  split; [apply le_bytes_length | now apply from_le_bytes_le_bytes].
Qed.

Lemma from_be_bytes_range b : 0 <= from_be_bytes b < 2 ^ (8 * Z.of_nat (length b)).
Proof. unfold from_be_bytes. rewrite <- (rev_length b). apply from_le_bytes_range. Qed.

Lemma to_le_from_le b : to_le_bytes (from_le_bytes b) (length b) = Ok b.
Proof. rewrite to_le_bytes_ok by apply from_le_bytes_range. now rewrite le_bytes_from_le_bytes. Qed.

Lemma to_be_from_be b : to_be_bytes (from_be_bytes b) (length b) = Ok b.
Proof.
  rewrite to_be_bytes_ok by apply from_be_bytes_range.
  unfold from_be_bytes. rewrite <- (rev_length b), le_bytes_from_le_bytes, rev_involutive.
  reflexivity.
Qed.

(** ** Powers of two *)
Lemma log2_up_unique_pow a : 0 <= a -> Z.log2_up (2 ^ a) = a.
Proof. apply Z.log2_up_pow2. Qed.

Lemma assert_power_of_2_Ok n k :
  assert_power_of_2 n = Ok k <-> n = 2 ^ Z.of_nat k.
Proof.
  unfold assert_power_of_2. rewrite Z.shiftl_1_l. split.
  - destruct (Z.leb_spec n 0); [discriminate|].
    destruct (Z.eqb_spec n (2 ^ Z.log2_up n)); [|discriminate].
    intros [= <-]. rewrite Z2Nat.id by apply Z.log2_up_nonneg. auto.
  - intros ->. assert (0 < 2 ^ Z.of_nat k) by (apply Z.pow_pos_nonneg; lia).
    destruct (Z.leb_spec (2 ^ Z.of_nat k) 0); [lia|].
    rewrite Z.log2_up_pow2 by lia. rewrite Z.eqb_refl, Nat2Z.id. reflexivity.
Qed.

Lemma pow2_nat_Z k : Z.of_nat (2 ^ k) = 2 ^ Z.of_nat k.
Proof. rewrite Nat2Z.inj_pow. reflexivity. Qed.

Lemma assert_power_of_2_nat k : assert_power_of_2 (Z.of_nat (2 ^ k)) = Ok k.
Proof. apply assert_power_of_2_Ok. apply pow2_nat_Z. Qed.

Lemma assert_power_of_2_nat_Ok n k :
  assert_power_of_2 (Z.of_nat n) = Ok k -> n = (2 ^ k)%nat.
Proof. intros H. apply assert_power_of_2_Ok in H. rewrite <- pow2_nat_Z in H. lia. Qed.

Lemma assert_power_of_2_Raise n :
  (forall k, n <> 2 ^ Z.of_nat k) -> exists e, assert_power_of_2 n = Raise e.
Proof.
  intros H. destruct (assert_power_of_2 n) as [k|e] eqn:E; eauto.
  apply assert_power_of_2_Ok in E. now apply H in E.
Qed.

Lemma bit_length_spec n : 0 <= n ->
  n < 2 ^ Z.of_nat (bit_length n) /\
  (n <> 0 -> 2 ^ (Z.of_nat (bit_length n) - 1) <= n) /\
  (n = 0 -> bit_length n = 0%nat).
Proof.
  intros Hn. unfold bit_length. destruct (Z.eqb_spec n 0) as [->|Hne].
  - simpl. lia.
  - rewrite Z.abs_eq by lia. pose proof (Z.log2_nonneg n).
    rewrite Nat2Z.inj_succ, Z2Nat.id by lia.
    pose proof (Z.log2_spec n). split; [lia|]. split; [|lia].
    intros _. replace (Z.succ (Z.log2 n) - 1) with (Z.log2 n) by lia. lia.
Qed.

Lemma next_power_of_2_ok n : 0 < n ->
  next_power_of_2 n = Ok (2 ^ Z.of_nat (bit_length (n - 1))).
Proof.
  intros H. unfold next_power_of_2. rewrite Z.shiftl_1_l.
  now rewrite (proj2 (Z.ltb_lt 0 n) H).
Qed.

Lemma next_power_of_2_least n r : next_power_of_2 n = Ok r ->
  0 < n /\ (exists k : nat, r = 2 ^ Z.of_nat k) /\ n <= r /\
  (forall k : nat, n <= 2 ^ Z.of_nat k -> r <= 2 ^ Z.of_nat k).
Proof.
  unfold next_power_of_2. destruct (Z.ltb_spec 0 n) as [Hn|]; [|discriminate].
  rewrite Z.shiftl_1_l. intros [= <-].
  pose proof (bit_length_spec (n - 1) ltac:(lia)) as (H1 & H2 & H3).
  repeat split; eauto; [lia|].
  intros k Hk. apply Z.pow_le_mono_r; [lia|].
  destruct (Z.eq_dec (n - 1) 0) as [E|E].
  - rewrite H3 by auto. lia.
  - specialize (H2 E).
    assert (Z.of_nat (bit_length (n - 1)) - 1 < Z.of_nat k); [|lia].
    apply (Z.pow_lt_mono_r_iff 2); [lia|lia|]. lia.
Qed.

Lemma next_power_of_2_nat_spec n r : next_power_of_2_nat n = Ok r ->
  (0 < n)%nat /\ exists k, r = (2 ^ k)%nat /\ (n <= r)%nat /\
    (forall j, (n <= 2 ^ j)%nat -> (r <= 2 ^ j)%nat).
Proof.
  unfold next_power_of_2_nat. intros H. apply bind_Ok in H as (z & H & E).
  apply next_power_of_2_least in H as (H0 & (k & ->) & H1 & H2).
  injection E as <-. split; [lia|]. exists k.
  rewrite <- pow2_nat_Z, Nat2Z.id. rewrite <- pow2_nat_Z in H1.
  repeat split; [lia|].
  intros j Hj. specialize (H2 j). rewrite <- !pow2_nat_Z in H2. lia.
Qed.

Lemma next_power_of_2_nat_ok n : (0 < n)%nat ->
  exists k, next_power_of_2_nat n = Ok (2 ^ k)%nat /\ (n <= 2 ^ k)%nat /\ (2 ^ k < 2 * n)%nat.
Proof.
  intros H. unfold next_power_of_2_nat. rewrite next_power_of_2_ok by lia.
  exists (bit_length (Z.of_nat n - 1)).
  simpl. rewrite <- pow2_nat_Z, Nat2Z.id. split; auto.
  pose proof (bit_length_spec (Z.of_nat n - 1) ltac:(lia)) as (H1 & H2 & H3).
  rewrite <- pow2_nat_Z in H1. split; [lia|].
  destruct (Z.eq_dec (Z.of_nat n - 1) 0) as [E|E].
  - rewrite H3 by auto. simpl. lia.
  - specialize (H2 E). destruct (bit_length (Z.of_nat n - 1)) as [|b].
    + simpl in *. lia.
    + replace (Z.of_nat (S b) - 1) with (Z.of_nat b) in H2 by lia.
      rewrite <- pow2_nat_Z in H2. simpl. lia.
Qed.

(** ** Bit reversal *)
(** [k]-bit reversal, by recursion on [k]. *)
Fixpoint brev (k : nat) (n : Z) : Z :=
  match k with
  | O => 0
  | S k' => 2 ^ Z.of_nat k' * (n mod 2) + brev k' (n / 2)
  end.

Fixpoint lsb_digits (k : nat) (n : Z) : list bool :=
  match k with
  | O => []
  | S k' => Z.odd n :: lsb_digits k' (n / 2)
  end.

Lemma lsb_digits_zero k : lsb_digits k 0 = repeat false k.
Proof. induction k; auto. cbn [lsb_digits repeat]. change (0 / 2) with 0. now rewrite IHk. Qed.

Lemma pos_digits_pad p : forall k, Zpos p < 2 ^ Z.of_nat k ->
  pos_digits_lsb p ++ repeat false (k - length (pos_digits_lsb p)) = lsb_digits k (Zpos p).
Proof.
  induction p; intros [|k] H; try (simpl in H; lia).
  - rewrite Nat2Z.inj_succ, Z.pow_succ_r in H by lia. cbn [pos_digits_lsb lsb_digits app length].
    replace (Z.odd (Zpos p~1)) with true by reflexivity.
    replace (Zpos p~1 / 2) with (Zpos p).
    2:{ rewrite Pos2Z.inj_xI. rewrite Z.add_comm, Z.mul_comm, Z.div_add by lia. reflexivity. }
    replace (S k - S (length (pos_digits_lsb p)))%nat with (k - length (pos_digits_lsb p))%nat by lia.
    rewrite IHp; auto. rewrite Pos2Z.inj_xI in H. lia.
  - rewrite Nat2Z.inj_succ, Z.pow_succ_r in H by lia. cbn [pos_digits_lsb lsb_digits app length].
    replace (Z.odd (Zpos p~0)) with false by reflexivity.
    replace (Zpos p~0 / 2) with (Zpos p).
    2:{ rewrite Pos2Z.inj_xO. rewrite Z.mul_comm, Z.div_mul by lia. reflexivity. }
    replace (S k - S (length (pos_digits_lsb p)))%nat with (k - length (pos_digits_lsb p))%nat by lia.
    rewrite IHp; auto. rewrite Pos2Z.inj_xO in H. lia.
  - cbn [pos_digits_lsb lsb_digits app length]. replace (S k - 1)%nat with k by lia.
    replace (1 / 2) with 0 by reflexivity. rewrite lsb_digits_zero. reflexivity.
Qed.

Lemma int_of_digits_acc ds acc :
  fold_left (fun (acc : Z) (d : bool) => 2 * acc + (if d then 1 else 0)) ds acc
  = acc * 2 ^ Z.of_nat (length ds) + int_of_digits ds.
Proof.
  unfold int_of_digits. revert acc. induction ds as [|d ds IH]; intros acc.
  - cbn [fold_left length]. change (2 ^ Z.of_nat 0) with 1. lia.
  - cbn [fold_left length]. rewrite IH. rewrite (IH (2 * 0 + _)).
    rewrite Nat2Z.inj_succ, Z.pow_succ_r by lia. ring.
Qed.

Lemma int_of_digits_lsb k n : int_of_digits (lsb_digits k n) = brev k n.
Proof.
  revert n; induction k as [|k IH]; intros n.
  - reflexivity.
  - cbn [lsb_digits brev]. unfold int_of_digits. cbn [fold_left].
    rewrite int_of_digits_acc, IH.
    assert (length (lsb_digits k (n / 2)) = k) as ->.
    { clear. revert n. induction k; simpl; auto; intros; f_equal; auto. }
    rewrite (Zmod_odd n). destruct (Z.odd n); ring.
Qed.

Lemma bitrev_brev k n : 0 <= n < 2 ^ Z.of_nat k -> bitrev k n = Ok (brev k n).
Proof.
  intros H. unfold bitrev. rewrite Z.shiftl_1_l.
  destruct (Z.leb_spec 0 n); [|lia]. destruct (Z.ltb_spec n (2 ^ Z.of_nat k)); [|lia].
  cbn [andb]. f_equal.
  destruct n as [|p|p]; [| |lia].
  - simpl rev. destruct k as [|k]; [reflexivity|].
    cbn [length app]. replace (S k - 1)%nat with k by lia.
    rewrite <- int_of_digits_lsb. cbn [lsb_digits]. change (0 / 2) with 0.
    now rewrite lsb_digits_zero.
  - unfold bin_digits. rewrite rev_involutive, pos_digits_pad by lia. apply int_of_digits_lsb.
Qed.

Lemma bitrev_Ok k n r : bitrev k n = Ok r -> 0 <= n < 2 ^ Z.of_nat k /\ r = brev k n.
Proof.
  intros H. assert (0 <= n < 2 ^ Z.of_nat k) as Hn.
  { unfold bitrev in H. rewrite Z.shiftl_1_l in H.
    destruct (Z.leb_spec 0 n); [|discriminate].
    destruct (Z.ltb_spec n (2 ^ Z.of_nat k)); [lia|discriminate]. }
  split; auto. rewrite bitrev_brev in H by auto. congruence.
Qed.

Lemma brev_range k n : 0 <= brev k n < 2 ^ Z.of_nat k.
Proof.
  revert n; induction k as [|k IH]; intros n; cbn [brev].
  - simpl; lia.
  - rewrite Nat2Z.inj_succ, Z.pow_succ_r by lia. specialize (IH (n / 2)).
    pose proof (Z.mod_pos_bound n 2). nia.
Qed.

Lemma brev_testbit k n i : 0 <= n -> (i < k)%nat ->
  Z.testbit (brev k n) (Z.of_nat i) = Z.testbit n (Z.of_nat (k - 1 - i)).
Proof.
  revert n i; induction k as [|k IH]; intros n i Hn Hi; [lia|].
  cbn [brev]. pose proof (brev_range k (n / 2)) as Hr.
  destruct (Nat.eq_dec i k) as [->|Hik].
  - replace (S k - 1 - k)%nat with 0%nat by lia.
    rewrite Z.add_comm, Z.mul_comm.
    cbn [Z.of_nat]. rewrite Z.bit0_odd.
    apply Z.b2z_inj. rewrite Z.testbit_spec' by lia.
    rewrite Z.div_add by lia.
    rewrite Z.div_small by lia. rewrite Z.add_0_l, Zmod_mod, Zmod_odd.
    now destruct (Z.odd n).
  - replace (S k - 1 - i)%nat with (S (k - 1 - i)) by lia.
    rewrite Nat2Z.inj_succ. rewrite <- (Z.div2_bits n) by lia.
    rewrite <- IH by (try apply Z.div_pos; lia).
    rewrite <- (Z.mod_pow2_bits_low _ (Z.of_nat k)) by lia.
    f_equal. rewrite Z.add_comm, Z.mul_comm, Z.mod_add by (apply Z.pow_nonzero; lia).
    apply Z.mod_small. auto.
Qed.

Lemma brev_involutive k n : 0 <= n < 2 ^ Z.of_nat k -> brev k (brev k n) = n.
Proof.
  intros H. apply Z.bits_inj'. intros i Hi.
  destruct (Z.lt_ge_cases i (Z.of_nat k)) as [Hlt|Hge].
  - rewrite <- (Z2Nat.id i) by lia.
    pose proof (brev_range k n).
    rewrite brev_testbit by lia. rewrite brev_testbit by lia. f_equal. lia.
  - pose proof (brev_range k (brev k n)) as H'.
    rewrite <- (Z.mod_small _ _ H'), <- (Z.mod_small n _ H).
    now rewrite !Z.mod_pow2_bits_high by lia.
Qed.

Lemma brev_double m j : brev (S m) (2 * j) = brev m j.
Proof.
  cbn [brev]. rewrite (Z.mul_comm 2 j), Z.mod_mul, Z.div_mul by lia. lia.
Qed.

Lemma brev_double1 m j : brev (S m) (2 * j + 1) = brev m j + 2 ^ Z.of_nat m.
Proof.
  cbn [brev]. rewrite (Z.add_comm _ 1), (Z.mul_comm 2 j), Z.mod_add, Z.div_add by lia.
  change (1 / 2) with 0. change (1 mod 2) with 1. rewrite Z.add_0_l. lia.
Qed.

(** ** xor *)
Lemma byte_xor_z a b : b2z (byte_xor a b) = Z.lxor (b2z a) (b2z b).
Proof.
  unfold byte_xor. apply b2z_z2b. pose proof (b2z_range a). pose proof (b2z_range b).
  split; [apply Z.lxor_nonneg; lia|].
  destruct (Z.eq_dec (Z.lxor (b2z a) (b2z b)) 0) as [->|Hn]; [lia|].
  assert (0 <= Z.lxor (b2z a) (b2z b)) by (apply Z.lxor_nonneg; lia).
  change 256 with (2 ^ 8). apply Z.log2_lt_pow2; [lia|].
  eapply Z.le_lt_trans; [apply Z.log2_lxor; lia|].
  apply Z.max_lub_lt.
  - destruct (Z.eq_dec (b2z a) 0) as [->|]; [reflexivity|]. apply Z.log2_lt_pow2; lia.
  - destruct (Z.eq_dec (b2z b) 0) as [->|]; [reflexivity|]. apply Z.log2_lt_pow2; lia.
Qed.

Lemma byte_xor_assoc a b c : byte_xor (byte_xor a b) c = byte_xor a (byte_xor b c).
Proof. apply b2z_inj. rewrite !byte_xor_z. apply Z.lxor_assoc. Qed.
Lemma byte_xor_comm a b : byte_xor a b = byte_xor b a.
Proof. apply b2z_inj. rewrite !byte_xor_z. apply Z.lxor_comm. Qed.
Lemma byte_xor_nilpotent a : byte_xor a a = x00.
Proof. apply b2z_inj. rewrite !byte_xor_z. rewrite Z.lxor_nilpotent. reflexivity. Qed.
Lemma byte_xor_0_r a : byte_xor a x00 = a.
Proof. apply b2z_inj. rewrite !byte_xor_z. apply Z.lxor_0_r. Qed.
Lemma byte_xor_0_l a : byte_xor x00 a = a.
Proof. rewrite byte_xor_comm. apply byte_xor_0_r. Qed.
Lemma byte_xor_cancel a b : byte_xor (byte_xor a b) b = a.
Proof. now rewrite byte_xor_assoc, byte_xor_nilpotent, byte_xor_0_r. Qed.

Lemma xor_length a b : length (xor a b) = Nat.min (length a) (length b).
Proof. revert b; induction a; intros [|]; simpl; auto. Qed.
Lemma xor_comm a b : xor a b = xor b a.
Proof. revert b; induction a; intros [|]; simpl; auto. now rewrite byte_xor_comm, IHa. Qed.
Lemma xor_assoc a b c : xor (xor a b) c = xor a (xor b c).
Proof. revert b c; induction a; intros [|] [|]; simpl; auto. now rewrite byte_xor_assoc, IHa. Qed.
Lemma xor_cancel a b : length a = length b -> xor (xor a b) b = a.
Proof. revert b; induction a; intros [|]; simpl; auto; try discriminate. intros [= H].
  now rewrite byte_xor_cancel, IHa. Qed.
Lemma xor_nilpotent a : xor a a = zeros (length a).
Proof. induction a; simpl; auto. now rewrite byte_xor_nilpotent, IHa. Qed.
Lemma xor_zeros_r a n : (length a <= n)%nat -> xor a (zeros n) = a.
Proof. revert n; induction a; intros [|n]; simpl; auto; try lia. intros.
  rewrite byte_xor_0_r, IHa by lia. reflexivity. Qed.
Lemma xor_zeros_l a n : (length a <= n)%nat -> xor (zeros n) a = a.
Proof. intros. rewrite xor_comm. now apply xor_zeros_r. Qed.
Lemma zeros_length n : length (zeros n) = n.
Proof. apply repeat_length. Qed.
Lemma nth_xor a b i : (i < length a)%nat -> (i < length b)%nat ->
  nth i (xor a b) x00 = byte_xor (nth i a x00) (nth i b x00).
Proof. revert b i; induction a; intros [|] [|]; simpl; intros; try lia; auto. apply IHa; lia. Qed.

(** ** zip_with *)
Lemma zip_with_length {A B C} (f : A -> B -> C) l r :
  length (zip_with f l r) = Nat.min (length l) (length r).
Proof. revert r; induction l; intros [|]; simpl; auto. Qed.

Lemma nth_zip_with {A B C} (f : A -> B -> C) l r i da db dc :
  (i < length l)%nat -> (i < length r)%nat ->
  nth i (zip_with f l r) dc = f (nth i l da) (nth i r db).
Proof. revert r i; induction l; intros [|] [|]; simpl; intros; try lia; auto. apply IHl; lia. Qed.

(** ** front *)
Lemma front_ok {A} n (l : list A) : (n <= length l)%nat -> front n l = Ok (firstn n l, skipn n l).
Proof. intros H. unfold front. now rewrite (proj2 (Nat.leb_le _ _) H). Qed.

Lemma front_Ok {A} n (l a b : list A) :
  front n l = Ok (a, b) <-> length a = n /\ l = a ++ b.
Proof.
  unfold front. destruct (Nat.leb_spec n (length l)); split.
  - intros [= <- <-]. split; [rewrite firstn_length; lia | now rewrite firstn_skipn].
  - intros [H1 ->]. rewrite firstn_app_exact, skipn_app_exact; auto.
  - discriminate.
  - intros [H1 ->]. rewrite app_length in H. lia.
Qed.

Lemma front_app {A} n (a b : list A) : length a = n -> front n (a ++ b) = Ok (a, b).
Proof. intros. now apply front_Ok. Qed.

(** ** Domain separation tags *)
Lemma format_dst_length c a u d : format_dst c a u = Ok d -> length d = 8%nat.
Proof.
  unfold format_dst. intros H. inv_ok H.
  repeat match goal with HH : to_be_bytes _ _ = _ |- _ => apply to_be_bytes_spec in HH as [? ?] end.
  simpl. rewrite !app_length. simpl. lia.
Qed.

Lemma format_dst_Ok c a u d : format_dst c a u = Ok d ->
  0 <= c < 2 ^ 8 /\ 0 <= a < 2 ^ 32 /\ 0 <= u < 2 ^ 16.
Proof.
  unfold format_dst. intros H. inv_ok H.
  repeat match goal with HH : to_be_bytes _ _ = _ |- _ => apply to_be_bytes_Ok in HH as [? ?] end.
  simpl Z.of_nat in *. auto.
Qed.

Lemma format_dst_total c a u :
  0 <= c < 2 ^ 8 -> 0 <= a < 2 ^ 32 -> 0 <= u < 2 ^ 16 -> exists d, format_dst c a u = Ok d.
Proof.
  intros. unfold format_dst. rewrite !to_be_bytes_ok by (simpl Z.of_nat; unfold VERSION; lia).
  simpl. eauto.
Qed.

Lemma app_inj_len {A} (a b c d : list A) : length a = length c -> a ++ b = c ++ d -> a = c /\ b = d.
Proof.
  revert c; induction a; intros [|]; simpl; try discriminate; auto.
  intros [= H] [= -> E]. apply IHa in E as [-> ->]; auto.
Qed.

Lemma format_dst_inj c a u c' a' u' d d' s s' :
  format_dst c a u = Ok d -> format_dst c' a' u' = Ok d' -> d ++ s = d' ++ s' ->
  c = c' /\ a = a' /\ u = u' /\ s = s'.
Proof.
  intros H H' E. pose proof (format_dst_length _ _ _ _ H) as L.
  pose proof (format_dst_length _ _ _ _ H') as L'.
  apply app_inj_len in E as [-> ->]; [|congruence].
  unfold format_dst in *. inv_ok H. inv_ok H'.
  repeat match goal with HH : to_be_bytes _ _ = _ |- _ => apply to_be_bytes_spec in HH as [? ?] end.
  unfold concat_bytes in *. simpl concat in *.
  match goal with HH : _ ++ _ = _ ++ _ |- _ => rename HH into E end.
  apply app_inj_len in E as [? E]; [|lia].
  apply app_inj_len in E as [? E]; [|lia].
  apply app_inj_len in E as [? E]; [|lia].
  apply app_inj_len in E as [? E]; [|lia].
  subst. auto.
Qed.
