(** Proofs of the codec properties stated in Props_Codec.v. *)
From Verif Require Export FieldFacts Primes.
Open Scope Z_scope.

Lemma zsum_ext n f g : (forall i, (i < n)%nat -> f i = g i) -> zsum n f = zsum n g.
Proof. induction n; simpl; intros H; auto. rewrite IHn, H; auto. Qed.
Lemma zsum_S_l n f : zsum (S n) f = f 0%nat + zsum n (fun i => f (S i)).
Proof. induction n; simpl in *; lia. Qed.
Lemma zsum_scale n c f : zsum n (fun i => c * f i) = c * zsum n f.
Proof. induction n; simpl; lia. Qed.
Lemma zsum_rev n f : zsum n f = zsum n (fun i => f (n - 1 - i)%nat).
Proof.
  induction n; auto. rewrite zsum_S_l. cbn [zsum]. 
  replace (S n - 1 - n)%nat with 0%nat by lia.
  rewrite (zsum_ext n (fun i => f (S n - 1 - i)%nat) (fun i => f (S (n - 1 - i)))).
  - rewrite Z.add_comm. f_equal. clear. 
    revert f. induction n; intros f; auto.
    rewrite zsum_S_l. cbn [zsum]. replace (S n - 1 - n)%nat with 0%nat by lia.
    rewrite (zsum_ext n (fun i => f (S (S n - 1 - i))) (fun i => f (S (S (n - 1 - i))))).
    + rewrite <- (IHn (fun i => f (S i))). lia.
    + intros i Hi. do 2 f_equal. lia.
  - intros i Hi. f_equal. lia.
Qed.

Lemma from_le_bytes_sum b :
  from_le_bytes b = zsum (length b) (fun i => b2z (nth i b x00) * 256 ^ Z.of_nat i).
Proof.
  induction b as [|x b IH]; auto.
  cbn [from_le_bytes length]. rewrite zsum_S_l. cbn [nth].
  rewrite IH, <- zsum_scale. change (Z.of_nat 0) with 0. rewrite Z.pow_0_r, Z.mul_1_r. f_equal.
  apply zsum_ext. intros i Hi. rewrite Nat2Z.inj_succ, Z.pow_succ_r by lia. ring.
Qed.

Lemma from_be_bytes_sum b :
  from_be_bytes b =
  zsum (length b) (fun i => b2z (nth i b x00) * 256 ^ Z.of_nat (length b - 1 - i)).
Proof.
  unfold from_be_bytes. rewrite from_le_bytes_sum, rev_length. rewrite zsum_rev.
  apply zsum_ext. intros i Hi. rewrite rev_nth by lia. do 3 f_equal. lia.
Qed.

Lemma codec_int_encode v n :
  (forall b, to_le_bytes v n = Ok b <->
     0 <= v < 2 ^ (8 * Z.of_nat n) /\ length b = n /\
     v = zsum n (fun i => b2z (nth i b x00) * 256 ^ Z.of_nat i)) /\
  (forall b, to_be_bytes v n = Ok b <->
     0 <= v < 2 ^ (8 * Z.of_nat n) /\ length b = n /\
     v = zsum n (fun i => b2z (nth i b x00) * 256 ^ Z.of_nat (n - 1 - i))) /\
  (~ 0 <= v < 2 ^ (8 * Z.of_nat n) ->
     (exists m, to_le_bytes v n = Raise (ValueError m)) /\
     (exists m, to_be_bytes v n = Raise (ValueError m))).
Proof.
  split; [|split].
  - intros b. split.
    + intros H. pose proof H as H'. apply to_le_bytes_Ok in H' as [Hr _].
      apply to_le_bytes_spec in H as [<- <-]. repeat split; try apply from_le_bytes_range.
      apply from_le_bytes_sum.
    + intros (Hr & <- & E). rewrite <- from_le_bytes_sum in E. rewrite E. apply to_le_from_le.
  - intros b. split.
    + intros H. pose proof H as H'. apply to_be_bytes_Ok in H' as [Hr _].
      apply to_be_bytes_spec in H as [<- <-]. repeat split; try apply from_be_bytes_range.
      apply from_be_bytes_sum.
    + intros (Hr & <- & E). rewrite <- from_be_bytes_sum in E. rewrite E. apply to_be_from_be.
  - intros H. unfold to_le_bytes, to_be_bytes.
    destruct (_ || _) eqn:E; [split; eauto|]. apply codec_guard in E. contradiction.
Qed.

Lemma codec_int_decode b :
  from_le_bytes b = zsum (length b) (fun i => b2z (nth i b x00) * 256 ^ Z.of_nat i) /\
  from_be_bytes b = zsum (length b) (fun i => b2z (nth i b x00) * 256 ^ Z.of_nat (length b - 1 - i)) /\
  to_le_bytes (from_le_bytes b) (length b) = Ok b /\
  to_be_bytes (from_be_bytes b) (length b) = Ok b.
Proof.
  repeat split; [apply from_le_bytes_sum | apply from_be_bytes_sum | apply to_le_from_le | apply to_be_from_be].
Qed.

Lemma concat_slice {P} (v : list (F P)) i : (i < length v)%nat ->
  slice (concat (map encode_elem v)) (i * ENCODED_SIZE P) ((i + 1) * ENCODED_SIZE P)
  = encode_elem (nth i v f0).
Proof.
  intros Hi. unfold slice.
  replace ((i + 1) * ENCODED_SIZE P - i * ENCODED_SIZE P)%nat with (ENCODED_SIZE P) by lia.
  revert v Hi. induction i as [|i IH]; intros [|x v] Hi; try (simpl in Hi; lia).
  - simpl. apply firstn_app_exact. apply le_bytes_length.
  - cbn [map concat nth]. replace (S i * ENCODED_SIZE P)%nat with (ENCODED_SIZE P + i * ENCODED_SIZE P)%nat by lia.
    rewrite skipn_app. rewrite skipn_all2 by (unfold encode_elem; rewrite le_bytes_length; lia).
    unfold encode_elem at 1. rewrite le_bytes_length.
    replace (ENCODED_SIZE P + i * ENCODED_SIZE P - ENCODED_SIZE P)%nat with (i * ENCODED_SIZE P)%nat by lia.
    apply IH. simpl in Hi. lia.
Qed.

Lemma codec_vec {P} : wf_field P ->
  (forall v : list (F P), exists b,
     encode_vec v = Ok b /\ length b = (length v * ENCODED_SIZE P)%nat /\ decode_vec b = Ok v /\
     forall i, (i < length v)%nat ->
       from_le_bytes (slice b (i * ENCODED_SIZE P) ((i + 1) * ENCODED_SIZE P)) = val (nth i v f0)) /\
  (forall b (v : list (F P)), decode_vec b = Ok v -> encode_vec v = Ok b) /\
  (forall b e, decode_vec b = Raise e :> res (list (F P)) -> exists m, e = ValueError m).
Proof.
  intros [Hpos Hs]. split; [|split].
  - intros v. exists (concat (map encode_elem v)). rewrite encode_vec_ok by auto.
    repeat split; auto.
    + apply concat_encode_length.
    + now apply decode_encode_vec.
    + intros i Hi. rewrite concat_slice by auto. apply from_le_bytes_le_bytes.
      pose proof (val_range (nth i v f0)). lia.
  - intros b v H. apply decode_vec_Ok in H; auto. subst. now apply encode_vec_ok.
  - intros. eapply decode_vec_Raise; eauto.
Qed.

Lemma codec_vec_rejects {P} b : wf_field P ->
  is_ok (decode_vec b : res (list (F P))) = true <->
  (length b mod ENCODED_SIZE P = 0)%nat /\
  forall i, (i < length b / ENCODED_SIZE P)%nat ->
    from_le_bytes (slice b (i * ENCODED_SIZE P) ((i + 1) * ENCODED_SIZE P)) < MODULUS P.
Proof.
  intros [Hpos Hs]. split.
  - destruct (decode_vec b) as [v|e] eqn:E; [|discriminate]. intros _.
    apply decode_vec_Ok in E; auto. subst b. rewrite concat_encode_length.
    rewrite Nat.mod_mul, Nat.div_mul by lia. split; auto.
    intros i Hi. rewrite concat_slice by auto. unfold encode_elem.
    pose proof (val_range (nth i v f0)). rewrite from_le_bytes_le_bytes; lia.
  - intros [Hm Hall]. apply Nat.mod_divides in Hm as [k Hk]; [|lia].
    assert (exists v : list (F P), b = concat (map encode_elem v)) as [v ->].
    { rewrite Nat.mul_comm in Hk. rewrite Hk, Nat.div_mul in Hall by lia.
      revert b Hk Hall. induction k as [|k IH]; intros b Hk Hall.
      - exists []. destruct b; [auto|simpl in Hk; lia].
      - destruct (IH (skipn (ENCODED_SIZE P) b)) as [v Hv].
        + rewrite skipn_length. lia.
        + intros i Hi. specialize (Hall (S i) ltac:(lia)).
          unfold slice in *. rewrite skipn_skipn'.
          replace ((S i + 1) * ENCODED_SIZE P - S i * ENCODED_SIZE P)%nat
            with ((i + 1) * ENCODED_SIZE P - i * ENCODED_SIZE P)%nat in Hall by lia.
          replace (i * ENCODED_SIZE P + ENCODED_SIZE P)%nat with (S i * ENCODED_SIZE P)%nat by lia.
          exact Hall.
        + exists (fof (from_le_bytes (firstn (ENCODED_SIZE P) b)) :: v).
          cbn [map concat]. rewrite <- Hv. rewrite <- (firstn_skipn (ENCODED_SIZE P) b) at 1.
          f_equal. unfold encode_elem. specialize (Hall 0%nat ltac:(lia)).
          unfold slice in Hall. simpl in Hall. rewrite Nat.add_0_r, Nat.sub_0_r in Hall.
          pose proof (from_le_bytes_range (firstn (ENCODED_SIZE P) b)).
          rewrite val_fof_small by lia.
          assert (length (firstn (ENCODED_SIZE P) b) = ENCODED_SIZE P) as L
            by (rewrite firstn_length; lia).
          rewrite <- L at 2. now rewrite le_bytes_from_le_bytes. }
    rewrite decode_encode_vec by auto. reflexivity.
Qed.

Lemma pow2_helpers n :
  (forall r, next_power_of_2 n = Ok r <->
     0 < n /\ (exists k : nat, r = 2 ^ Z.of_nat k) /\ n <= r /\
     (forall k : nat, n <= 2 ^ Z.of_nat k -> r <= 2 ^ Z.of_nat k)) /\
  (n <= 0 -> next_power_of_2 n = Raise AssertionError) /\
  (forall k, assert_power_of_2 n = Ok k <-> n = 2 ^ Z.of_nat k) /\
  ((forall k : nat, n <> 2 ^ Z.of_nat k) -> exists e, assert_power_of_2 n = Raise e).
Proof.
  split; [|split; [|split]].
  - intros r. split; [apply next_power_of_2_least|].
    intros (Hn & (k & ->) & Hle & Hmin).
    pose proof (next_power_of_2_ok n Hn) as E.
    pose proof (next_power_of_2_least _ _ E) as (_ & _ & Hle' & Hmin').
    rewrite E. f_equal. specialize (Hmin _ Hle'). specialize (Hmin' _ Hle). lia.
  - intros H. unfold next_power_of_2. destruct (Z.ltb_spec 0 n); [lia|auto].
  - intros k. apply assert_power_of_2_Ok.
  - apply assert_power_of_2_Raise.
Qed.

Lemma bitrev_spec k n :
  (0 <= n < 2 ^ Z.of_nat k ->
   exists r, bitrev k n = Ok r /\ 0 <= r < 2 ^ Z.of_nat k /\ bitrev k r = Ok n /\
     forall i, (i < k)%nat -> Z.testbit r (Z.of_nat i) = Z.testbit n (Z.of_nat (k - 1 - i))) /\
  (~ 0 <= n < 2 ^ Z.of_nat k -> bitrev k n = Raise AssertionError).
Proof.
  split.
  - intros H. exists (brev k n). pose proof (brev_range k n).
    rewrite !bitrev_brev by auto. repeat split; try lia.
    + f_equal. now apply brev_involutive.
    + intros i Hi. apply brev_testbit; lia.
  - intros H. unfold bitrev. rewrite Z.shiftl_1_l.
    destruct (Z.leb_spec 0 n), (Z.ltb_spec n (2 ^ Z.of_nat k)); auto. lia.
Qed.

Lemma vec_ops {P} (l r : list (F P)) :
  (length l = length r -> exists s d,
     vec_add l r = Ok s /\ vec_sub l r = Ok d /\
     length s = length l /\ length d = length l /\
     (forall i, (i < length l)%nat ->
        nth i s f0 = fadd (nth i l f0) (nth i r f0) /\
        nth i d f0 = fsub (nth i l f0) (nth i r f0)) /\
     vec_sub s r = Ok l /\ vec_add d r = Ok l) /\
  (length l <> length r ->
     (exists m, vec_add l r = Raise (ValueError m)) /\ (exists m, vec_sub l r = Raise (ValueError m))) /\
  (length (vec_neg l) = length l /\
   forall i, (i < length l)%nat -> nth i (vec_neg l) f0 = fneg (nth i l f0)).
Proof.
  split; [|split].
  - intros H. exists (zip_with fadd l r), (zip_with fsub l r).
    rewrite vec_add_ok, vec_sub_ok by auto. rewrite !zip_with_length.
    repeat split; auto; try lia.
    + apply nth_zip_with; lia.
    + apply nth_zip_with; lia.
    + rewrite vec_sub_ok by (rewrite zip_with_length; lia). now rewrite zip_fadd_fsub.
    + rewrite vec_add_ok by (rewrite zip_with_length; lia). now rewrite zip_fsub_fadd.
  - intros H. unfold vec_add, vec_sub. rewrite (proj2 (Nat.eqb_neq _ _) H). eauto.
  - unfold vec_neg. split; [apply map_length|]. intros i Hi. now apply nth_map'.
Qed.

Lemma xor_spec a b :
  length (xor a b) = Nat.min (length a) (length b) /\
  (forall i, (i < Nat.min (length a) (length b))%nat ->
     b2z (nth i (xor a b) x00) = Z.lxor (b2z (nth i a x00)) (b2z (nth i b x00))) /\
  xor a b = xor b a /\
  (length a = length b -> xor (xor a b) b = a).
Proof.
  repeat split.
  - apply xor_length.
  - intros i Hi. rewrite nth_xor by lia. apply byte_xor_z.
  - apply xor_comm.
  - apply xor_cancel.
Qed.
