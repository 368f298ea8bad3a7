(** The XOF lemmas in the form in which Props_Xof.v states them. *)
From Verif Require Export XofSpec CodecProofs.
From Verif Require Import BaseFacts CommonFacts FieldFacts XofFacts SampleFacts.
Open Scope nat_scope.

Lemma wf_bits P : wf_field P -> (bits_of P <= 8 * Z.of_nat (ENCODED_SIZE P))%Z.
Proof.
  intros [_ H]. destruct (next_power_of_2_least _ _ (bits_of_next P)) as (_ & _ & _ & L).
  specialize (L (8 * ENCODED_SIZE P)). unfold field_size_ok in H.
  replace (Z.of_nat (8 * ENCODED_SIZE P)) with (8 * Z.of_nat (ENCODED_SIZE P))%Z in L by lia.
  specialize (L H). apply Z.pow_le_mono_r_iff in L; lia.
Qed.

Lemma framing_ts (ts : TurboShake) (bound : nat) seed dst binder :
  (forall st, xof_init (XofTurboShake128 ts bound) seed dst binder = Ok st ->
     exists m, turboshake_message seed dst binder = Ok m /\ st = (m, 0)) /\
  (is_ok (xof_init (XofTurboShake128 ts bound) seed dst binder) = true <->
     length dst <= Z.to_nat 65535 /\ length seed <= 255) /\
  (forall e, xof_init (XofTurboShake128 ts bound) seed dst binder = Raise e -> exists msg, e = ValueError msg).
Proof.
  cbn [xof_init XofTurboShake128]. repeat split.
  - intros st H. apply bind_Ok in H as (m & Hm & H). injection H as <-. eauto.
  - destruct (turboshake_message seed dst binder) as [m |] eqn:E; [| discriminate].
    apply turboshake_message_Ok in E. lia.
  - destruct (turboshake_message seed dst binder) as [m |] eqn:E; [| discriminate].
    apply turboshake_message_Ok in E. lia.
  - intros [H1 H2].
    rewrite (proj2 (turboshake_message_Ok seed dst binder _)) by (repeat split; lia).
    reflexivity.
  - intros e H. apply bind_Raise in H as [H | (m & _ & H)]; [| discriminate].
    destruct (Z.lt_ge_cases (Z.of_nat (length dst)) 65536).
    + destruct (Z.lt_ge_cases (Z.of_nat (length seed)) 256).
      * rewrite (proj2 (turboshake_message_Ok seed dst binder _)) in H by (repeat split; lia).
        discriminate.
      * destruct (turboshake_message_Raise seed dst binder) as [msg E]; [auto |]. rewrite E in H. inversion H. eauto.
    + destruct (turboshake_message_Raise seed dst binder) as [msg E]; [auto |]. rewrite E in H. inversion H. eauto.
Qed.

Lemma framing_aes (ts : TurboShake) (aes : BlockCipher) (bound : nat) seed dst binder :
  (forall st, xof_init (XofFixedKeyAes128 ts aes bound) seed dst binder = Ok st ->
     exists m, fixed_key_message dst binder = Ok m /\
     st = {| fixed_key := stream_bytes (ts m 2%Z) 0 16; aes_seed := seed; length_consumed := 0 |}) /\
  (is_ok (xof_init (XofFixedKeyAes128 ts aes bound) seed dst binder) = true <->
     length dst <= Z.to_nat 65535 /\ length seed = 16) /\
  (forall e, xof_init (XofFixedKeyAes128 ts aes bound) seed dst binder = Raise e -> exists msg, e = ValueError msg).
Proof.
  cbn [xof_init XofFixedKeyAes128]. repeat split.
  - intros st H. apply aes_init_Ok in H as (_ & m & Hm & ->). eauto.
  - destruct (aes_init ts seed dst binder) as [st |] eqn:E; [| discriminate].
    apply aes_init_Ok in E as (Hs & m & Hm & _). apply fixed_key_message_Ok in Hm. lia.
  - destruct (aes_init ts seed dst binder) as [st |] eqn:E; [| discriminate].
    apply aes_init_Ok in E as (Hs & m & Hm & _). exact Hs.
  - intros [H1 H2]. erewrite (proj2 (aes_init_Ok ts seed dst binder _)); [reflexivity |].
    split; [exact H2 |]. eexists. split; [apply fixed_key_message_Ok; split; [lia | reflexivity] | reflexivity].
  - intros e H. unfold aes_init in H. apply bind_Raise in H as [H | (m & _ & H)].
    + unfold check in H. destruct (_ =? _); inversion H. eauto.
    + apply bind_Raise in H as [H | (m' & _ & H)]; [| discriminate].
      destruct (Z.lt_ge_cases (Z.of_nat (length dst)) 65536).
      * rewrite (proj2 (fixed_key_message_Ok dst binder _)) in H by (repeat split; lia). discriminate.
      * destruct (fixed_key_message_Raise dst binder) as [msg E]; [auto |]. rewrite E in H. inversion H. eauto.
Qed.

Lemma aes_calls (ts : TurboShake) (aes : BlockCipher) (bound : nat) :
  (forall k b, length b = 16 -> length (aes k b) = 16) ->
  forall seed dst binder st, xof_init (XofFixedKeyAes128 ts aes bound) seed dst binder = Ok st ->
  exists s : nat -> byte, forall lens, (Z.of_nat (list_sum lens) < 2 ^ 132)%Z ->
    exists bs st', next_calls (XofFixedKeyAes128 ts aes bound) st lens = Ok (bs, st') /\
      concat bs = stream_bytes s 0 (list_sum lens) /\ map (@length byte) bs = lens.
Proof.
  intros Ha seed dst binder st H.
  pose proof (aes_streams ts aes Ha bound seed dst binder st H) as Hs. eexists. intros lens Hl.
  destruct (next_calls_streams _ _ _ _ _ lens 0 Hs Hl) as (bs & E & Hc & Hm).
  rewrite (proj1 Hs) in E. eauto.
Qed.

Lemma ts_calls (ts : TurboShake) (bound : nat) seed dst binder st :
  xof_init (XofTurboShake128 ts bound) seed dst binder = Ok st ->
  exists s : nat -> byte, forall lens,
    exists bs st', next_calls (XofTurboShake128 ts bound) st lens = Ok (bs, st') /\
      concat bs = stream_bytes s 0 (list_sum lens) /\ map (@length byte) bs = lens.
Proof.
  intros H. cbn in H. apply bind_Ok in H as (m & _ & H). injection H as <-. exists (ts m 1%Z). intros lens.
  destruct (next_calls_streams _ _ _ _ _ lens 0
    (turboshake_streams ts bound (Z.of_nat (0 + list_sum lens) + 1) m)) as (bs & E & Hc & Hm); [lia |].
  eauto.
Qed.

Lemma aes_block_stream (ts : TurboShake) (aes : BlockCipher) (bound : nat) :
  (forall k b, length b = 16 -> length (aes k b) = 16) ->
  forall seed dst binder st i b st',
  xof_init (XofFixedKeyAes128 ts aes bound) seed dst binder = Ok st ->
  (Z.of_nat i < 2 ^ 127)%Z ->
  xof_next (XofFixedKeyAes128 ts aes bound) st (16 * i + 16) = Ok (b, st') ->
  slice b (16 * i) (16 * i + 16)
  = hash_block aes (fixed_key st) (xor seed (le_bytes 16 (Z.of_nat i))).
Proof.
  intros Ha seed dst binder st i b st' H Hi E.
  pose proof (aes_streams ts aes Ha bound seed dst binder st H) as [H0 Hs].
  specialize (Hs 0 (16 * i + 16)).
  rewrite H0, E in Hs. assert (Hlim : (Z.of_nat (0 + (16 * i + 16)) < 2 ^ 132)%Z).
  { change (2 ^ 132)%Z with (32 * 2 ^ 127)%Z. lia. }
  specialize (Hs Hlim). injection Hs as -> _.
  apply aes_init_Ok in H as (Hseed & m & Hm & Hst).
  fold (aes_block aes (fixed_key st) seed i). apply (nth_ext' x00).
  - rewrite slice_length by (rewrite stream_bytes_length; lia). rewrite aes_block_length by assumption. lia.
  - intros j Hj. rewrite slice_length in Hj by (rewrite stream_bytes_length; lia).
    rewrite nth_slice by lia. unfold stream_bytes. rewrite (nth_map' _ _ _ 0) by (rewrite seq_length; lia).
    rewrite seq_nth by lia. unfold aes_stream. cbn [Nat.add].
    replace (16 * i + j) with (j + i * 16) by lia. rewrite Nat.mod_add, Nat.div_add by lia.
    rewrite Nat.mod_small, Nat.div_small by lia. reflexivity.
Qed.

Lemma next_vec_spec (X : XofClass) (P : FieldClass) lim st s at_ len p :
  streams X lim st s at_ -> (Z.of_nat (p + loop_bound X * ENCODED_SIZE P) < lim)%Z ->
  (forall v st', next_vec X P (at_ p) len = Ok (v, st') ->
     length v = len /\ exists k, k <= loop_bound X /\ map val v = accepted P s p k /\
       (forall j, j < k -> length (accepted P s p j) < len) /\ st' = at_ (p + k * ENCODED_SIZE P)) /\
  (is_ok (next_vec X P (at_ p) len) = true <-> len <= length (accepted P s p (loop_bound X))) /\
  (forall e, next_vec X P (at_ p) len = Raise e -> e = OutOfFuel).
Proof.
  intros Hs Hl. destruct (next_vec_stream X P lim st s at_ Hs len p Hl) as [A B].
  assert (Hv : forall k, map val (map (fof : Z -> F P) (accepted P s p k)) = accepted P s p k).
  { intros k. rewrite map_map. transitivity (map (fun x => x) (accepted P s p k)); [| apply map_id].
    apply map_ext_in. intros x Hx. unfold accepted in Hx. apply filter_In in Hx as [Hx Hlt].
    apply in_map_iff in Hx as (i & <- & _). apply Z.ltb_lt in Hlt. apply val_fof_small.
    unfold chunk in *. pose proof (chunk_value_range P (stream_bytes s (p + i * ENCODED_SIZE P) (ENCODED_SIZE P))). lia. }
  destruct (Nat.le_gt_cases len (length (accepted P s p (loop_bound X)))) as [C | C].
  - destruct (A C) as (k & Hk & Hlen & Hmin & E). rewrite E. split; [| split; [easy | discriminate]].
    intros v st' H. injection H as <- <-. rewrite map_length. split; [exact Hlen |].
      exists k. rewrite Hv. auto.
  - rewrite (B C). split; [discriminate |]. split; [split; [discriminate | lia] |].
    intros e H. now inversion H.
Qed.

Lemma next_vec_bound (X : XofClass) (P : FieldClass) st len b r :
  loop_bound X <= b -> next_vec X P st len = r -> r <> Raise OutOfFuel ->
  next_vec (with_bound X b) P st len = r.
Proof.
  intros Hb H Hr. rewrite next_vec_eq in *.
  assert (K : forall f vec st, next_vec_loop (with_bound X b) P f (2 ^ bits_of P - 1) len st vec
            = next_vec_loop X P f (2 ^ bits_of P - 1) len st vec).
  { clear. induction f; intros vec st; [reflexivity |]. cbn [next_vec_loop].
    destruct (_ <? _); [| reflexivity]. change (xof_next (with_bound X b)) with (xof_next X).
    destruct (xof_next X st _) as [[c st'] |]; [| reflexivity]. cbn [bind].
    destruct (_ <? _)%Z; [| apply IHf]. destruct (field_init _); cbn [bind]; [apply IHf | reflexivity]. }
  cbn [loop_bound with_bound]. rewrite K. apply (loop_mono X P (loop_bound X)); assumption.
Qed.

Lemma with_bound_loop X P b f len vec st :
  next_vec_loop (with_bound X b) P f (2 ^ bits_of P - 1) len st vec
  = next_vec_loop X P f (2 ^ bits_of P - 1) len st vec.
Proof.
  revert vec st. induction f; intros vec st; [reflexivity |]. cbn [next_vec_loop].
  destruct (_ <? _); [| reflexivity]. change (xof_next (with_bound X b)) with (xof_next X).
  destruct (xof_next X st _) as [[c st'] |]; [| reflexivity]. cbn [bind].
  destruct (_ <? _)%Z; [| apply IHf]. destruct (field_init _); cbn [bind]; [apply IHf | reflexivity].
Qed.

Lemma next_vec_split (X : XofClass) (P : FieldClass) st a b :
  (forall v st2, next_vec X P st (a + b) = Ok (v, st2) ->
     exists st1, next_vec X P st a = Ok (firstn a v, st1) /\ next_vec X P st1 b = Ok (skipn a v, st2)) /\
  (forall v1 st1 v2 st2, next_vec X P st a = Ok (v1, st1) -> next_vec X P st1 b = Ok (v2, st2) ->
     next_vec (with_bound X (2 * loop_bound X)) P st (a + b) = Ok (v1 ++ v2, st2)).
Proof.
  split.
  - intros v st2. rewrite !next_vec_eq. intros H. apply loop_split in H as (st1 & H1 & H2).
    exists st1. rewrite !next_vec_eq. auto.
  - intros v1 st1 v2 st2. rewrite !next_vec_eq. intros H1 H2.
    rewrite with_bound_loop. cbn [loop_bound with_bound].
    replace (2 * loop_bound X) with (loop_bound X + loop_bound X) by lia.
    now apply (loop_split_join X P) with st1.
Qed.

Lemma fast_forward (X : XofClass) (P : FieldClass) st n level v st' :
  level < n -> next_vec X P st (3 * n) = Ok (v, st') ->
  exists w st1 st2, next_vec X P st (3 * level) = Ok (w, st1) /\
    next_vec X P st1 3 = Ok (slice v (3 * level) (3 * level + 3), st2).
Proof.
  intros Hl H. replace (3 * n) with (3 * level + (3 + 3 * (n - level - 1))) in H by lia.
  apply next_vec_split in H as (st1 & H1 & H2). apply next_vec_split in H2 as (st2 & H2 & _).
  do 3 eexists. split; [exact H1 |]. rewrite H2. unfold slice. do 4 f_equal. lia.
Qed.

Lemma next_vec_uniform_wf (P : FieldClass) : wf_field P ->
  (forall x : F P, forall L,
     enumerates L (fun b => length b = ENCODED_SIZE P /\ chunk_value P b = val x) ->
     Z.of_nat (length L) = (2 ^ (8 * Z.of_nat (ENCODED_SIZE P) - bits_of P))%Z) /\
  (forall n (v w : list (F P)) L1 L2, length v = length w ->
     enumerates L1 (fun t => length t = n * ENCODED_SIZE P /\
                             exists st, next_vec (TapeXof n) P t (length v) = Ok (v, st)) ->
     enumerates L2 (fun t => length t = n * ENCODED_SIZE P /\
                             exists st, next_vec (TapeXof n) P t (length w) = Ok (w, st)) ->
     length L1 = length L2).
Proof.
  intros H. split.
  - intros x L. apply chunk_uniform; [now apply wf_bits |].
    pose proof (val_range x). pose proof (bits_of_bound P). lia.
  - intros n v w L1 L2. apply next_vec_uniform. now apply wf_bits.
Qed.
