(** Proofs about the XOF model. *)
From Verif Require Import XofSpec BaseFacts CommonFacts FieldFacts.
Open Scope nat_scope.

(** ** Framing *)

Lemma turboshake_message_Ok seed dst binder m :
  turboshake_message seed dst binder = Ok m <->
  (Z.of_nat (length dst) < 65536)%Z /\ (Z.of_nat (length seed) < 256)%Z /\
  m = le_bytes 2 (Z.of_nat (length dst)) ++ dst ++ le_bytes 1 (Z.of_nat (length seed)) ++ seed ++ binder.
Proof.
  unfold turboshake_message. rewrite bind_Ok. split.
  - intros (a & Ha & H). apply bind_Ok in H as (b & Hb & H).
    apply to_le_bytes_Ok in Ha as [Ha ->]. apply to_le_bytes_Ok in Hb as [Hb ->].
    injection H as <-. change (2 ^ (8 * Z.of_nat 2))%Z with 65536%Z in Ha.
    change (2 ^ (8 * Z.of_nat 1))%Z with 256%Z in Hb. repeat split; lia.
  - intros (Ha & Hb & ->). eexists. split.
    + apply to_le_bytes_ok. change (2 ^ (8 * Z.of_nat 2))%Z with 65536%Z. lia.
    + rewrite to_le_bytes_ok; [reflexivity | change (2 ^ (8 * Z.of_nat 1))%Z with 256%Z; lia].
Qed.

Lemma to_le_bytes_Raise v len e : to_le_bytes v len = Raise e -> exists msg, e = ValueError msg.
Proof. unfold to_le_bytes. destruct (_ || _); intros H; inversion H. eauto. Qed.

Lemma turboshake_message_Raise seed dst binder :
  (65536 <= Z.of_nat (length dst))%Z \/ (256 <= Z.of_nat (length seed))%Z ->
  exists msg, turboshake_message seed dst binder = Raise (ValueError msg).
Proof.
  intros H. destruct (turboshake_message seed dst binder) as [m | e] eqn:E.
  - apply turboshake_message_Ok in E. lia.
  - unfold turboshake_message in E. apply bind_Raise in E as [E | (a & _ & E)].
    + destruct (to_le_bytes_Raise _ _ _ E) as [msg ->]. eauto.
    + apply bind_Raise in E as [E | (b & _ & E)]; [| discriminate].
      destruct (to_le_bytes_Raise _ _ _ E) as [msg ->]. eauto.
Qed.

Lemma le_bytes_inj len a b : (0 <= a < 2 ^ (8 * Z.of_nat len))%Z -> (0 <= b < 2 ^ (8 * Z.of_nat len))%Z ->
  le_bytes len a = le_bytes len b -> a = b.
Proof.
  intros Ha Hb H. rewrite <- (from_le_bytes_le_bytes len a Ha), H. now apply from_le_bytes_le_bytes.
Qed.

Lemma turboshake_message_inj seed dst binder seed' dst' binder' m :
  turboshake_message seed dst binder = Ok m -> turboshake_message seed' dst' binder' = Ok m ->
  seed = seed' /\ dst = dst' /\ binder = binder'.
Proof.
  intros H H'. apply turboshake_message_Ok in H as (Hd & Hs & ->).
  apply turboshake_message_Ok in H' as (Hd' & Hs' & E).
  apply app_inj_len in E as [E1 E]; [| now rewrite !le_bytes_length].
  apply le_bytes_inj in E1; [| change (2 ^ (8 * Z.of_nat 2))%Z with 65536%Z; lia ..].
  apply app_inj_len in E as [-> E]; [| lia].
  apply app_inj_len in E as [E2 E]; [| now rewrite !le_bytes_length].
  apply le_bytes_inj in E2; [| change (2 ^ (8 * Z.of_nat 1))%Z with 256%Z; lia ..].
  apply app_inj_len in E as [-> ->]; [auto | lia].
Qed.

Lemma fixed_key_message_Ok dst binder m :
  fixed_key_message dst binder = Ok m <->
  (Z.of_nat (length dst) < 65536)%Z /\ m = le_bytes 2 (Z.of_nat (length dst)) ++ dst ++ binder.
Proof.
  unfold fixed_key_message. rewrite bind_Ok. split.
  - intros (a & Ha & H). apply to_le_bytes_Ok in Ha as [Ha ->]. injection H as <-.
    change (2 ^ (8 * Z.of_nat 2))%Z with 65536%Z in Ha. split; [lia | reflexivity].
  - intros [Ha ->]. eexists. split; [| reflexivity].
    apply to_le_bytes_ok. change (2 ^ (8 * Z.of_nat 2))%Z with 65536%Z. lia.
Qed.

Lemma fixed_key_message_inj dst binder dst' binder' m :
  fixed_key_message dst binder = Ok m -> fixed_key_message dst' binder' = Ok m ->
  dst = dst' /\ binder = binder'.
Proof.
  intros H H'. apply fixed_key_message_Ok in H as (Hd & ->).
  apply fixed_key_message_Ok in H' as (Hd' & E).
  apply app_inj_len in E as [E1 E]; [| now rewrite !le_bytes_length].
  apply le_bytes_inj in E1; [| change (2 ^ (8 * Z.of_nat 2))%Z with 65536%Z; lia ..].
  apply app_inj_len in E as [-> ->]; [auto | lia].
Qed.

Lemma fixed_key_message_Raise dst binder : (65536 <= Z.of_nat (length dst))%Z ->
  exists msg, fixed_key_message dst binder = Raise (ValueError msg).
Proof.
  intros H. destruct (fixed_key_message dst binder) as [m | e] eqn:E.
  - apply fixed_key_message_Ok in E. lia.
  - unfold fixed_key_message in E. apply bind_Raise in E as [E | (a & _ & E)]; [| discriminate].
    destruct (to_le_bytes_Raise _ _ _ E) as [msg ->]. eauto.
Qed.

(** ** Streams *)

Lemma stream_bytes_length s p n : length (stream_bytes s p n) = n.
Proof. unfold stream_bytes. now rewrite map_length, seq_length. Qed.

Lemma stream_bytes_app s p a b : stream_bytes s p (a + b) = stream_bytes s p a ++ stream_bytes s (p + a) b.
Proof. unfold stream_bytes. now rewrite seq_app, map_app. Qed.

Lemma turboshake_streams ts bound lim m :
  streams (XofTurboShake128 ts bound) lim (m, 0) (ts m 1%Z) (fun p => (m, p)).
Proof. split; [reflexivity |]. intros p n _. reflexivity. Qed.

Theorem turboshake_ok ts bound lim : XofOk (XofTurboShake128 ts bound) lim.
Proof.
  split.
  - intros seed dst binder Hs Hd. cbn in *. eexists. rewrite bind_Ok. eexists.
    split; [apply turboshake_message_Ok; repeat split; lia | reflexivity].
  - intros seed dst binder st H. cbn in H. apply bind_Ok in H as (m & _ & H). injection H as <-.
    do 2 eexists. apply turboshake_streams.
Qed.

Lemma length_concat_const {A} (l : list (list A)) k :
  Forall (fun x => length x = k) l -> length (concat l) = length l * k.
Proof. induction 1; cbn; [reflexivity |]. rewrite app_length. lia. Qed.

Lemma nth_concat_const {A} (d : A) (l : list (list A)) k j :
  0 < k -> Forall (fun x => length x = k) l -> j < length l * k ->
  nth j (concat l) d = nth (j mod k) (nth (j / k) l []) d.
Proof.
  intros Hk H. revert j. induction H as [| x l Hx Hl IH]; intros j Hj; cbn in Hj; [lia |].
  cbn [concat]. destruct (Nat.lt_ge_cases j k) as [Hlt | Hge].
  - rewrite app_nth1 by lia. rewrite Nat.mod_small, Nat.div_small by lia. reflexivity.
  - rewrite app_nth2 by lia. rewrite Hx, IH by lia.
    replace j with (j - k + 1 * k) at 3 4 by lia. rewrite Nat.mod_add, Nat.div_add by lia.
    rewrite Nat.add_1_r. reflexivity.
Qed.

Section Aes.
Context (ts : TurboShake) (aes : BlockCipher).
Hypothesis aes_len : forall k b, length b = 16 -> length (aes k b) = 16.

Lemma sigma_length b : length b = 16 -> length (sigma b) = 16.
Proof.
  intros H. unfold sigma, concat_bytes. cbn [concat]. rewrite app_nil_r, app_length, xor_length, firstn_length, skipn_length. lia.
Qed.

Lemma sigma_inj a b : length a = 16 -> length b = 16 -> sigma a = sigma b -> a = b.
Proof.
  intros Ha Hb H. unfold sigma, concat_bytes in H. cbn [concat] in H. rewrite !app_nil_r in H.
  apply app_inj_len in H as [H1 H2]; [| rewrite !skipn_length; lia].
  rewrite <- (firstn_skipn 8 a), <- (firstn_skipn 8 b), H1. f_equal.
  rewrite H1 in H2. rewrite (xor_comm _ (firstn 8 a)), (xor_comm _ (firstn 8 b)) in H2.
  rewrite <- (xor_cancel (firstn 8 a) (skipn 8 b)) by (rewrite firstn_length, skipn_length; lia).
  rewrite H2. apply xor_cancel. rewrite firstn_length, skipn_length. lia.
Qed.

Lemma hash_block_length k b : length b = 16 -> length (hash_block aes k b) = 16.
Proof.
  intros H. unfold hash_block. rewrite xor_length, aes_len, sigma_length by (auto using sigma_length). reflexivity.
Qed.

(** Block [i] of the output, and the output stream. *)
Definition aes_block (key seed : bytes) (i : nat) : bytes :=
  hash_block aes key (xor seed (le_bytes 16 (Z.of_nat i))).
Definition aes_stream (key seed : bytes) (i : nat) : byte := nth (i mod 16) (aes_block key seed (i / 16)) x00.

Lemma aes_block_length key seed i : length seed = 16 -> length (aes_block key seed i) = 16.
Proof. intros H. apply hash_block_length. rewrite xor_length, le_bytes_length. lia. Qed.

Lemma aes_next_stream key seed p n : length seed = 16 -> (Z.of_nat (p + n) < 2 ^ 132)%Z ->
  aes_next aes {| fixed_key := key; aes_seed := seed; length_consumed := p |} n
  = Ok (stream_bytes (aes_stream key seed) p n,
        {| fixed_key := key; aes_seed := seed; length_consumed := p + n |}).
Proof.
  intros Hs Hlim. unfold aes_next. cbn [fixed_key aes_seed length_consumed].
  set (blocks := range (p / 16) ((p + n) / 16 + 1)).
  assert (Hb : p / 16 <= (p + n) / 16) by (apply Nat.div_le_mono; lia).
  assert (Hz : (Z.of_nat ((p + n) / 16) < 2 ^ 128)%Z).
  { rewrite Nat2Z.inj_div. apply Z.div_lt_upper_bound; [reflexivity |].
    change (2 ^ 132)%Z with (Z.of_nat 16 * 2 ^ 128)%Z in Hlim. exact Hlim. }
  rewrite (mapM_map _ (aes_block key seed)).
  2:{ intros i Hi. unfold blocks in Hi. apply in_range in Hi. rewrite to_le_bytes_ok; [reflexivity |].
      change (2 ^ (8 * Z.of_nat 16))%Z with (2 ^ 128)%Z. lia. }
  cbn [bind]. do 2 f_equal. unfold concat_bytes.
  set (L := map (aes_block key seed) blocks : list (list byte)).
  assert (HL : Forall (fun x => length x = 16) L).
  { unfold L. apply Forall_map, Forall_forall. intros. now apply aes_block_length. }
  assert (HlL : length L = (p + n) / 16 + 1 - p / 16) by (unfold L, blocks; now rewrite map_length, length_range).
  pose proof (Nat.div_mod p 16 ltac:(lia)) as Dp. pose proof (Nat.mod_upper_bound p 16 ltac:(lia)).
  pose proof (Nat.div_mod (p + n) 16 ltac:(lia)) as Dq. pose proof (Nat.mod_upper_bound (p + n) 16 ltac:(lia)).
  assert (Hlen : p mod 16 + n <= length (concat L)) by (rewrite (length_concat_const L 16 HL), HlL; lia).
  apply (nth_ext' x00).
  - rewrite slice_length, stream_bytes_length by lia. lia.
  - intros i Hi. rewrite slice_length in Hi by lia. rewrite nth_slice by lia.
    rewrite (length_concat_const L 16 HL) in Hlen.
    rewrite (nth_concat_const x00 L 16) by (auto; lia).
    unfold stream_bytes. rewrite (nth_map' _ _ _ 0) by (rewrite seq_length; lia). rewrite seq_nth by lia.
    unfold aes_stream. rewrite Nat.add_mod_idemp_l by lia. f_equal.
    unfold L. rewrite (nth_map' _ _ _ 0).
    2:{ unfold blocks. rewrite length_range. apply Nat.div_lt_upper_bound; lia. }
    f_equal. unfold blocks. rewrite nth_range by (apply Nat.div_lt_upper_bound; lia).
    replace (p + i) with (p mod 16 + i + (p / 16) * 16) by lia.
    rewrite (Nat.div_add (p mod 16 + i)) by lia. lia.
Qed.

Lemma aes_init_Ok seed dst binder st : aes_init ts seed dst binder = Ok st <->
  length seed = 16 /\ exists m, fixed_key_message dst binder = Ok m /\
  st = {| fixed_key := stream_bytes (ts m 2%Z) 0 16; aes_seed := seed; length_consumed := 0 |}.
Proof.
  unfold aes_init. rewrite bind_Ok. split.
  - intros (u & Hu & H). apply check_Ok in Hu. apply Nat.eqb_eq in Hu.
    apply bind_Ok in H as (m & Hm & H). injection H as <-. eauto.
  - intros (Hs & m & Hm & ->). exists tt. split; [apply check_Ok; now apply Nat.eqb_eq |].
    rewrite Hm. reflexivity.
Qed.

Lemma aes_streams bound seed dst binder st : aes_init ts seed dst binder = Ok st ->
  streams (XofFixedKeyAes128 ts aes bound) (2 ^ 132) st (aes_stream (fixed_key st) seed)
    (fun p => {| fixed_key := fixed_key st; aes_seed := seed; length_consumed := p |}).
Proof.
  intros H. apply aes_init_Ok in H as (Hs & m & Hm & ->). split; [reflexivity |].
  intros p n Hl. cbn. now apply aes_next_stream.
Qed.

Theorem aes_ok bound : XofOk (XofFixedKeyAes128 ts aes bound) (2 ^ 132).
Proof.
  split.
  - intros seed dst binder Hs Hd. cbn in *. eexists. apply aes_init_Ok. split; [exact Hs |].
    eexists. split; [apply fixed_key_message_Ok; split; [lia | reflexivity] | reflexivity].
  - intros seed dst binder st H. do 2 eexists. apply aes_streams with dst binder. exact H.
Qed.
End Aes.

Lemma next_calls_streams X lim st s at_ lens p :
  streams X lim st s at_ -> (Z.of_nat (p + list_sum lens) < lim)%Z ->
  exists bs, next_calls X (at_ p) lens = Ok (bs, at_ (p + list_sum lens)) /\
    concat bs = stream_bytes s p (list_sum lens) /\ map (@length byte) bs = lens.
Proof.
  intros [_ H]. revert p. induction lens as [| n lens IH]; intros p Hl; cbn [next_calls list_sum fold_right] in *.
  - exists []. rewrite Nat.add_0_r. auto.
  - fold (list_sum lens) in *. rewrite H by lia. cbn [bind].
    destruct (IH (p + n)) as (bs & E & Hc & Hm); [lia |]. rewrite E. cbn [bind].
    exists (stream_bytes s p n :: bs). rewrite Nat.add_assoc. split; [reflexivity |].
    cbn [concat map]. rewrite Hc, Hm, stream_bytes_app, stream_bytes_length. auto.
Qed.
