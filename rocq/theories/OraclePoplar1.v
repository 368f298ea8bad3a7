(** Which inputs of TurboSHAKE128 the derivations of Poplar1 and the IDPF depend on. *)
From Verif Require Export OracleFacts.
From Verif Require Import BaseFacts CommonFacts FieldFacts XofFacts CodecProofs Prio3Facts IdpfInst Poplar1Inst.
Open Scope nat_scope.

Lemma foldM_cong_inv {A B} (I : B -> Prop) (f g : B -> A -> res B) l acc :
  I acc -> (forall b a, In a l -> I b -> f b a = g b a) -> (forall b a b', I b -> f b a = Ok b' -> I b') ->
  foldM f l acc = foldM g l acc.
Proof.
  revert acc; induction l; intros acc HI Hfg HP; cbn; [reflexivity |].
  apply bind_cong; [apply Hfg; cbn; auto |]. intros b Hb. apply IHl; eauto. intros; apply Hfg; cbn; auto.
Qed.

Lemma foldM_inv {A B} (I : B -> Prop) (f : B -> A -> res B) l acc r :
  I acc -> (forall b a b', I b -> f b a = Ok b' -> I b') -> foldM f l acc = Ok r -> I r.
Proof.
  revert acc; induction l; intros acc HI HP H; cbn in H; [now injection H as <- |].
  apply bind_Ok in H as (b & Hb & H). eauto.
Qed.

Definition fk_point (dst binder : bytes) : bytes * Z :=
  match fixed_key_message dst binder with
  | Ok m => (m, 2%Z)
  | Raise _ => (le_bytes 2 (Z.of_nat (length dst)) ++ dst, 3%Z) (* never read *)
  end.

Lemma fk_point_inj dst binder dst' binder' :
  (Z.of_nat (length dst) < 65536)%Z -> (Z.of_nat (length dst') < 65536)%Z ->
  fk_point dst binder = fk_point dst' binder' -> dst = dst' /\ binder = binder'.
Proof.
  intros H H'. unfold fk_point.
  destruct (fixed_key_message dst binder) as [m |] eqn:E.
  2: { assert (Z := proj2 (fixed_key_message_Ok dst binder _) (conj H eq_refl)). congruence. }
  destruct (fixed_key_message dst' binder') as [m' |] eqn:E'.
  2: { assert (Z := proj2 (fixed_key_message_Ok dst' binder' _) (conj H' eq_refl)). congruence. }
  intros [= <-]. eapply fixed_key_message_inj; eauto.
Qed.

Definition idpf_tag (usage : Z) (ctx : bytes) : bytes :=
  match format_dst 1 0 usage with Ok d => d ++ ctx | Raise _ => [] end.

Definition poplar1_input (ctx : bytes) (q : poplar1_query) : bytes * Z :=
  match q with
  | ShardRand seed nonce => ts_point seed (tag_of p1_ID USAGE_SHARD_RAND ctx) nonce
  | CorrInner j seed nonce => ts_point seed (tag_of p1_ID USAGE_CORR_INNER ctx) (byte_str j ++ nonce)
  | CorrLeaf j seed nonce => ts_point seed (tag_of p1_ID USAGE_CORR_LEAF ctx) (byte_str j ++ nonce)
  | VerifyRand key nonce level =>
      ts_point key (tag_of p1_ID USAGE_VERIFY_RAND ctx) (nonce ++ bytes_of (to_be_bytes level 2))
  | ExtendInner nonce => fk_point (idpf_tag 0 ctx) nonce
  | ConvertInner nonce => fk_point (idpf_tag 1 ctx) nonce
  | ExtendLeaf seed nonce => ts_point seed (idpf_tag 0 ctx) nonce
  | ConvertLeaf seed nonce => ts_point seed (idpf_tag 1 ctx) nonce
  end.

Section P1O.
Context (aes : BlockCipher) (bound bits : nat) (ts ts' : TurboShake) (ctx : bytes).
Notation agreeq q := (agree_at ts ts' (poplar1_input ctx q)).
Notation X := (XofTurboShake128 ts bound).
Notation X' := (XofTurboShake128 ts' bound).

Lemma aes_init_cong seed dst binder : agree_at ts ts' (fk_point dst binder) ->
  aes_init ts seed dst binder = aes_init ts' seed dst binder.
Proof.
  intros H. unfold aes_init. apply bind_step. intros _ _. apply bind_step. intros m Hm.
  unfold fk_point in H. rewrite Hm in H. do 2 f_equal. now apply stream_cong.
Qed.

(** The values returned by the IDPF's XOFs do not depend on [ts] once the
    object is constructed (AES), or only through the message (TurboSHAKE). *)
Section Idpf.
Context (value_len : nat).
Notation idpf := (idpf_obj ts aes bound value_len bits).
Notation idpf' := (idpf_obj ts' aes bound value_len bits).

Lemma next_loop_aes P fuel k n st vec :
  next_vec_loop (XofFixedKeyAes128 ts aes bound) P fuel k n st vec = next_vec_loop (XofFixedKeyAes128 ts' aes bound) P fuel k n st vec.
Proof.
  revert st vec; induction fuel; intros st vec; cbn [next_vec_loop]; [reflexivity |].
  destruct (_ <? n); [| reflexivity]. apply bind_cong; [reflexivity |]. intros [b s] _.
  destruct (_ <? _)%Z; [| apply IHfuel]. apply bind_step. intros e _. apply IHfuel.
Qed.
Lemma next_vec_aes P st n :
  next_vec (XofFixedKeyAes128 ts aes bound) P st n = next_vec (XofFixedKeyAes128 ts' aes bound) P st n.
Proof. unfold next_vec. apply bind_step. intros p _. apply next_loop_aes. Qed.

Lemma idpf_tag_eq u d : format_dst 1 0 u = Ok d -> idpf_tag u ctx = d ++ ctx.
Proof. unfold idpf_tag. now intros ->. Qed.

Lemma extend_cong level seed nonce :
  (forall q, idpf_derives nonce q -> agreeq q) -> extend idpf level seed ctx nonce = extend idpf' level seed ctx nonce.
Proof.
  intros H. unfold extend. change (is_inner idpf' level) with (is_inner idpf level). destruct (is_inner idpf level).
  - unfold extend_with. apply bind_step. intros d Hd. apply bind_cong.
    { apply aes_init_cong. rewrite <- (idpf_tag_eq _ _ Hd). now apply (H (ExtendInner nonce)). }
    intros st _. reflexivity.
  - unfold extend_with. apply bind_step. intros d Hd. apply bind_cong; [reflexivity |].
    intros st Hst. apply ts_init_state in Hst as (m & Hm & ->).
    assert (A : agree_at ts ts' (m, 1%Z)).
    { specialize (H (ExtendLeaf seed nonce) eq_refl). cbn [poplar1_input] in H. rewrite (idpf_tag_eq _ _ Hd) in H. unfold ts_point in H. now rewrite Hm in H. }
    apply bind_cong; [now apply ts_next_cong |]. intros [s0 st] E. apply ts_next_state in E as [l ->].
    apply bind_cong; [now apply ts_next_cong |]. reflexivity.
Qed.

Lemma convert_cong level seed nonce :
  (forall q, idpf_derives nonce q -> agreeq q) -> convert idpf level seed ctx nonce = convert idpf' level seed ctx nonce.
Proof.
  intros H. unfold convert. change (is_inner idpf' level) with (is_inner idpf level). destruct (is_inner idpf level).
  - apply bind_same. unfold convert_with. apply bind_step. intros d Hd. apply bind_cong.
    { apply aes_init_cong. rewrite <- (idpf_tag_eq _ _ Hd). now apply (H (ConvertInner nonce)). }
    intros st _. apply bind_cong; [reflexivity |]. intros [s st1] _. apply bind_same. apply next_vec_aes.
  - apply bind_same. unfold convert_with. apply bind_step. intros d Hd. apply bind_cong; [reflexivity |].
    intros st Hst. apply ts_init_state in Hst as (m & Hm & ->).
    assert (A : agree_at ts ts' (m, 1%Z)).
    { specialize (H (ConvertLeaf seed nonce) eq_refl). cbn [poplar1_input] in H. rewrite (idpf_tag_eq _ _ Hd) in H. unfold ts_point in H. now rewrite Hm in H. }
    apply bind_cong; [now apply ts_next_cong |]. intros [s0 st] E. apply ts_next_state in E as [l ->].
    apply bind_same. now apply ts_next_vec_cong.
Qed.

Lemma idpf_gen_cong alpha bi bl nonce rand :
  (forall q, idpf_derives nonce q -> agreeq q) -> idpf_gen idpf alpha bi bl ctx nonce rand = idpf_gen idpf' alpha bi bl ctx nonce rand.
Proof.
  intros H. unfold idpf_gen. do 4 (apply bind_cong; [reflexivity |]; intros _ _). apply bind_same.
  apply for_range_cong. intros [[seed ctrl] ps] level _. unfold gen_level.
  apply bind_step. intros bit _. apply bind_cong; [now apply extend_cong |]. intros [s0 t0] _.
  apply bind_cong; [now apply extend_cong |]. intros [s1 t1] _.
  destruct (if fst ctrl then _ else _) as [x0 c0]. destruct (if snd ctrl then _ else _) as [x1 c1].
  apply bind_cong; [now apply convert_cong |]. intros [q0 w0] _.
  apply bind_cong; [now apply convert_cong |]. intros [q1 w1] _. reflexivity.
Qed.

Lemma idpf_eval_cong j ps key level prefixes nonce :
  (forall q, idpf_derives nonce q -> agreeq q) ->
  idpf_eval idpf j ps key level prefixes ctx nonce = idpf_eval idpf' j ps key level prefixes ctx nonce.
Proof.
  intros H. unfold idpf_eval. do 3 (apply bind_cong; [reflexivity |]; intros _ _). apply foldM_ext. intros out prefix _.
  apply bind_same. unfold eval_prefix. apply bind_step. intros _ _. apply bind_same. apply for_range_cong.
  intros [[seed ctrl] y] level' _. apply bind_step. intros bit _. apply bind_step. intros cw _.
  unfold eval_next. destruct cw as [[seed_cw ctrl_cw] w_cw].
  apply bind_cong; [now apply extend_cong |]. intros [s t] _.
  destruct (if ctrl then _ else _) as [s1 t1].
  apply bind_cong; [now apply convert_cong |]. reflexivity.
Qed.
End Idpf.

(** * Poplar1 *)
Notation p := (p1_obj ts aes bound bits).
Notation p' := (p1_obj ts' aes bound bits).

Lemma verify_rand_cong P key nonce level n : agreeq (VerifyRand key nonce level) ->
  verify_rand_of p P key ctx nonce level n = verify_rand_of p' P key ctx nonce level n.
Proof.
  intros H. unfold verify_rand_of. apply bind_step. intros d Hd. apply bind_step. intros l Hl.
  apply bind_cong; [reflexivity |]. intros st Hst. apply (ts_init_state ts bound) in Hst as (m & Hm & ->).
  apply bind_same. apply ts_next_vec_cong.
  cbn [poplar1_input] in H. rewrite (tag_of_eq p1_ID ctx _ _ Hd), Hl in H. cbn [bytes_of] in H. unfold ts_point in H. now rewrite Hm in H.
Qed.

Lemma corr_point usage j seed nonce d b m :
  p1_dst usage ctx = Ok d -> byte_of (Z.of_nat j) = Ok b -> turboshake_message seed d (b ++ nonce) = Ok m ->
  ts_point seed (tag_of p1_ID usage ctx) (byte_str j ++ nonce) = (m, 1%Z).
Proof. intros Hd Hb Hm. rewrite (tag_of_eq p1_ID ctx _ _ Hd), (byte_str_eq _ _ Hb). unfold ts_point. now rewrite Hm. Qed.

Lemma verify_init_in_cong P usage ff AB key j level n nonce corr value :
  agree_at ts ts' (ts_point corr (tag_of p1_ID usage ctx) (byte_str j ++ nonce)) -> agreeq (VerifyRand key nonce level) ->
  verify_init_in p P usage ff AB key ctx j level n nonce corr value = verify_init_in p' P usage ff AB key ctx j level n nonce corr value.
Proof.
  intros H HV. unfold verify_init_in. apply bind_step. intros d Hd. apply bind_step. intros b Hb.
  apply bind_cong; [reflexivity |]. intros st Hst. apply (ts_init_state ts bound) in Hst as (m & Hm & ->).
  rewrite (corr_point _ _ _ _ _ _ _ Hd Hb Hm) in H.
  apply (bind_cong (A := bytes * nat)).
  { destruct ff as [n' |]; [| reflexivity]. apply (bind_same (A := list (F P) * (bytes * nat))). now apply ts_next_vec_cong. }
  intros st Hst.
  assert (exists l, st = (m, l)) as [l ->].
  { destruct ff as [n' |]; [| injection Hst as <-; eauto].
    apply bind_Ok in Hst as ([v st1] & Hv & E). injection E as <-. now apply (ts_next_vec_state ts bound) in Hv. }
  apply (bind_cong (A := list (F P) * (bytes * nat))); [now apply ts_next_vec_cong |]. intros [abc st] _.
  destruct abc as [| a [| b' [| c [|]]]]; try reflexivity. destruct AB as [| A [| B [|]]]; try reflexivity.
  apply bind_same. now apply verify_rand_cong.
Qed.

Lemma p1_verify_cong key j level prefixes nonce ps k corr ci cl :
  (forall q, poplar1_verify_derives (level_is_inner p level) key j level nonce corr q -> agreeq q) ->
  p1_verify_init p key ctx j (level, prefixes) nonce ps (k, corr, ci, cl) =
  p1_verify_init p' key ctx j (level, prefixes) nonce ps (k, corr, ci, cl).
Proof.
  intros H. unfold p1_verify_init. apply bind_cong.
  { apply idpf_eval_cong. intros q Hq. apply H. now destruct q. }
  intros value _. change (level_is_inner p' level) with (level_is_inner p level). destruct (level_is_inner p level).
  - apply bind_same. apply verify_init_in_cong.
    + now apply (H (CorrInner j corr nonce)).
    + now apply H.
  - apply bind_same. apply verify_init_in_cong.
    + now apply (H (CorrLeaf j corr nonce)).
    + now apply H.
Qed.

Lemma corr_offsets_cong P usage seeds nonce n s0 s1 : seeds = [s0; s1] ->
  agree_at ts ts' (ts_point s0 (tag_of p1_ID usage ctx) (byte_str 0 ++ nonce)) ->
  agree_at ts ts' (ts_point s1 (tag_of p1_ID usage ctx) (byte_str 1 ++ nonce)) ->
  corr_offsets_of p P usage seeds ctx nonce n = corr_offsets_of p' P usage seeds ctx nonce n.
Proof.
  intros -> H0 H1. unfold corr_offsets_of.
  change (get [s0; s1] 0) with (Ok s0). change (get [s0; s1] 1) with (Ok s1). cbn [bind].
  apply bind_step. intros d Hd. apply bind_step. intros b Hb. rewrite (tag_of_eq p1_ID ctx _ _ Hd) in *.
  change (byte_of 0) with (byte_of (Z.of_nat 0)) in Hb. rewrite (byte_str_eq 0 _ Hb) in H0.
  apply bind_cong; [now apply ts_expand_cong |]. intros v0 _.
  rewrite Hd. cbn [bind]. apply bind_step. intros b1 Hb1. change (byte_of 1) with (byte_of (Z.of_nat 1)) in Hb1.
  rewrite (byte_str_eq 1 _ Hb1) in H1. apply bind_same. now apply ts_expand_cong.
Qed.

Lemma corr_level_cong P (k : F P) offs m l : agree_at ts ts' (m, 1%Z) ->
  corr_level p k offs (m, l) = corr_level p' k offs (m, l).
Proof.
  intros H. unfold corr_level. destruct (slice offs 0 3) as [| a [| b [| c [|]]]]; try reflexivity.
  apply bind_step. intros two _. apply bind_same. now apply ts_next_vec_cong.
Qed.
Lemma corr_level_state P (k : F P) offs m l c0 c1 o st : corr_level p k offs (m, l) = Ok (c0, c1, o, st) -> exists l', st = (m, l').
Proof.
  unfold corr_level. destruct (slice offs 0 3) as [| a [| b [| c [|]]]]; try discriminate.
  intros H. apply bind_Ok in H as (two & _ & H). apply bind_Ok in H as ([v s] & Hv & H).
  apply bind_Ok in H as (w & _ & H). injection H as _ _ _ <-. now apply (ts_next_vec_state ts bound) in Hv.
Qed.

Lemma p1_shard_cong meas nonce rand :
  (forall q, poplar1_shard_derives nonce rand q -> agreeq q) ->
  p1_shard p ctx meas nonce rand = p1_shard p' ctx meas nonce rand.
Proof.
  intros H. unfold p1_shard. apply bind_step. intros _ _. apply bind_cong; [reflexivity |]. intros u Hr.
  apply check_Ok, Nat.eqb_eq in Hr. apply bind_cong; [reflexivity |]. intros _ _.
  apply bind_cong; [reflexivity |]. intros [ir rest] Hf. apply front_ok' in Hf as (-> & -> & _).
  apply bind_cong; [reflexivity |]. intros starts Hst.
  change (range_step 0 (3 * 32) 32 = Ok starts) in Hst. rewrite range_step_0 in Hst by lia. injection Hst as <-.
  change (id_RAND_SIZE (p1_idpf p)) with 32. change (id_RAND_SIZE (p1_idpf p')) with 32.
  change (SEED_SIZE (p1_xof p)) with 32. change (SEED_SIZE (p1_xof p')) with 32.
  change (length rand = 3 * 32 + 32) in Hr.
  assert (Es : forall k, slice (skipn 32 rand) (k * 32) (k * 32 + 32) = seed_of rand (1 + k)).
  { intros k. unfold seed_of, slice. rewrite skipn_skipn'. replace (k * 32 + 32) with ((1 + k) * 32) at 2 by lia. f_equal; lia. }
  cbn [seq map].
  change (slice (skipn 32 rand) 0 (0 + 32)) with (slice (skipn 32 rand) (0 * 32) (0 * 32 + 32)).
  change (slice (skipn 32 rand) 32 (32 + 32)) with (slice (skipn 32 rand) (1 * 32) (1 * 32 + 32)).
  change (slice (skipn 32 rand) 64 (64 + 32)) with (slice (skipn 32 rand) (2 * 32) (2 * 32 + 32)).
  rewrite !Es.
  apply bind_step. intros [cs rest] Hf. apply front_ok' in Hf as (-> & -> & _).
  apply bind_step. intros [ss rest] Hf. apply front_ok' in Hf as (-> & -> & _).
  cbn [firstn skipn]. apply bind_step. intros sseed Hs. apply get_Ok in Hs. injection Hs as <-.
  apply bind_step. intros d Hd. apply bind_cong; [reflexivity |]. intros st Hst.
  apply (ts_init_state ts bound) in Hst as (m & Hm & ->).
  assert (A : agree_at ts ts' (m, 1%Z)).
  { specialize (H (ShardRand (seed_of rand 3) nonce) (conj eq_refl eq_refl)). cbn [poplar1_input] in H.
    rewrite (tag_of_eq p1_ID ctx _ _ Hd) in H. unfold ts_point in H. cbn [Nat.add] in Hm. now rewrite Hm in H. }
  apply (bind_cong (A := list (F Field64) * (bytes * nat))); [now apply ts_next_vec_cong |]. intros [ks st] Hv.
  apply (ts_next_vec_state ts bound) in Hv as [l1 ->].
  apply bind_step. intros o1 _. apply bind_step. intros o2 _.
  apply (bind_cong (A := list (F Field255) * (bytes * nat))); [now apply ts_next_vec_cong |]. intros [kl st] Hv.
  apply (ts_next_vec_state ts bound) in Hv as [l2 ->].
  apply bind_cong. { apply idpf_gen_cong. intros q Hq. apply H. now destruct q. }
  intros [ps keys] _. apply bind_cong.
  { eapply corr_offsets_cong; [reflexivity | ..].
    - apply (H (CorrInner 0 (seed_of rand (1 + 0)) nonce)). cbn. repeat split. lia.
    - apply (H (CorrInner 1 (seed_of rand (1 + 1)) nonce)). cbn. repeat split. lia. }
  intros oi _. apply bind_cong.
  { eapply corr_offsets_cong; [reflexivity | ..].
    - apply (H (CorrLeaf 0 (seed_of rand (1 + 0)) nonce)). cbn. repeat split. lia.
    - apply (H (CorrLeaf 1 (seed_of rand (1 + 1)) nonce)). cbn. repeat split. lia. }
  intros ol _.
  apply (bind_cong (A := list (F Field64) * list (F Field64) * list (F Field64) * (bytes * nat))).
  { unfold for_range. apply (foldM_cong_inv (fun x => exists l, snd x = (m, l))).
    - cbn. eauto.
    - intros [[[c0 c1] o] s] lv _ [l E]. cbn in E. subst s. apply bind_step. intros b _. apply bind_step. intros k _.
      apply bind_same. now apply corr_level_cong.
    - intros [[[c0 c1] o] s] lv x [l E] Hx. cbn in E. subst s.
      apply bind_Ok in Hx as (b & _ & Hx). apply bind_Ok in Hx as (k & _ & Hx).
      apply bind_Ok in Hx as ([[[a0 a1] ao] s] & Hc & Hx). injection Hx as <-. cbn. now apply corr_level_state in Hc. }
  intros [[[c0 c1] o] s] Hl.
  assert (exists l, s = (m, l)) as [l ->].
  { unfold for_range in Hl. apply (foldM_inv (fun x => exists l, snd x = (m, l))) in Hl; [exact Hl | cbn; eauto |].
    clear -A. intros [[[c0 c1] o] s] lv x [l E] Hx. cbn in E. subst s.
    apply bind_Ok in Hx as (b & _ & Hx). apply bind_Ok in Hx as (k & _ & Hx).
    apply bind_Ok in Hx as ([[[a0 a1] ao] s] & Hc & Hx). injection Hx as <-. cbn. now apply corr_level_state in Hc. }
  apply bind_step. intros k _. apply bind_same. now apply corr_level_cong.
Qed.
End P1O.

(** * Injectivity *)
Lemma idpf_tag_ok u ctx : u = 0%Z \/ u = 1%Z -> ctx_ok ctx ->
  exists d, format_dst 1 0 u = Ok d /\ idpf_tag u ctx = d ++ ctx /\ (Z.of_nat (length (d ++ ctx)) < 65536)%Z.
Proof.
  intros Hu Hc. destruct (format_dst_total 1 0 u) as [d Hd]; [lia | lia | lia |].
  exists d. split; [exact Hd |]. unfold idpf_tag. rewrite Hd. split; [reflexivity |].
  apply format_dst_shape in Hd as (id & us & _ & Hus & Hid & ->).
  rewrite !app_length. cbn [length]. rewrite Hid, Hus. unfold ctx_ok in Hc. lia.
Qed.

(** Class, algorithm, usage; seed (none for a fixed key); binder. *)
Definition p1_parts (q : poplar1_query) : (Z * Z * Z) * option bytes * bytes :=
  match q with
  | ShardRand seed nonce => ((0, p1_ID, USAGE_SHARD_RAND)%Z, Some seed, nonce)
  | CorrInner j seed nonce => ((0, p1_ID, USAGE_CORR_INNER)%Z, Some seed, byte_str j ++ nonce)
  | CorrLeaf j seed nonce => ((0, p1_ID, USAGE_CORR_LEAF)%Z, Some seed, byte_str j ++ nonce)
  | VerifyRand key nonce level => ((0, p1_ID, USAGE_VERIFY_RAND)%Z, Some key, nonce ++ bytes_of (to_be_bytes level 2))
  | ExtendInner nonce => ((1, 0, 0)%Z, None, nonce)
  | ConvertInner nonce => ((1, 0, 1)%Z, None, nonce)
  | ExtendLeaf seed nonce => ((1, 0, 0)%Z, Some seed, nonce)
  | ConvertLeaf seed nonce => ((1, 0, 1)%Z, Some seed, nonce)
  end.
Definition point_of (d : bytes) (seed : option bytes) (binder : bytes) : bytes * Z :=
  match seed with Some s => ts_point s d binder | None => fk_point d binder end.

Lemma p1_input_parts ctx q : ctx_ok ctx -> poplar1_query_ok q ->
  let '((c, ID, u), seed, binder) := p1_parts q in
  exists d, format_dst c ID u = Ok d /\ (Z.of_nat (length (d ++ ctx)) < 65536)%Z /\
    match seed with Some s => (Z.of_nat (length s) < 256)%Z | None => True end /\
    poplar1_input ctx q = point_of (d ++ ctx) seed binder.
Proof.
  intros Hc Hq. destruct q; cbn [p1_parts poplar1_input poplar1_query_ok point_of] in *.
  1: destruct (tag_of_ok p1_ID USAGE_SHARD_RAND ctx) as (d & Hd & E & Hl).
  5: destruct (tag_of_ok p1_ID USAGE_CORR_INNER ctx) as (d & Hd & E & Hl).
  9: destruct (tag_of_ok p1_ID USAGE_CORR_LEAF ctx) as (d & Hd & E & Hl).
  13: destruct (tag_of_ok p1_ID USAGE_VERIFY_RAND ctx) as (d & Hd & E & Hl).
  17: destruct (idpf_tag_ok 0 ctx) as (d & Hd & E & Hl).
  20: destruct (idpf_tag_ok 1 ctx) as (d & Hd & E & Hl).
  23: destruct (idpf_tag_ok 0 ctx) as (d & Hd & E & Hl).
  26: destruct (idpf_tag_ok 1 ctx) as (d & Hd & E & Hl).
  all: try assumption.
  all: try (left; reflexivity).
  all: try (right; reflexivity).
  all: try (unfold p1_ID, USAGE_SHARD_RAND, USAGE_CORR_INNER, USAGE_CORR_LEAF, USAGE_VERIFY_RAND; lia).
  all: exists d; rewrite E; repeat split; auto; lia.
Qed.

Lemma ts_point_domain s d b : (Z.of_nat (length d) < 65536)%Z -> (Z.of_nat (length s) < 256)%Z -> snd (ts_point s d b) = 1%Z.
Proof. intros Hd Hs. unfold ts_point. now rewrite (proj2 (turboshake_message_Ok s d b _) (conj Hd (conj Hs eq_refl))). Qed.
Lemma fk_point_domain d b : (Z.of_nat (length d) < 65536)%Z -> snd (fk_point d b) = 2%Z.
Proof. intros Hd. unfold fk_point. now rewrite (proj2 (fixed_key_message_Ok d b _) (conj Hd eq_refl)). Qed.

Lemma p1_parts_inj q q' : poplar1_query_ok q -> poplar1_query_ok q' -> p1_parts q = p1_parts q' -> q = q'.
Proof.
  intros H H'. destruct q, q'; cbn [p1_parts poplar1_query_ok] in *; try (intros E; discriminate E).
  - now intros [= -> ->].
  - intros E. injection E as -> E. apply app_inj_len in E as [E ->]; [| rewrite !byte_str_one by tauto; reflexivity].
    apply byte_str_inj in E; [now subst | tauto | tauto].
  - intros E. injection E as -> E. apply app_inj_len in E as [E ->]; [| rewrite !byte_str_one by tauto; reflexivity].
    apply byte_str_inj in E; [now subst | tauto | tauto].
  - intros E. injection E as -> E. apply app_inj_len in E as [-> E]; [| intuition congruence].
    destruct (to_be_bytes level 2) as [b |] eqn:Eb; [| rewrite to_be_bytes_ok in Eb by (cbn; lia); discriminate].
    destruct (to_be_bytes level0 2) as [b' |] eqn:Eb'; [| rewrite to_be_bytes_ok in Eb' by (cbn; lia); discriminate].
    cbn in E. subst b'. apply to_be_bytes_spec in Eb as [_ <-]. apply to_be_bytes_spec in Eb' as [_ <-]. reflexivity.
  - now intros [= ->].
  - now intros [= ->].
  - now intros [= -> ->].
  - now intros [= -> ->].
Qed.

Lemma poplar1_input_inj ctx ctx' q q' : ctx_ok ctx -> ctx_ok ctx' -> poplar1_query_ok q -> poplar1_query_ok q' ->
  poplar1_input ctx q = poplar1_input ctx' q' -> ctx = ctx' /\ q = q'.
Proof.
  intros Hc Hc' Hq Hq' E. pose proof (p1_input_parts ctx q Hc Hq) as H. pose proof (p1_input_parts ctx' q' Hc' Hq') as H'.
  pose proof (p1_parts_inj q q' Hq Hq') as HI.
  destruct (p1_parts q) as [[[[c ID] u] seed] binder]. destruct (p1_parts q') as [[[[c' ID'] u'] seed'] binder'].
  destruct H as (d & Hd & Hl & Hs & Ep). destruct H' as (d' & Hd' & Hl' & Hs' & Ep').
  rewrite E, Ep' in Ep. destruct seed as [s |], seed' as [s' |]; cbn [point_of] in Ep.
  - apply ts_point_inj in Ep as (-> & Et & ->); try assumption.
    destruct (format_dst_inj _ _ _ _ _ _ _ _ _ _ Hd' Hd Et) as (-> & -> & -> & ->). split; [reflexivity |]. now apply HI.
  - apply (f_equal snd) in Ep. rewrite fk_point_domain, ts_point_domain in Ep by assumption. discriminate.
  - apply (f_equal snd) in Ep. rewrite fk_point_domain, ts_point_domain in Ep by assumption. discriminate.
  - apply fk_point_inj in Ep as (Et & ->); try assumption.
    destruct (format_dst_inj _ _ _ _ _ _ _ _ _ _ Hd' Hd Et) as (-> & -> & -> & ->). split; [reflexivity |]. now apply HI.
Qed.

Lemma tagged_fk_point c ID u ctx d binder : format_dst c ID u = Ok d -> (Z.of_nat (length (d ++ ctx)) < 65536)%Z ->
  tagged c ID ctx (fst (fk_point (d ++ ctx) binder)).
Proof.
  intros Hd Hl. unfold fk_point. destruct (fixed_key_message (d ++ ctx) binder) as [m |] eqn:E.
  - exact (tagged_fk _ _ _ _ _ _ _ Hd E).
  - exact (tagged_dst _ _ _ _ _ Hd Hl).
Qed.

Lemma poplar1_input_tagged ctx q : ctx_ok ctx ->
  tagged 0 p1_ID ctx (fst (poplar1_input ctx q)) \/ tagged 1 0 ctx (fst (poplar1_input ctx q)).
Proof.
  assert (T : forall u seed binder, (0 <= u < 2 ^ 16)%Z -> ctx_ok ctx ->
    tagged 0 p1_ID ctx (fst (ts_point seed (tag_of p1_ID u ctx) binder))).
  { intros u seed binder Hu Hc. destruct (tag_of_ok p1_ID u ctx ltac:(unfold p1_ID; lia) Hu Hc) as (d & Hd & -> & Hl).
    exact (tagged_point _ _ _ _ _ _ _ Hd Hl). }
  intros Hc. destruct q; cbn [poplar1_input].
  1-4: left; apply T; [split; (reflexivity || (intros H; discriminate H)) | exact Hc].
  all: right; match goal with |- context [idpf_tag ?u ?c] =>
         let X := fresh in assert (X : u = 0%Z \/ u = 1%Z) by (auto);
         destruct (idpf_tag_ok u c X Hc) as (d & Hd & -> & Hl) end.
  - exact (tagged_fk_point _ _ _ _ _ _ Hd Hl).
  - exact (tagged_fk_point _ _ _ _ _ _ Hd Hl).
  - exact (tagged_point _ _ _ _ _ _ _ Hd Hl).
  - exact (tagged_point _ _ _ _ _ _ _ Hd Hl).
Qed.

Theorem poplar1_queries (aes : BlockCipher) (bound bits : nat) :
  exists input : bytes -> poplar1_query -> bytes * Z,
    (forall ctx ctx' q q', ctx_ok ctx -> ctx_ok ctx' -> poplar1_query_ok q -> poplar1_query_ok q' ->
       input ctx q = input ctx' q' -> ctx = ctx' /\ q = q') /\
    (forall ctx q, ctx_ok ctx ->
       tagged 0 p1_ID ctx (fst (input ctx q)) \/ tagged 1 0 ctx (fst (input ctx q))) /\
    forall ts ts' ctx,
      let p := p1_obj ts aes bound bits in
      let p' := p1_obj ts' aes bound bits in
      let agree Q := forall q, Q q -> agree_at ts ts' (input ctx q) in
      (forall meas nonce rand, agree (poplar1_shard_derives nonce rand) ->
         p1_shard p ctx meas nonce rand = p1_shard p' ctx meas nonce rand) /\
      (forall key j level prefixes nonce ps idpf_key corr_seed corr_inner corr_leaf,
         agree (poplar1_verify_derives (level <? Z.of_nat bits - 1)%Z key j level nonce corr_seed) ->
         p1_verify_init p key ctx j (level, prefixes) nonce ps (idpf_key, corr_seed, corr_inner, corr_leaf) =
         p1_verify_init p' key ctx j (level, prefixes) nonce ps (idpf_key, corr_seed, corr_inner, corr_leaf)) /\
      (forall value_len alpha beta_inner beta_leaf nonce rand, agree (idpf_derives nonce) ->
         idpf_gen (idpf_obj ts aes bound value_len bits) alpha beta_inner beta_leaf ctx nonce rand =
         idpf_gen (idpf_obj ts' aes bound value_len bits) alpha beta_inner beta_leaf ctx nonce rand) /\
      (forall value_len j ps key level prefixes nonce, agree (idpf_derives nonce) ->
         idpf_eval (idpf_obj ts aes bound value_len bits) j ps key level prefixes ctx nonce =
         idpf_eval (idpf_obj ts' aes bound value_len bits) j ps key level prefixes ctx nonce) /\
      (forall level_prefixes shares, p1_verifier_shares_to_message p ctx level_prefixes shares =
         p1_verifier_shares_to_message p' ctx level_prefixes shares) /\
      (forall state msg, p1_verify_next p ctx state msg = p1_verify_next p' ctx state msg).
Proof.
  exists poplar1_input. split; [| split].
  - apply poplar1_input_inj.
  - apply poplar1_input_tagged.
  - intros ts ts' ctx p p' agree. repeat apply conj.
    + intros m nonce rand H. now apply p1_shard_cong.
    + intros key j level prefixes nonce ps ik cs ci cl H. now apply p1_verify_cong.
    + intros. now apply idpf_gen_cong.
    + intros. now apply idpf_eval_cong.
    + reflexivity.
    + reflexivity.
Qed.

Theorem poplar1_separated (aes : BlockCipher) (bound bits : nat) (ts ts' : TurboShake) ctx : ctx_ok ctx ->
  (forall m d, tagged 0 p1_ID ctx m \/ tagged 1 0 ctx m -> agree_at ts ts' (m, d)) ->
  let p := p1_obj ts aes bound bits in
  let p' := p1_obj ts' aes bound bits in
  (forall m nonce rand, p1_shard p ctx m nonce rand = p1_shard p' ctx m nonce rand) /\
  (forall key j ap nonce ps is, p1_verify_init p key ctx j ap nonce ps is = p1_verify_init p' key ctx j ap nonce ps is) /\
  (forall ap vs, p1_verifier_shares_to_message p ctx ap vs = p1_verifier_shares_to_message p' ctx ap vs) /\
  (forall state msg, p1_verify_next p ctx state msg = p1_verify_next p' ctx state msg).
Proof.
  intros Hc H p p'. destruct (poplar1_queries aes bound bits) as (input & _ & Ht & HA).
  assert (A : forall q, agree_at ts ts' (input ctx q)).
  { intros q. specialize (Ht ctx q Hc). destruct (input ctx q). now apply H. }
  destruct (HA ts ts' ctx) as (H1 & H2 & _ & _ & H3 & H4). repeat apply conj.
  - intros. now apply H1.
  - intros key j [level prefixes] nonce ps [[[ik cs] ci] cl]. apply H2. intros q _. apply A.
  - exact H3.
  - exact H4.
Qed.

Theorem ids_distinct (ts : TurboShake) (bound : nat) :
  exists count sum sumvec histogram multihot multiproof,
    (forall shares p, Prio3Count ts bound shares = Ok p -> p3_ID p = count) /\
    (forall shares m p, Prio3Sum ts bound shares m = Ok p -> p3_ID p = sum) /\
    (forall shares l m c p, Prio3SumVec ts bound shares l m c = Ok p -> p3_ID p = sumvec) /\
    (forall shares l c p, Prio3Histogram ts bound shares l c = Ok p -> p3_ID p = histogram) /\
    (forall shares l w c p, Prio3MultihotCountVec ts bound shares l w c = Ok p -> p3_ID p = multihot) /\
    (forall shares field n l m c p, Prio3SumVecWithMultiproof ts bound shares field n l m c = Ok p -> p3_ID p = multiproof) /\
    NoDup [count; sum; sumvec; histogram; multihot; multiproof; p1_ID] /\
    Forall (fun x => 0 <= x < 2 ^ 32)%Z [count; sum; sumvec; histogram; multihot; multiproof; p1_ID].
Proof.
  exists 1%Z, 2%Z, 3%Z, 4%Z, 5%Z, (Z.of_N 0xFFFFFFFF).
  assert (I : forall field xof ID vks shares (flp : Flp field) n p,
    Prio3_init field xof ID vks shares flp n = Ok p -> p3_ID p = ID).
  { intros field xof ID vks shares flp n p. unfold Prio3_init. destruct (_ && _); [| discriminate]. now intros [= <-]. }
  repeat apply conj.
  - intros shares p H. now apply I in H.
  - intros shares m p H. apply bind_Ok in H as (v & _ & H). now apply I in H.
  - intros shares l m c p H. apply bind_Ok in H as (v & _ & H). now apply I in H.
  - intros shares l c p H. apply bind_Ok in H as (v & _ & H). now apply I in H.
  - intros shares l w c p H. apply bind_Ok in H as (v & _ & H). now apply I in H.
  - intros shares field n l m c p H. apply bind_Ok in H as (v & _ & H). now apply I in H.
  - repeat constructor; cbn; intuition discriminate.
  - repeat constructor; (discriminate || reflexivity).
Qed.
