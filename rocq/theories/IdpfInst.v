(** IdpfBBCGGI21 meets the assumptions of the generic IDPF theorems. *)
From Verif Require Import IdpfSpec IdpfFacts IdpfCodec XofFacts PostFacts.
Open Scope nat_scope.

Definition idpf_obj (ts : TurboShake) (aes : BlockCipher) (bound value_len bits : nat) : Idpf :=
  {| id_field_inner := Field64; id_field_leaf := Field255;
     id_xof_inner := XofFixedKeyAes128 ts aes bound; id_xof_leaf := XofTurboShake128 ts bound;
     id_VALUE_LEN := value_len; id_BITS := bits |}.

Lemma idpf_fields_wf : wf_field Field64 /\ wf_field Field255.
Proof. repeat split; vm_compute; (discriminate || lia). Qed.

Lemma turboshake_for ts bound n lim : n <= 255 -> XofFor (XofTurboShake128 ts bound) n lim.
Proof.
  intros Hn. split.
  - intros seed dst binder Hs Hd. cbn in *. eexists. rewrite bind_Ok. eexists.
    split; [apply turboshake_message_Ok; repeat split; lia | reflexivity].
  - intros seed dst binder st H. exact (xo_stream _ _ (turboshake_ok ts bound lim) seed dst binder st H).
Qed.

Lemma aes_for ts aes bound : (forall k b, length b = 16 -> length (aes k b) = 16) ->
  XofFor (XofFixedKeyAes128 ts aes bound) 16 (2 ^ 132).
Proof.
  intros Ha. pose proof (aes_ok ts aes Ha bound) as [H1 H2]. split; [exact H1|exact H2].
Qed.

Lemma idpf_init_ok ts aes bound value_len bits i : (forall k b, length b = 16 -> length (aes k b) = 16) ->
  (Z.of_nat bound < 2 ^ 120)%Z -> IdpfBBCGGI21_init ts aes bound value_len bits = Ok i ->
  IdpfOk i (2 ^ 132) /\ wf_field (id_field_inner i) /\ wf_field (id_field_leaf i) /\
  Z.of_nat (id_VALUE_LEN i) = value_len /\ Z.of_nat (id_BITS i) = bits /\ id_KEY_SIZE i = 16 /\ id_NONCE_SIZE i = 16 /\ id_RAND_SIZE i = 32.
Proof.
  intros Ha Hb H. unfold IdpfBBCGGI21_init in H. apply bind_Ok in H as (u & Hu & H). apply check_Ok, Z.ltb_lt in Hu.
  apply bind_Ok in H as (u' & Hu' & H). apply check_Ok, Z.ltb_lt in Hu'. injection H as <-.
  cbn [id_field_inner id_field_leaf id_VALUE_LEN id_BITS].
  assert (Hp : (0 < 2 ^ 120)%Z) by reflexivity.
  split; [|split; [apply idpf_fields_wf|split; [apply idpf_fields_wf|repeat split; lia]]].
  constructor; unfold id_KEY_SIZE; cbn [id_xof_inner id_xof_leaf id_field_inner id_field_leaf id_BITS].
  - apply aes_for, Ha.
  - apply turboshake_for. cbn. lia.
  - change (SEED_SIZE (XofFixedKeyAes128 ts aes bound)) with 16. change (loop_bound (XofFixedKeyAes128 ts aes bound)) with bound.
    change (ENCODED_SIZE Field64_base) with 8. change (2 ^ 132)%Z with (4096 * 2 ^ 120)%Z. lia.
  - change (SEED_SIZE (XofFixedKeyAes128 ts aes bound)) with 16. change (loop_bound (XofTurboShake128 ts bound)) with bound.
    change (ENCODED_SIZE Field255) with 32. change (2 ^ 132)%Z with (4096 * 2 ^ 120)%Z. lia.
  - cbn. lia.
  - lia.
Qed.

Lemma idpf_init_Raise ts aes bound value_len bits : (value_len <= 0 \/ bits <= 0)%Z ->
  IdpfBBCGGI21_init ts aes bound value_len bits = Raise AssertionError.
Proof.
  intros H. unfold IdpfBBCGGI21_init. destruct (Z.ltb_spec 0 value_len); [|easy]. cbn [check bind].
  destruct (Z.ltb_spec 0 bits); [lia|easy].
Qed.

Lemma idpf_init_cases ts aes bound value_len bits : (forall k b, length b = 16 -> length (aes k b) = 16) ->
  (Z.of_nat bound < 2 ^ 120)%Z ->
  match IdpfBBCGGI21_init ts aes bound value_len bits with
  | Ok i => (0 < value_len)%Z /\ (0 < bits)%Z /\
      IdpfOk i (2 ^ 132) /\ wf_field (id_field_inner i) /\ wf_field (id_field_leaf i) /\
      Z.of_nat (id_VALUE_LEN i) = value_len /\ Z.of_nat (id_BITS i) = bits /\
      id_KEY_SIZE i = 16 /\ id_NONCE_SIZE i = 16 /\ id_RAND_SIZE i = 32
  | Raise e => e = AssertionError /\ (value_len <= 0 \/ bits <= 0)%Z
  end.
Proof.
  intros Ha Hb. pose proof (fun i => idpf_init_ok ts aes bound value_len bits i Ha Hb) as HI.
  pose proof (idpf_init_Raise ts aes bound value_len bits) as HR. revert HI HR. unfold IdpfBBCGGI21_init.
  destruct (Z.ltb_spec 0 value_len), (Z.ltb_spec 0 bits); cbn [check bind]; intros HI HR; try (split; [reflexivity|lia]).
  split; [easy|]. split; [easy|]. now apply HI.
Qed.

Section C34.
Context (i : Idpf) (lim : Z) (HO : IdpfOk i lim).

Theorem gen_total alpha bi bl ctx nonce rand : gen_args_ok i alpha bi bl ctx nonce rand ->
  match idpf_gen i alpha bi bl ctx nonce rand with
  | Ok (ps, keys) => idpf_public_wf i ps /\ exists k0 k1, keys = [k0; k1] /\ length k0 = id_KEY_SIZE i /\ length k1 = id_KEY_SIZE i /\ rand = k0 ++ k1
  | Raise e => e = OutOfFuel /\ idpf_ran_out i
  end.
Proof.
  intros HA. pose proof (gen_post i lim HO _ _ _ _ _ _ HA) as H.
  pose proof (idpf_correct i lim HO _ _ _ _ _ _ HA) as HC.
  destruct (idpf_gen i alpha bi bl ctx nonce rand) as [[ps keys]|e]; [|exact H].
  destruct (HC _ _ eq_refl) as (H1 & k0 & k1 & -> & K0 & K1 & Hr & _). split; [easy|]. exists k0, k1. easy.
Qed.

Theorem eval_sums alpha bi bl ctx nonce rand ps k0 k1 level prefixes : gen_args_ok i alpha bi bl ctx nonce rand ->
  idpf_gen i alpha bi bl ctx nonce rand = Ok (ps, [k0; k1]) ->
  level < id_BITS i -> NoDup prefixes -> Forall (fun x => length x = S level) prefixes ->
  match idpf_eval i 0 ps k0 (Z.of_nat level) prefixes ctx nonce, idpf_eval i 1 ps k1 (Z.of_nat level) prefixes ctx nonce with
  | Ok out0, Ok out1 =>
      length out0 = length prefixes /\ length out1 = length prefixes /\
      Forall (of_level i level (id_VALUE_LEN i)) out0 /\ Forall (of_level i level (id_VALUE_LEN i)) out1 /\
      forall k d, k < length prefixes ->
        fv_add (nth k out0 d) (nth k out1 d) = Ok (point_value i alpha bi bl level (nth k prefixes []))
  | Raise e, _ => e = OutOfFuel /\ idpf_ran_out i
  | Ok _, Raise e => e = OutOfFuel /\ idpf_ran_out i
  end.
Proof.
  intros HA Hg Hl Hn Hf. destruct (idpf_correct i lim HO _ _ _ _ _ _ HA _ _ Hg) as (_ & k0' & k1' & E & _ & _ & _ & H).
  injection E as <- <-. specialize (H level prefixes Hl Hn Hf).
  destruct (idpf_eval i 0 _ _ _ _ _ _) as [o0|e]; [|exact H]. cbn [post] in H.
  destruct (idpf_eval i 1 _ _ _ _ _ _) as [o1|e]; exact H.
Qed.
End C34.
