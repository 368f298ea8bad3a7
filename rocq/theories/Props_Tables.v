(** Property C91: the parameters and constants of the code are those of the
    tables of the document. *)
From Coq Require Import Znumtheory.
From Verif Require Import Props_Field Prio3Facts Prio3Props Prio3Spec Prio3Inst Poplar1Props Poplar1Inst IdpfInst PostFacts
  Circuits CircuitInstances Xof Field.
Open Scope nat_scope.

Lemma Ok_inj {A} (a b : A) : Ok a = Ok b -> a = b.
Proof. now injection 1. Qed.

(** C91.  The finite fields (draft-irtf-cfrg-vdaf.md:2343-2349). *)
Theorem C91_fields :
  (MODULUS Field64 = 2 ^ 32 * 4294967295 + 1 /\ prime (MODULUS Field64) /\ ENCODED_SIZE Field64 = 8%nat /\
   val (gen Field64) = 7 ^ 4294967295 mod MODULUS Field64 /\ GEN_ORDER Field64 = 2 ^ 32 /\
   primitive_root (gen Field64) (Z.to_nat (2 ^ 32)))%Z /\
  (MODULUS Field128 = 2 ^ 66 * 4611686018427387897 + 1 /\ prime (MODULUS Field128) /\ ENCODED_SIZE Field128 = 16%nat /\
   val (gen Field128) = 7 ^ 4611686018427387897 mod MODULUS Field128 /\ GEN_ORDER Field128 = 2 ^ 66 /\
   primitive_root (gen Field128) (Z.to_nat (2 ^ 66)))%Z /\
  (MODULUS Field255 = 2 ^ 255 - 19 /\ prime (MODULUS Field255) /\ ENCODED_SIZE Field255 = 32%nat)%Z.
Proof.
  destruct C03_moduli_prime as (P64 & _ & P128 & P255 & E64 & _ & E128 & E255).
  destruct C04_fields_ok as (N64 & _ & N128).
  assert (G : forall (P : NttFieldClass) n, val (fpow (fof (P := P) 7) n) = (val (fof (P := P) 7) ^ Z.of_N n mod MODULUS P)%Z)
    by (intros P n; apply (C03_ops_modular P (fof 7) f0 n 0)).
  rewrite E64, E128, E255.
  split; [| split]; [| | split; [reflexivity | split; [exact P255 | reflexivity]]].
  - split; [reflexivity|]. split; [exact P64|]. split; [reflexivity|]. split; [rewrite <- E64; exact (G Field64 _)|].
    split; [reflexivity|]. exact (C04_gen_order Field64 N64).
  - split; [reflexivity|]. split; [exact P128|]. split; [reflexivity|]. split; [rewrite <- E128; exact (G Field128 _)|].
    split; [reflexivity|]. exact (C04_gen_order Field128 N128).
Qed.
Print Assumptions C91_fields.

(** C91.  The parameters of a Prio3 object (draft-irtf-cfrg-vdaf.md:2856-2876)
    with the XOF and the codepoint [ID] (6332-6342), the circuit [v] and the
    number of proofs of the variant. *)
Definition prio3_table (ts : TurboShake) (bound : nat) (shares ID : Z) (field : NttFieldClass) (v : Valid field)
  (proofs : nat) (p : Prio3) : Prop :=
  p = prio3_obj field ID v ts bound (Z.to_nat shares) proofs /\
  vd_ID (Prio3Vdaf p) = ID /\
  vd_VERIFY_KEY_SIZE (Prio3Vdaf p) = 32 /\
  vd_RAND_SIZE (Prio3Vdaf p) =
    (if JOINT_RAND_LEN (FlpBBCGGI19 v) =? 0 then 32 * Z.to_nat shares else 2 * 32 * Z.to_nat shares) /\
  vd_NONCE_SIZE (Prio3Vdaf p) = 16 /\
  vd_ROUNDS (Prio3Vdaf p) = 1 /\
  vd_SHARES (Prio3Vdaf p) = Z.to_nat shares /\ (2 <= shares < 256)%Z.

Lemma init_table ts bound shares ID (field : NttFieldClass) (v : Valid field) proofs p :
  Prio3_init field (XofTurboShake128 ts bound) ID (SEED_SIZE (XofTurboShake128 ts bound)) shares (FlpBBCGGI19 v) proofs = Ok p ->
  prio3_table ts bound shares ID field v proofs p.
Proof.
  unfold Prio3_init. destruct ((2 <=? shares) && (shares <? 256))%Z eqn:E; [|discriminate]. intro H. apply Ok_inj in H. subst p.
  apply andb_true_iff in E. destruct E as [E1 E2]. apply Z.leb_le in E1. apply Z.ltb_lt in E2.
  split; [reflexivity|]. split; [reflexivity|]. split; [reflexivity|].
  split; [| split; [reflexivity|]; split; [reflexivity|]; split; [reflexivity | lia]].
  cbn [Prio3Vdaf vd_RAND_SIZE]. unfold RAND_SIZE. cbn [p3_flp p3_xof p3_SHARES SEED_SIZE XofTurboShake128].
  change (JOINT_RAND_LEN _) with (JOINT_RAND_LEN (FlpBBCGGI19 v)). generalize (JOINT_RAND_LEN (FlpBBCGGI19 v)). intros [|k]; cbn [Nat.eqb Nat.ltb Nat.leb]; lia.
Qed.

(** C91.  The variants of Prio3 (4104-4108, 4153-4157, 4298-4302, 4461-4465,
    4578-4582). *)
Theorem C91_prio3 : forall ts bound shares p,
  (Prio3Count ts bound shares = Ok p -> prio3_table ts bound shares 1 Field64 (Count Field64) 1 p) /\
  (forall max_measurement, Prio3Sum ts bound shares max_measurement = Ok p ->
   exists v, Sum_init Field64 max_measurement = Ok v /\ prio3_table ts bound shares 2 Field64 v 1 p) /\
  (forall length max_measurement chunk_length, Prio3SumVec ts bound shares length max_measurement chunk_length = Ok p ->
   exists v, SumVec_init Field128 length max_measurement chunk_length = Ok v /\
     prio3_table ts bound shares 3 Field128 v 1 p) /\
  (forall length chunk_length, Prio3Histogram ts bound shares length chunk_length = Ok p ->
   exists v, Histogram_init Field128 length chunk_length = Ok v /\ prio3_table ts bound shares 4 Field128 v 1 p) /\
  (forall length max_weight chunk_length, Prio3MultihotCountVec ts bound shares length max_weight chunk_length = Ok p ->
   exists v, MultihotCountVec_init Field128 length max_weight chunk_length = Ok v /\
     prio3_table ts bound shares 5 Field128 v 1 p).
Proof.
  intros ts bound shares p. split; [exact (init_table ts bound shares 1 Field64 (Count Field64) 1 p)|].
  repeat split; intros *; intro H; apply bind_Ok in H; destruct H as (v & Hv & H); exists v; (split; [exact Hv|]); exact (init_table _ _ _ _ _ _ _ _ H).
Qed.
Print Assumptions C91_prio3.

(** C91.  The variant with several proofs is not in the registry: its
    codepoint is one of those for private use. *)
Theorem C91_multiproof : forall ts bound shares field proofs length max_measurement chunk_length p,
  Prio3SumVecWithMultiproof ts bound shares field proofs length max_measurement chunk_length = Ok p ->
  exists v ID, SumVec_init field length max_measurement chunk_length = Ok v /\
    prio3_table ts bound shares ID field v proofs p /\ (Z.of_N 0xFFFF0000 <= ID <= Z.of_N 0xFFFFFFFF)%Z.
Proof.
  intros *; intro H; apply bind_Ok in H; destruct H as (v & Hv & H). exists v. eexists. split; [exact Hv|].
  split; [exact (init_table _ _ _ _ _ _ _ _ H) | split; vm_compute; discriminate].
Qed.
Print Assumptions C91_multiproof.

(** C91.  Poplar1 and its IDPF (4950-4968, 5649-5657, 6332-6342). *)
Theorem C91_poplar1 : forall ts aes bound bits p, Poplar1_init ts aes bound bits = Ok p ->
  vd_ID (p1_vdaf p) = 6%Z /\
  p1_xof p = XofTurboShake128 ts bound /\ SEED_SIZE (p1_xof p) = 32 /\
  vd_VERIFY_KEY_SIZE (p1_vdaf p) = 32 /\
  vd_RAND_SIZE (p1_vdaf p) = 32 * 3 + id_RAND_SIZE (p1_idpf p) /\
  vd_NONCE_SIZE (p1_vdaf p) = 16 /\
  vd_ROUNDS (p1_vdaf p) = 2 /\
  vd_SHARES (p1_vdaf p) = 2 /\
  IdpfBBCGGI21_init ts aes bound 2 bits = Ok (p1_idpf p).
Proof.
  intros *; intro H; apply bind_Ok in H; destruct H as (i & Hi & H). apply Ok_inj in H. subst p.
  repeat split. exact Hi.
Qed.
Print Assumptions C91_poplar1.

Theorem C91_idpf : forall ts aes bound value_len bits,
  match IdpfBBCGGI21_init ts aes bound value_len bits with
  | Ok i => (0 < bits /\ 0 < value_len)%Z /\
      id_xof_inner i = XofFixedKeyAes128 ts aes bound /\ SEED_SIZE (id_xof_inner i) = 16 /\
      id_SHARES = 2 /\ id_BITS i = Z.to_nat bits /\ id_VALUE_LEN i = Z.to_nat value_len /\
      id_KEY_SIZE i = 16 /\ id_NONCE_SIZE i = 16 /\ id_RAND_SIZE i = 32 /\ id_field_inner i = Field64 /\ id_field_leaf i = Field255
  | Raise e => ~ (0 < bits /\ 0 < value_len)%Z
  end.
Proof.
  intros. unfold IdpfBBCGGI21_init. destruct (0 <? value_len)%Z eqn:E1; cbn [check bind]; [|apply Z.ltb_ge in E1; lia].
  destruct (0 <? bits)%Z eqn:E2; cbn [check bind]; [|apply Z.ltb_ge in E2; lia].
  apply Z.ltb_lt in E1, E2. repeat split; trivial.
Qed.
Print Assumptions C91_idpf.

(** C91.  The usage constants (2878-2887, 4970-4977). *)
Theorem C91_usages :
  (USAGE_MEAS_SHARE, USAGE_PROOF_SHARE, USAGE_JOINT_RANDOMNESS, USAGE_PROVE_RANDOMNESS, USAGE_QUERY_RANDOMNESS,
   USAGE_JOINT_RAND_SEED, USAGE_JOINT_RAND_PART) = (1, 2, 3, 4, 5, 6, 7)%Z /\
  (USAGE_SHARD_RAND, USAGE_CORR_INNER, USAGE_CORR_LEAF, USAGE_VERIFY_RAND) = (1, 2, 3, 4)%Z.
Proof. split; reflexivity. Qed.
Print Assumptions C91_usages.

(** C91.  The one row the constructor does not enforce: the document has PROOFS
    in [1, 256), the constructor takes any number.  From 256 on neither
    sharding nor verification ever returns. *)
Theorem C91_proofs_many : forall p : Prio3, (256 <= Z.of_nat (p3_PROOFS p))%Z ->
  (forall ctx m nonce rand r, p3_shard p ctx m nonce rand <> Ok r) /\
  (forall vk ctx j nonce ps s r, p3_verify_init p vk ctx j tt nonce ps s <> Ok r).
Proof.
  intros p Hp.
  assert (B : forall b, byte_of (Z.of_nat (p3_PROOFS p)) <> Ok b).
  { intros b. unfold byte_of. destruct (Z.of_nat (p3_PROOFS p) <? 256)%Z eqn:E; [apply Z.ltb_lt in E; lia|]. now rewrite andb_false_r. }
  assert (R : forall ctx s r, prove_rands p ctx s <> Ok r).
  { intros ctx s r H. unfold prove_rands in H. apply bind_Ok in H. destruct H as (? & _ & H).
    apply bind_Ok in H. destruct H as (? & H & _). exact (B _ H). }
  assert (Q : forall vk ctx n r, query_rands p vk ctx n <> Ok r).
  { intros vk ctx n r H. unfold query_rands in H. apply bind_Ok in H. destruct H as (? & _ & H).
    apply bind_Ok in H. destruct H as (? & H & _). exact (B _ H). }
  split.
  - intros ctx m nonce rand r H. unfold p3_shard in H.
    do 4 (apply bind_Ok in H; destruct H as (? & _ & H)).
    destruct (0 <? JOINT_RAND_LEN (p3_flp p)).
    + unfold shard_with_joint_rand in H. repeat (apply bind_Ok in H; destruct H as (? & ?E & H); repeat (match type of H with context [let '(_, _) := ?x in _] => destruct x end)); eapply R; eassumption.
    + unfold shard_without_joint_rand in H. repeat (apply bind_Ok in H; destruct H as (? & ?E & H); repeat (match type of H with context [let '(_, _) := ?x in _] => destruct x end)); eapply R; eassumption.
  - intros vk ctx j nonce ps s r H. unfold p3_verify_init in H.
    repeat (apply bind_Ok in H; destruct H as (? & ?E & H); repeat (match type of H with context [let '(_, _) := ?x in _] => destruct x end)); eapply Q; eassumption.
Qed.
Print Assumptions C91_proofs_many.

(** C91.  With no proof at all, the verifiers are empty and the proof is never
    rejected: the document's range is needed. *)
Theorem C91_proofs_refuted : forall p : Prio3, p3_PROOFS p = 0 ->
  (forall vk ctx j nonce ps s st v part, p3_verify_init p vk ctx j tt nonce ps s = Ok (st, (v, part)) -> v = []) /\
  (JOINT_RAND_LEN (p3_flp p) = 0 -> forall ctx vs, Forall (fun s => fst s = []) vs ->
   p3_verifier_shares_to_message p ctx tt vs = Ok None) /\
  (JOINT_RAND_LEN (p3_flp p) <> 0 -> forall ctx parts seed, joint_rand_seed p ctx parts = Ok seed ->
   p3_verifier_shares_to_message p ctx tt (map (fun q => ([], Some q)) parts) = Ok (Some seed)).
Proof.
  intros p Hp. split; [| split].
  - intros vk ctx j nonce ps s st v part H. unfold p3_verify_init in H.
    do 4 (apply bind_Ok in H; destruct H as (? & ?E & H); repeat (match type of H with context [let '(_, _) := ?x in _] => destruct x end)).
    rewrite Hp in H. cbn in H. congruence.
  - intros HJ ctx vs Hv. unfold p3_verifier_shares_to_message. rewrite HJ, Hp, Nat.mul_0_r. cbn [Nat.ltb Nat.leb fzeros repeat].
    enough (F : forall acc, foldM (fun '(verifiers, joint_rand_parts) '(verifiers_share, joint_rand_part) =>
        let* verifiers := vec_add verifiers verifiers_share in Ok (verifiers, joint_rand_parts)) vs ([], acc) =
        Ok ([] : list (F (p3_field p)), acc : list bytes)) by now rewrite F.
    induction Hv as [| [x q] l Hx _ IH]; intro acc; [reflexivity|]. cbn in Hx. subst x. cbn. apply IH.
  - intros HJ ctx parts seed Hs. unfold p3_verifier_shares_to_message. rewrite Hp, Nat.mul_0_r.
    destruct (0 <? JOINT_RAND_LEN (p3_flp p)) eqn:EJ; [|apply Nat.ltb_ge in EJ; lia]. cbn [fzeros repeat].
    enough (F : forall l acc, foldM (fun '(verifiers, joint_rand_parts) '(verifiers_share, joint_rand_part) =>
        let* verifiers := vec_add verifiers verifiers_share in
        match joint_rand_part with Some part => Ok (verifiers, joint_rand_parts ++ [part]) | None => Raise AssertionError end)
        (map (fun q => ([], Some q)) l) ([], acc) =
        Ok ([] : list (F (p3_field p)), acc ++ l : list bytes)) by (rewrite F; cbn; now rewrite Hs).
    induction l as [|q l IH]; intro acc; [cbn; now rewrite app_nil_r|]. cbn in IH |- *. rewrite IH, <- app_assoc. reflexivity.
Qed.
Print Assumptions C91_proofs_refuted.

(** The constructors do succeed, also with no proof and with 256. *)
Example C91_example : forall ts aes bound,
  (exists p, Prio3Count ts bound 2 = Ok p) /\ (exists p, Prio3Sum ts bound 2 255 = Ok p) /\
  (exists p, Prio3SumVec ts bound 2 10 255 9 = Ok p) /\ (exists p, Prio3Histogram ts bound 2 4 2 = Ok p) /\
  (exists p, Prio3MultihotCountVec ts bound 2 4 2 2 = Ok p) /\ (exists p, Poplar1_init ts aes bound 4 = Ok p) /\
  (exists p, Prio3SumVecWithMultiproof ts bound 2 Field64 0 4 3 2 = Ok p /\ p3_PROOFS p = 0) /\
  (exists p, Prio3SumVecWithMultiproof ts bound 2 Field64 256 4 3 2 = Ok p /\ p3_PROOFS p = 256).
Proof.
  intros. split; [|split; [|split; [|split; [|split; [|split; [|split]]]]]]; eexists; try split; reflexivity.
Qed.
