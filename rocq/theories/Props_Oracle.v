(** Properties C58, C59, C60: domain separation.  Prio3 and Poplar1 are run
    with an arbitrary function in place of TurboSHAKE128; the theorems say at
    which messages that function matters. *)
From Verif Require Import OracleFacts OraclePoplar1 IdpfInst Poplar1Inst.
Open Scope nat_scope.

(** C58.  A message is tagged with at most one algorithm class, algorithm and
    application context. *)
Theorem C58_tags_disjoint : forall c c' ID ID' ctx ctx' m, (0 <= c < 256)%Z -> (0 <= c' < 256)%Z ->
  tagged c ID ctx m -> tagged c' ID' ctx' m -> c = c' /\ ID = ID' /\ ctx = ctx'.
Proof. exact tagged_inj. Qed.
Print Assumptions C58_tags_disjoint.

(** C58.  Everything a Prio3 object does under an application context is
    determined by TurboSHAKE128 at the messages tagged with its algorithm
    identifier and that context. *)
Theorem C58_prio3 : forall (P : FieldClass) (flp : Flp P) (ID : Z) (ks shares proofs bound : nat) (ts ts' : TurboShake) ctx,
  wf_field P -> (0 <= ID < 2 ^ 32)%Z -> 1 <= shares -> proofs < 256 -> ctx_ok ctx ->
  (forall m d, tagged 0 ID ctx m -> agree_at ts ts' (m, d)) ->
  let p := Prio3Vdaf (prio3_on flp ID ks shares proofs bound ts) in
  let p' := Prio3Vdaf (prio3_on flp ID ks shares proofs bound ts') in
  (forall m nonce rand, vd_shard p ctx m nonce rand = vd_shard p' ctx m nonce rand) /\
  (forall key j nonce ps is, vd_verify_init p key ctx j tt nonce ps is = vd_verify_init p' key ctx j tt nonce ps is) /\
  (forall vs, vd_verifier_shares_to_message p ctx tt vs = vd_verifier_shares_to_message p' ctx tt vs) /\
  (forall state msg, vd_verify_next p ctx state msg = vd_verify_next p' ctx state msg).
Proof. exact prio3_separated. Qed.
Print Assumptions C58_prio3.

(** C58.  Poplar1, whose IDPF uses the algorithm class 1 and algorithm 0. *)
Theorem C58_poplar1 : forall (aes : BlockCipher) (bound bits : nat) (ts ts' : TurboShake) ctx, ctx_ok ctx ->
  (forall m d, tagged 0 p1_ID ctx m \/ tagged 1 0 ctx m -> agree_at ts ts' (m, d)) ->
  let p := p1_obj ts aes bound bits in
  let p' := p1_obj ts' aes bound bits in
  (forall m nonce rand, p1_shard p ctx m nonce rand = p1_shard p' ctx m nonce rand) /\
  (forall key j ap nonce ps is, p1_verify_init p key ctx j ap nonce ps is = p1_verify_init p' key ctx j ap nonce ps is) /\
  (forall ap vs, p1_verifier_shares_to_message p ctx ap vs = p1_verifier_shares_to_message p' ctx ap vs) /\
  (forall state msg, p1_verify_next p ctx state msg = p1_verify_next p' ctx state msg).
Proof. exact poplar1_separated. Qed.
Print Assumptions C58_poplar1.

(** C58.  The variants of Prio3 and Poplar1 have different identifiers. *)
Theorem C58_ids : forall (ts : TurboShake) (bound : nat),
  exists count sum sumvec histogram multihot multiproof,
    (forall shares p, Prio3Count ts bound shares = Ok p -> p3_ID p = count) /\
    (forall shares m p, Prio3Sum ts bound shares m = Ok p -> p3_ID p = sum) /\
    (forall shares l m c p, Prio3SumVec ts bound shares l m c = Ok p -> p3_ID p = sumvec) /\
    (forall shares l c p, Prio3Histogram ts bound shares l c = Ok p -> p3_ID p = histogram) /\
    (forall shares l w c p, Prio3MultihotCountVec ts bound shares l w c = Ok p -> p3_ID p = multihot) /\
    (forall shares field n l m c p, Prio3SumVecWithMultiproof ts bound shares field n l m c = Ok p -> p3_ID p = multiproof) /\
    NoDup [count; sum; sumvec; histogram; multihot; multiproof; p1_ID] /\
    Forall (fun x => 0 <= x < 2 ^ 32)%Z [count; sum; sumvec; histogram; multihot; multiproof; p1_ID].
Proof. exact ids_distinct. Qed.
Print Assumptions C58_ids.

(** C59.  There is one XOF input for every purpose and all its parameters, no
    two of them equal, such that each derivation of Prio3 depends on
    TurboSHAKE128 at its own input only; [shard] makes only the derivations
    [shard_derives] lists, [verify_init] those of [verify_derives], and
    [verifier_shares_to_message] derives the joint randomness seed of the parts
    in the order of the verifier shares. *)
Theorem C59_prio3 : forall (P : FieldClass) (flp : Flp P) (ID : Z) (ks shares proofs bound : nat),
  wf_field P -> (0 <= ID < 2 ^ 32)%Z -> 1 <= shares -> proofs < 256 ->
  exists input : bytes -> prio3_query P -> bytes * Z,
    (forall ctx ctx' q q', ctx_ok ctx -> ctx_ok ctx' -> prio3_query_ok q -> prio3_query_ok q' ->
       input ctx q = input ctx' q' -> ctx = ctx' /\ q = q') /\
    (forall ctx q, ctx_ok ctx -> tagged 0 ID ctx (fst (input ctx q))) /\
    forall ts ts' ctx,
      let p := prio3_on flp ID ks shares proofs bound ts in
      let p' := prio3_on flp ID ks shares proofs bound ts' in
      let agree Q := forall q, Q q -> agree_at ts ts' (input ctx q) in
      let joint := 0 <? JOINT_RAND_LEN flp in
      (forall q, agree (eq q) -> prio3_derive p ctx q = prio3_derive p' ctx q) /\
      (forall m nonce rand, agree (shard_derives shares joint nonce rand) ->
         p3_shard p ctx m nonce rand = p3_shard p' ctx m nonce rand) /\
      (forall key j nonce ps is, agree (verify_derives joint key j nonce ps is) ->
         p3_verify_init p key ctx j tt nonce ps is = p3_verify_init p' key ctx j tt nonce ps is) /\
      (forall shares_, agree (fun q => exists parts, q = JointRandSeed parts /\ joint = true /\ map snd shares_ = map Some parts) ->
         p3_verifier_shares_to_message p ctx tt shares_ = p3_verifier_shares_to_message p' ctx tt shares_) /\
      (forall state msg, p3_verify_next p ctx state msg = p3_verify_next p' ctx state msg).
Proof. exact prio3_queries. Qed.
Print Assumptions C59_prio3.

(** C60.  The same for Poplar1 and its IDPF. *)
Theorem C60_poplar1 : forall (aes : BlockCipher) (bound bits : nat),
  exists input : bytes -> poplar1_query -> bytes * Z,
    (forall ctx ctx' q q', ctx_ok ctx -> ctx_ok ctx' -> poplar1_query_ok q -> poplar1_query_ok q' ->
       input ctx q = input ctx' q' -> ctx = ctx' /\ q = q') /\
    (forall ctx q, ctx_ok ctx ->
       tagged 0 p1_ID ctx (fst (input ctx q)) \/ tagged 1 0 ctx (fst (input ctx q))) /\
    forall ts ts' ctx,
      let p := p1_obj ts aes bound bits in
      let p' := p1_obj ts' aes bound bits in
      let agree Q := forall q, Q q -> agree_at ts ts' (input ctx q) in
      (forall meas nonce rand, agree (poplar1_shard_derives nonce rand) ->
         p1_shard p ctx meas nonce rand = p1_shard p' ctx meas nonce rand) /\
      (forall key j level prefixes nonce ps idpf_key corr_seed corr_inner corr_leaf,
         agree (poplar1_verify_derives (level <? Z.of_nat bits - 1)%Z key j level nonce corr_seed) ->
         p1_verify_init p key ctx j (level, prefixes) nonce ps (idpf_key, corr_seed, corr_inner, corr_leaf) =
         p1_verify_init p' key ctx j (level, prefixes) nonce ps (idpf_key, corr_seed, corr_inner, corr_leaf)) /\
      (forall value_len alpha beta_inner beta_leaf nonce rand, agree (idpf_derives nonce) ->
         idpf_gen (idpf_obj ts aes bound value_len bits) alpha beta_inner beta_leaf ctx nonce rand =
         idpf_gen (idpf_obj ts' aes bound value_len bits) alpha beta_inner beta_leaf ctx nonce rand) /\
      (forall value_len j ps key level prefixes nonce, agree (idpf_derives nonce) ->
         idpf_eval (idpf_obj ts aes bound value_len bits) j ps key level prefixes ctx nonce =
         idpf_eval (idpf_obj ts' aes bound value_len bits) j ps key level prefixes ctx nonce) /\
      (forall level_prefixes shares, p1_verifier_shares_to_message p ctx level_prefixes shares =
         p1_verifier_shares_to_message p' ctx level_prefixes shares) /\
      (forall state msg, p1_verify_next p ctx state msg = p1_verify_next p' ctx state msg).
Proof. exact poplar1_queries. Qed.
Print Assumptions C60_poplar1.

(** The constructors return such objects. *)
Example C59_example : forall ts bound,
  Prio3Count ts bound 2 = Ok (prio3_on (FlpBBCGGI19 (Count Field64)) 1 32 2 1 bound ts) /\
  Poplar1_init ts (fun _ b => b) bound 4 = Ok (p1_obj ts (fun _ b => b) bound 4) /\
  wf_field Field64 /\ ctx_ok [x01; x02].
Proof. intros. repeat apply conj; (reflexivity || discriminate || (vm_compute; (discriminate || lia))). Qed.

(** A derivation does depend on TurboSHAKE128 at its input. *)
Example C59_dependence :
  helper_meas_share (prio3_on (FlpBBCGGI19 (Count Field64)) 1 32 2 1 10 (fun _ _ _ => x00)) [] 1 (repeat x00 32) <>
  helper_meas_share (prio3_on (FlpBBCGGI19 (Count Field64)) 1 32 2 1 10 (fun _ _ _ => x01)) [] 1 (repeat x00 32).
Proof. intros H. apply (f_equal (fun r => match r with Ok v => map val v | Raise _ => [] end)) in H. vm_compute in H. discriminate. Qed.
