(** Vocabulary for the properties about domain separation of the XOF inputs.
    Nothing here models a /repo function. *)
From Verif Require Export Prio3Spec Poplar1Spec.
Open Scope nat_scope.

(** Two versions of TurboSHAKE128 with the same output stream at a message and
    domain byte. *)
Definition agree_at (ts ts' : TurboShake) (m : bytes * Z) : Prop :=
  forall i, ts (fst m) (snd m) i = ts' (fst m) (snd m) i.

(** The message starts with a tag of the given algorithm class, algorithm and
    application context: the two-byte length of the tag, the version, the
    class, the algorithm, a two-byte usage, the context. *)
Definition tagged (class ID : Z) (ctx m : bytes) : Prop :=
  exists len id usage rest,
    to_le_bytes (8 + Z.of_nat (length ctx)) 2 = Ok len /\ to_be_bytes ID 4 = Ok id /\ length usage = 2 /\
    m = len ++ [x12; z2b class] ++ id ++ usage ++ ctx ++ rest.

(** * Prio3 *)

(** A Prio3 object with XofTurboShake128 over [ts]. *)
Definition prio3_on {field : FieldClass} (flp : Flp field) (ID : Z) (key_size shares proofs bound : nat)
  (ts : TurboShake) : Prio3 :=
  {| p3_field := field; p3_flp := flp; p3_xof := XofTurboShake128 ts bound; p3_ID := ID;
     p3_VERIFY_KEY_SIZE := key_size; p3_SHARES := shares; p3_PROOFS := proofs |}.

(** What Prio3 derives pseudorandom values for, and from what. *)
Inductive prio3_query (P : FieldClass) : Type :=
| MeasShare (agg_id : nat) (seed : bytes)
| ProofShare (agg_id : nat) (seed : bytes)
| ProveRand (seed : bytes)
| QueryRand (verify_key nonce : bytes)
| JointRandPart (agg_id : nat) (blind : bytes) (meas_share : list (F P)) (nonce : bytes)
| JointRandSeed (parts : list bytes)
| JointRand (seed : bytes).
Arguments MeasShare {P} agg_id seed.
Arguments ProofShare {P} agg_id seed.
Arguments ProveRand {P} seed.
Arguments QueryRand {P} verify_key nonce.
Arguments JointRandPart {P} agg_id blind meas_share nonce.
Arguments JointRandSeed {P} parts.
Arguments JointRand {P} seed.

(** The derivations of the code. *)
Definition prio3_derive (p : Prio3) (ctx : bytes) (q : prio3_query (p3_field p)) : res (list (F (p3_field p)) + bytes) :=
  match q with
  | MeasShare agg_id seed => let* v := helper_meas_share p ctx agg_id seed in Ok (inl v)
  | ProofShare agg_id seed => let* v := helper_proofs_share p ctx agg_id seed in Ok (inl v)
  | ProveRand seed => let* v := prove_rands p ctx seed in Ok (inl v)
  | QueryRand verify_key nonce => let* v := query_rands p verify_key ctx nonce in Ok (inl v)
  | JointRandPart agg_id blind meas_share nonce =>
    let* s := joint_rand_part p ctx agg_id blind meas_share nonce in Ok (inr s)
  | JointRandSeed parts => let* s := joint_rand_seed p ctx parts in Ok (inr s)
  | JointRand seed => let* v := joint_rands p ctx seed in Ok (inl v)
  end.

(** Arguments of the sizes the protocol uses. *)
Definition prio3_query_ok {P} (q : prio3_query P) : Prop :=
  match q with
  | MeasShare agg_id seed | ProofShare agg_id seed => agg_id < 256 /\ length seed = 32
  | ProveRand seed | JointRand seed => length seed = 32
  | QueryRand verify_key nonce => length verify_key = 32 /\ length nonce = 16
  | JointRandPart agg_id blind _ nonce => agg_id < 256 /\ length blind = 32 /\ length nonce = 16
  | JointRandSeed parts => Forall (fun x => length x = 32) parts
  end.

(** The k-th seed of the random string. *)
Definition seed_of (rand : bytes) (k : nat) : bytes := slice rand (k * 32) (k * 32 + 32).

(** The derivations [shard] may make: from the seed (and blind) of each helper,
    the leader's blind and the prove seed, each for its own purpose, and never
    the query randomness. *)
Definition shard_derives {P} (shares : nat) (joint : bool) (nonce rand : bytes) (q : prio3_query P) : Prop :=
  match q with
  | MeasShare j seed | ProofShare j seed => 1 <= j < shares /\
      seed = seed_of rand (if joint then (j - 1) * 2 else j - 1)
  | ProveRand seed => seed = seed_of rand (if joint then (shares - 1) * 2 + 1 else shares - 1)
  | QueryRand _ _ => False
  | JointRandPart j blind _ nonce' => joint = true /\ j < shares /\ nonce' = nonce /\
      blind = seed_of rand (if j =? 0 then (shares - 1) * 2 else (j - 1) * 2 + 1)
  | JointRandSeed parts => joint = true /\ length parts = shares
  | JointRand _ => joint = true
  end.

(** The derivations Aggregator [agg_id] may make in [verify_init]. *)
Definition verify_derives {P} (joint : bool) (verify_key : bytes) (agg_id : nat) (nonce : bytes)
  (public_share : option (list bytes)) (input_share : Prio3InputShare P) (q : prio3_query P) : Prop :=
  match q with
  | MeasShare j seed | ProofShare j seed => j = agg_id /\ exists blind, input_share = Helper seed blind
  | ProveRand _ => False
  | QueryRand key nonce' => key = verify_key /\ nonce' = nonce
  | JointRandPart j blind _ nonce' => joint = true /\ j = agg_id /\ nonce' = nonce /\
      match input_share with Leader _ _ b => b = Some blind | Helper _ b => b = Some blind end
  | JointRandSeed parts => joint = true /\ exists parts', public_share = Some parts' /\
      length parts = length parts' /\ forall j, j <> agg_id -> nth_error parts j = nth_error parts' j
  | JointRand _ => joint = true
  end.

(** * Poplar1 *)

(** What Poplar1 and its IDPF derive pseudorandom values for, and from what.
    At inner levels of the IDPF the AES key depends only on the nonce. *)
Inductive poplar1_query : Type :=
| ShardRand (seed nonce : bytes)
| CorrInner (agg_id : nat) (seed nonce : bytes)
| CorrLeaf (agg_id : nat) (seed nonce : bytes)
| VerifyRand (verify_key nonce : bytes) (level : Z)
| ExtendInner (nonce : bytes)
| ConvertInner (nonce : bytes)
| ExtendLeaf (seed nonce : bytes)
| ConvertLeaf (seed nonce : bytes).

Definition poplar1_query_ok (q : poplar1_query) : Prop :=
  match q with
  | ShardRand seed nonce => length seed = 32 /\ length nonce = 16
  | CorrInner agg_id seed nonce | CorrLeaf agg_id seed nonce =>
      agg_id < 256 /\ length seed = 32 /\ length nonce = 16
  | VerifyRand verify_key nonce level => length verify_key = 32 /\ length nonce = 16 /\ (0 <= level < 2 ^ 16)%Z
  | ExtendInner nonce | ConvertInner nonce => length nonce = 16
  | ExtendLeaf seed nonce | ConvertLeaf seed nonce => length seed = 16 /\ length nonce = 16
  end.

(** The derivations of the IDPF for one nonce. *)
Definition idpf_derives (nonce : bytes) (q : poplar1_query) : Prop :=
  match q with
  | ExtendInner nonce' | ConvertInner nonce' | ExtendLeaf _ nonce' | ConvertLeaf _ nonce' => nonce' = nonce
  | _ => False
  end.

(** The derivations [shard] may make: the two correlation seeds and the shard
    seed follow the 32 bytes of IDPF randomness. *)
Definition poplar1_shard_derives (nonce rand : bytes) (q : poplar1_query) : Prop :=
  match q with
  | ShardRand seed nonce' => seed = seed_of rand 3 /\ nonce' = nonce
  | CorrInner j seed nonce' | CorrLeaf j seed nonce' => j < 2 /\ seed = seed_of rand (1 + j) /\ nonce' = nonce
  | VerifyRand _ _ _ => False
  | _ => idpf_derives nonce q
  end.

(** The derivations Aggregator [agg_id] may make in [verify_init] at a level. *)
Definition poplar1_verify_derives (inner : bool) (verify_key : bytes) (agg_id : nat) (level : Z)
  (nonce corr_seed : bytes) (q : poplar1_query) : Prop :=
  match q with
  | ShardRand _ _ => False
  | CorrInner j seed nonce' => inner = true /\ j = agg_id /\ seed = corr_seed /\ nonce' = nonce
  | CorrLeaf j seed nonce' => inner = false /\ j = agg_id /\ seed = corr_seed /\ nonce' = nonce
  | VerifyRand key nonce' level' => key = verify_key /\ nonce' = nonce /\ level' = level
  | _ => idpf_derives nonce q
  end.
