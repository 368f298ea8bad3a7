(** Properties C37-C42 and C52-C54: Poplar1 (vdaf_poplar1.py, vdaf.py), for every
    TurboSHAKE128 and every block cipher.

    [p1_ran_out p n] says that a rejection-sampling loop hit the model's bound
    (an arbitrary parameter; the loop of the Python code has none). *)
From Coq Require Import Permutation Znumtheory.
From Verif Require Import Poplar1 Poplar1Spec Poplar1Props Poplar1Inst Poplar1Sound Poplar1Codec Poplar1End IdpfInst IdpfCodec Primes PostFacts.
Open Scope nat_scope.

(** Every object the constructor returns meets the assumptions used below. *)
Theorem C37_constructor : forall ts aes bound bits,
  (forall k b, length b = 16 -> length (aes k b) = 16) -> (Z.of_nat bound < 2 ^ 120)%Z ->
  match Poplar1_init ts aes bound bits with
  | Ok p => (0 < bits)%Z /\ (exists lim, Poplar1Ok p lim) /\ p = p1_obj ts aes bound (Z.to_nat bits) /\
      Z.of_nat (id_BITS (p1_idpf p)) = bits /\ p1_VERIFY_KEY_SIZE p = 32 /\ p1_RAND_SIZE p = 128 /\
      id_KEY_SIZE (p1_idpf p) = 16 /\ prime (MODULUS (id_field_inner (p1_idpf p))) /\ prime (MODULUS (id_field_leaf (p1_idpf p)))
  | Raise e => e = AssertionError /\ (bits <= 0)%Z
  end.
Proof.
  intros ts aes bound bits Ha Hb. rewrite p1_init_cases. destruct (Z.ltb_spec 0 bits); [|easy].
  split; [easy|]. split; [apply p1_obj_ok; try easy; lia|]. split; [easy|].
  split; [apply Z2Nat.id; lia|]. repeat (split; [reflexivity|]). split; [exact prime_Field64 | exact prime_Field255].
Qed.
Print Assumptions C37_constructor.

(** C37.  Honest runs are never rejected, and count the measurements with each
    prefix, modulo the modulus of the level. *)
Theorem C37_run : forall (p : Poplar1) (lim : Z), Poplar1Ok p lim ->
  forall n key ctx level prefixes ms,
  length prefixes = n -> NoDup prefixes -> Forall (fun x => length x = S level) prefixes ->
  ctx_ok ctx -> length key = p1_VERIFY_KEY_SIZE p -> level < id_BITS (p1_idpf p) -> (Z.of_nat level < 65536)%Z ->
  p1_sizes_ok p ms -> Forall (fun r => length (fst (fst r)) = id_BITS (p1_idpf p)) ms ->
  run_vdaf (p1_vdaf p) key (Z.of_nat level, prefixes) ctx ms
  = Ok (map (fun x => Z.of_nat (count_prefix x (map (fun r => fst (fst r)) ms)) mod level_modulus p level)%Z prefixes) \/
  (run_vdaf (p1_vdaf p) key (Z.of_nat level, prefixes) ctx ms = Raise OutOfFuel /\ p1_ran_out p n).
Proof. exact run_ok1. Qed.
Print Assumptions C37_run.

(** C37.  The counts are exact for fewer reports than the modulus. *)
Theorem C37_exact : forall (p : Poplar1) (lim : Z), Poplar1Ok p lim ->
  forall key ctx level prefixes ms,
  NoDup prefixes -> Forall (fun x => length x = S level) prefixes ->
  ctx_ok ctx -> length key = p1_VERIFY_KEY_SIZE p -> level < id_BITS (p1_idpf p) -> (Z.of_nat level < 65536)%Z ->
  p1_sizes_ok p ms -> Forall (fun r => length (fst (fst r)) = id_BITS (p1_idpf p)) ms ->
  (Z.of_nat (length ms) < level_modulus p level)%Z ->
  run_vdaf (p1_vdaf p) key (Z.of_nat level, prefixes) ctx ms
  = Ok (map (fun x => Z.of_nat (count_prefix x (map (fun r => fst (fst r)) ms))) prefixes) \/
  (run_vdaf (p1_vdaf p) key (Z.of_nat level, prefixes) ctx ms = Raise OutOfFuel /\ p1_ran_out p (length prefixes)).
Proof. exact run_exact. Qed.
Print Assumptions C37_exact.

(** C37, the limit: BITS is not bounded by the constructor, but the level is
    encoded in two bytes, so verification at levels from 2^16 always fails. *)
Theorem C37_level_refuted : forall (p : Poplar1) key ctx j level prefixes nonce public_share input_share,
  (65536 <= level)%Z ->
  exists e, p1_verify_init p key ctx j (level, prefixes) nonce public_share input_share = Raise e.
Proof. exact level_too_large. Qed.
Print Assumptions C37_level_refuted.

(** A toy TurboSHAKE128 and block cipher for the examples. *)
Definition toy_ts : TurboShake := fun m d n =>
  z2b ((b2z (nth n m x00) * 7 + b2z (nth (n + 20) m x00) * 11 + Z.of_nat n * Z.of_nat n * 5 + d) mod 256).
Definition toy_aes : BlockCipher := fun k b =>
  map (fun x => z2b ((b2z (fst x) * 3 + b2z (snd x) * 5 + 11) mod 256)) (combine (firstn 16 (k ++ repeat x00 16)) b).
Definition toy_p1 : Poplar1 := p1_obj toy_ts toy_aes 30 2.
Definition toy_reports : list (list bool * bytes * bytes) :=
  [([true; false], repeat x01 16, repeat x02 128); ([true; true], repeat x03 16, repeat x04 128)].

Example C37_example_inner : run_vdaf (p1_vdaf toy_p1) (repeat x07 32) (0%Z, [[false]; [true]]) [x09] toy_reports = Ok [0; 2]%Z.
Proof. vm_compute. reflexivity. Qed.
Example C37_example_leaf : run_vdaf (p1_vdaf toy_p1) (repeat x07 32) (1%Z, [[false; false]; [true; false]]) [x09] toy_reports = Ok [0; 1]%Z.
Proof. vm_compute. reflexivity. Qed.
Example C37_sizes : p1_sizes_ok toy_p1 toy_reports /\ Forall (fun r => length (fst (fst r)) = id_BITS (p1_idpf toy_p1)) toy_reports /\ ctx_ok [x09].
Proof. unfold p1_sizes_ok, toy_reports. repeat split; repeat constructor. Qed.
Example C37_object : exists lim, Poplar1Ok toy_p1 lim.
Proof.
  apply p1_obj_ok; [|reflexivity|lia]. intros k b Hb. unfold toy_aes.
  rewrite map_length, combine_length, firstn_length, app_length, repeat_length. lia.
Qed.

(** C38.  Two honest Aggregators verify a report made by anyone: whatever the
    public share and the input shares are, the output shares do not depend on
    the verification key, and the key influences acceptance only through the
    verification randomness [r] it is expanded to; if the output shares do not
    add up to zero or a one-hot vector, at most a 2/|F| fraction of all [r] is
    accepted.  Here for the levels of the inner field: *)
Theorem C38_inner : forall (p : Poplar1) (lim : Z), Poplar1Ok p lim -> prime (MODULUS (id_field_inner (p1_idpf p))) ->
  forall ctx level prefixes nonce public_share input_share0 input_share1,
  ctx_ok ctx -> idpf_public_wf (p1_idpf p) public_share ->
  length (fst (fst (fst input_share0))) = id_KEY_SIZE (p1_idpf p) ->
  length (fst (fst (fst input_share1))) = id_KEY_SIZE (p1_idpf p) ->
  level_is_inner p level = true ->
  (forall key, exists e, p1_execute p key ctx (level, prefixes) nonce public_share input_share0 input_share1 = Raise e) \/
  (exists (out0 out1 : list (F (id_field_inner (p1_idpf p)))) (accept : list (F (id_field_inner (p1_idpf p))) -> bool),
   length out0 = length prefixes /\ length out1 = length prefixes /\
   (forall key, p1_execute p key ctx (level, prefixes) nonce public_share input_share0 input_share1 =
     let* r := verify_rand_of p _ key ctx nonce level (length prefixes) in
     if accept r then Ok (Inner out0, Inner out1) else Raise (ValueError "sketch verification failed")) /\
   (~ one_hot (length prefixes) (fun i => fadd (nth i out0 f0) (nth i out1 f0)) ->
    forall Q, NoDup Q -> (forall r, In r Q -> length r = length prefixes /\ accept r = true) ->
    (Z.of_nat (length Q) <= 2 * MODULUS (id_field_inner (p1_idpf p)) ^ (Z.of_nat (length prefixes) - 1))%Z)).
Proof. exact exec_sound_inner. Qed.
Print Assumptions C38_inner.

(** C38, the leaf level. *)
Theorem C38_leaf : forall (p : Poplar1) (lim : Z), Poplar1Ok p lim -> prime (MODULUS (id_field_leaf (p1_idpf p))) ->
  forall ctx level prefixes nonce public_share input_share0 input_share1,
  ctx_ok ctx -> idpf_public_wf (p1_idpf p) public_share ->
  length (fst (fst (fst input_share0))) = id_KEY_SIZE (p1_idpf p) ->
  length (fst (fst (fst input_share1))) = id_KEY_SIZE (p1_idpf p) ->
  level_is_inner p level = false ->
  (forall key, exists e, p1_execute p key ctx (level, prefixes) nonce public_share input_share0 input_share1 = Raise e) \/
  (exists (out0 out1 : list (F (id_field_leaf (p1_idpf p)))) (accept : list (F (id_field_leaf (p1_idpf p))) -> bool),
   length out0 = length prefixes /\ length out1 = length prefixes /\
   (forall key, p1_execute p key ctx (level, prefixes) nonce public_share input_share0 input_share1 =
     let* r := verify_rand_of p _ key ctx nonce level (length prefixes) in
     if accept r then Ok (Leaf out0, Leaf out1) else Raise (ValueError "sketch verification failed")) /\
   (~ one_hot (length prefixes) (fun i => fadd (nth i out0 f0) (nth i out1 f0)) ->
    forall Q, NoDup Q -> (forall r, In r Q -> length r = length prefixes /\ accept r = true) ->
    (Z.of_nat (length Q) <= 2 * MODULUS (id_field_leaf (p1_idpf p)) ^ (Z.of_nat (length prefixes) - 1))%Z)).
Proof. exact exec_sound_leaf. Qed.
Print Assumptions C38_leaf.

(** C38.  The same for arbitrary sketch inputs: any shares of (A, B), of
    (a, b, c) and of the values, in either field. *)
Theorem C38_sketch : forall (p : Poplar1) (lim : Z), Poplar1Ok p lim ->
  (prime (MODULUS (id_field_inner (p1_idpf p))) ->
   forall ctx ap AB0 AB1 abc0 abc1 v0 v1 n Q,
   length v0 = n -> length v1 = n -> Forall (fun v => length v = 2) v0 -> Forall (fun v => length v = 2) v1 ->
   ~ one_hot n (sum_part 0 v0 v1) -> NoDup Q ->
   (forall r, In r Q -> length r = n /\ exists m, sketch_run p Inner ctx ap AB0 AB1 abc0 abc1 v0 v1 r = Ok m) ->
   (Z.of_nat (length Q) <= 2 * MODULUS (id_field_inner (p1_idpf p)) ^ (Z.of_nat n - 1))%Z) /\
  (prime (MODULUS (id_field_leaf (p1_idpf p))) ->
   forall ctx ap AB0 AB1 abc0 abc1 v0 v1 n Q,
   length v0 = n -> length v1 = n -> Forall (fun v => length v = 2) v0 -> Forall (fun v => length v = 2) v1 ->
   ~ one_hot n (sum_part 0 v0 v1) -> NoDup Q ->
   (forall r, In r Q -> length r = n /\ exists m, sketch_run p Leaf ctx ap AB0 AB1 abc0 abc1 v0 v1 r = Ok m) ->
   (Z.of_nat (length Q) <= 2 * MODULUS (id_field_leaf (p1_idpf p)) ^ (Z.of_nat n - 1))%Z).
Proof.
  intros p lim HO. split; intros Hp; intros.
  - now apply (sketch_sound p Inner (Poplar1Run.view_inner p lim HO) Hp ctx ap AB0 AB1 abc0 abc1 v0 v1 n Q).
  - now apply (sketch_sound p Leaf (Poplar1Run.view_leaf p lim HO) Hp ctx ap AB0 AB1 abc0 abc1 v0 v1 n Q).
Qed.
Print Assumptions C38_sketch.

(** A report whose shares were modified is rejected, an honest one accepted. *)
Example C38_example :
  (let* (ps, iss) := p1_shard toy_p1 [] [true; false] (repeat x01 16) (repeat x02 128) in
   let* is0 := get iss 0 in
   let* is1 := get iss 1 in
   Ok (is_ok (p1_execute toy_p1 (repeat x07 32) [] (0%Z, [[false]; [true]]) (repeat x01 16) ps is0 is1),
       is_ok (p1_execute toy_p1 (repeat x07 32) [] (0%Z, [[false]; [true]]) (repeat x01 16) ps is0 is0))) = Ok (true, false).
Proof. vm_compute. reflexivity. Qed.

(** C39.  is_valid never raises; on previous parameters with non-negative levels
    it decides: the prefixes are strictly sorted and the parameter may follow
    the previous one. *)
Theorem C39_is_valid : forall ap h, exists b, p1_is_valid ap h = Ok b /\
  ((forall q, In q h -> 0 <= fst q)%Z ->
   b = true <-> sorted_prefixes (snd ap) /\ (h = [] \/ may_follow (last h ap) ap)).
Proof. exact is_valid_spec. Qed.
Print Assumptions C39_is_valid.

(** C39.  In an admitted history every prefix list is sorted, levels strictly
    increase, and every prefix extends a prefix of each earlier parameter. *)
Theorem C39_history : forall h, valid_history h -> (forall q, In q h -> 0 <= fst q)%Z ->
  (forall i, i < length h -> sorted_prefixes (snd (nth i h (0%Z, [])))) /\
  (forall i j, i < j < length h -> may_follow (nth i h (0%Z, [])) (nth j h (0%Z, []))).
Proof. exact history_ok. Qed.
Print Assumptions C39_history.

(** C39.  Sorted prefixes are distinct. *)
Theorem C39_unique : forall prefixes, sorted_prefixes prefixes -> NoDup prefixes.
Proof. exact sorted_NoDup. Qed.
Print Assumptions C39_unique.

(** C39.  Hence an input share is used at most once per level, BITS times at most. *)
Theorem C39_bound : forall h bits, valid_history h -> (forall q, In q h -> 0 <= fst q < Z.of_nat bits)%Z -> length h <= bits.
Proof. exact history_bound. Qed.
Print Assumptions C39_bound.

(** C39, the need for non-negative levels (which encode_agg_param enforces): with a
    level of -2 the slice of get_ancestor counts from the end. *)
Theorem C39_negative_refuted :
  p1_is_valid (2%Z, [[true; false; true]]) [((-2)%Z, [[true; false]])] = Ok true /\
  ~ may_follow ((-2)%Z, [[true; false]]) (2%Z, [[true; false; true]]).
Proof.
  split; [reflexivity|]. intros [_ H]. specialize (H _ (or_introl eq_refl)). cbn in H. destruct H as [H|[]]. discriminate.
Qed.
Print Assumptions C39_negative_refuted.

Example C39_example : valid_history [(0%Z, [[false]; [true]]); (2%Z, [[false; true; true]; [true; false; false]; [true; false; true]])].
Proof. apply (vh_snoc [(0%Z, [[false]; [true]])]); [apply (vh_snoc []); [constructor|]|]; reflexivity. Qed.
Example C39_example_reject :
  p1_is_valid (0%Z, [[true]; [false]]) [] = Ok false /\ p1_is_valid (0%Z, [[true]; [true]]) [] = Ok false /\
  p1_is_valid (1%Z, [[true; true]]) [(0%Z, [[false]])] = Ok false /\ p1_is_valid (0%Z, [[true]]) [(0%Z, [[true]])] = Ok false.
Proof. repeat split. Qed.

(** C40.  Well-formed aggregation parameters round-trip; decode accepts exactly
    their encodings. *)
Theorem C40_codec : canonical_codec agg_param_wf p1_encode_agg_param p1_decode_agg_param.
Proof. exact agg_param_codec1. Qed.
Print Assumptions C40_codec.

(** C40.  decode fails only with AssertionError (too short) or ValueError. *)
Theorem C40_errors : forall b, is_ok (p1_decode_agg_param b) = true \/
  p1_decode_agg_param b = Raise AssertionError \/ exists m, p1_decode_agg_param b = Raise (ValueError m).
Proof. exact decode_agg_param_raises. Qed.
Print Assumptions C40_errors.

(** C40.  Encoding: the level and the number of prefixes are checked first; then
    only the total number of bytes of the prefixes is. *)
Theorem C40_encode : forall level (prefixes : list (list bool)),
  let bytes_of (x : list bool) := (length x + 7) / 8 in
  let encoded := p1_encode_agg_param (level, prefixes) in
  if ((level <? 0) || (65536 <=? level))%Z then encoded = Raise (ValueError "level out of range") else
  if (2 ^ 32 <=? Z.of_nat (length prefixes))%Z then encoded = Raise (ValueError "number of prefixes out of range") else
  if (Z.of_nat (list_sum (map bytes_of prefixes)) =? (level + 8) / 8 * Z.of_nat (length prefixes))%Z
  then exists b, encoded = Ok b else encoded = Raise AssertionError.
Proof. exact encode_agg_param_all. Qed.
Print Assumptions C40_encode.

(** C40, the need for well-formedness: encode checks the total number of bytes
    only, so a prefix that is too short is silently padded. *)
Theorem C40_short_refuted :
  (let* b := p1_encode_agg_param (1%Z, [[true]]) in p1_decode_agg_param b) = Ok (1%Z, [[true; false]]).
Proof. reflexivity. Qed.
Print Assumptions C40_short_refuted.

Example C40_example :
  p1_encode_agg_param (2%Z, [[true; false; true]; [true; true; true]]) = Ok [x00; x02; x00; x00; x00; x02; xa0; xe0] /\
  p1_decode_agg_param [x00; x02; x00; x00; x00; x02; xa0; xe0] = Ok (2%Z, [[true; false; true]; [true; true; true]]) /\
  p1_decode_agg_param [x00; x02; x00; x00; x00; x02; xa0; xe1] = Raise (ValueError "trailing bits in prefix") /\
  p1_decode_agg_param [x00; x02; x00; x00; x00; x01; xa0; xe0] = Raise (ValueError "trailing bytes").
Proof. repeat split. Qed.

(** C41.  Round one: verify_next accepts a three-element message and nothing
    else; it answers with a one-element share and drops A, B and the id. *)
Theorem C41_evaluate : forall (p : Poplar1) ctx level mem m r,
  p1_verify_next p ctx (EVALUATE_SKETCH, level, mem) m = Ok r ->
  exists v share, m = Some v /\ fv_len v = 3 /\ 3 <= fv_len mem /\ fv_len share = 1 /\
    r = inl ((REVEAL_SKETCH, level, fv_skip p 3 mem), share).
Proof. exact next_evaluate. Qed.
Print Assumptions C41_evaluate.

(** C41.  Round one, rejections, and success otherwise. *)
Theorem C41_evaluate_total : forall (p : Poplar1) ctx level mem,
  p1_verify_next p ctx (EVALUATE_SKETCH, level, mem) None = Raise (ValueError "expected value, got none") /\
  (forall v, fv_len v <> 3 -> p1_verify_next p ctx (EVALUATE_SKETCH, level, mem) (Some v) = Raise (ValueError "incorrect sketch length")) /\
  (forall v, fv_len v = 3 -> 3 <= fv_len mem -> exists share,
     p1_verify_next p ctx (EVALUATE_SKETCH, level, mem) (Some v) = Ok (inl ((REVEAL_SKETCH, level, fv_skip p 3 mem), share))).
Proof. exact (fun p ctx level mem => conj (next_none p ctx level mem) (conj (next_len p ctx level mem) (next_evaluate_ok p ctx level mem))). Qed.
Print Assumptions C41_evaluate_total.

(** C41.  Round two: only the success message releases the output share; any
    other step is an error. *)
Theorem C41_reveal : forall (p : Poplar1) ctx level mem m,
  p1_verify_next p ctx (REVEAL_SKETCH, level, mem) m =
    match m with None => Ok (inr mem) | Some _ => Raise (ValueError "invalid verifier message") end /\
  (forall step, step <> EVALUATE_SKETCH -> step <> REVEAL_SKETCH ->
     p1_verify_next p ctx (step, level, mem) m = Raise (ValueError "invalid verification state")).
Proof. exact (fun p ctx level mem m => conj (next_reveal p ctx level mem m) (fun step => next_other p ctx step level mem m)). Qed.
Print Assumptions C41_reveal.

(** C41.  Combining shares: exactly two, of the same length; a three-element
    message in round one, success in round two when the sum is zero. *)
Theorem C41_message : forall (p : Poplar1) ctx ap shares m,
  p1_verifier_shares_to_message p ctx ap shares = Ok m ->
  exists a b s, shares = [a; b] /\ fv_add a b = Ok s /\ fv_len a = fv_len b /\
   (fv_len a = 3 /\ m = Some s \/ fv_len a = 1 /\ m = None /\ fv_vals s = [0%Z]).
Proof. exact shares_to_message. Qed.
Print Assumptions C41_message.

Theorem C41_message_errors : forall (p : Poplar1) ctx ap shares e,
  p1_verifier_shares_to_message p ctx ap shares = Raise e -> exists m, e = ValueError m.
Proof. exact shares_to_message_errors. Qed.
Print Assumptions C41_message_errors.

(** C41.  verify_init always starts with round one, so an output share is
    released only by a three-element message followed by the success message. *)
Theorem C41_init : forall (p : Poplar1) key ctx j ap nonce ps is st share,
  p1_verify_init p key ctx j ap nonce ps is = Ok (st, share) ->
  exists mem, st = (EVALUATE_SKETCH, fst ap, mem) /\ 3 <= fv_len mem /\ fv_len share = 3 /\
    of_class p (fst ap) mem /\ of_class p (fst ap) share.
Proof. exact init_state. Qed.
Print Assumptions C41_init.

Theorem C41_release : forall (p : Poplar1) ctx level mem m1 st1 share1 m2 o,
  p1_verify_next p ctx (EVALUATE_SKETCH, level, mem) m1 = Ok (inl (st1, share1)) ->
  p1_verify_next p ctx st1 m2 = Ok (inr o) ->
  exists v, m1 = Some v /\ fv_len v = 3 /\ m2 = None /\ o = fv_skip p 3 mem.
Proof. exact release. Qed.
Print Assumptions C41_release.

Example C41_example :
  p1_verify_next toy_p1 [] (EVALUATE_SKETCH, 0%Z, Inner [fof 2; fof 3; fof 1; fof 9]) (Some (Inner [fof 4; fof 5; fof 6]))
  = Ok (inl ((REVEAL_SKETCH, 0%Z, Inner [fof 9]), Inner [fof 16])) /\
  p1_verifier_shares_to_message toy_p1 [] (0%Z, []) [Inner [fof 16]; Inner [fof (-16)]] = Ok None.
Proof. split; vm_compute; reflexivity. Qed.

(** C42.  Input shares. *)
Theorem C42_input_share : forall p : Poplar1,
  wf_field (id_field_inner (p1_idpf p)) -> wf_field (id_field_leaf (p1_idpf p)) -> forall j,
  canonical_codec (p1_input_share_wf p) (p1_encode_input_share p) (p1_decode_input_share p j).
Proof. exact p1_input_codec. Qed.
Print Assumptions C42_input_share.

(** C42.  Public shares. *)
Theorem C42_public_share : forall p : Poplar1,
  wf_field (id_field_inner (p1_idpf p)) -> wf_field (id_field_leaf (p1_idpf p)) -> 0 < id_BITS (p1_idpf p) ->
  canonical_codec (idpf_public_wf (p1_idpf p)) (p1_encode_public_share p) (p1_decode_public_share p).
Proof. exact (fun p => idpf_public_codec (p1_idpf p)). Qed.
Print Assumptions C42_public_share.

(** C42.  Aggregate, output and verifier shares: vectors of the class of the
    level, of any length. *)
Theorem C42_shares : forall p : Poplar1,
  wf_field (id_field_inner (p1_idpf p)) -> wf_field (id_field_leaf (p1_idpf p)) ->
  (forall ap, canonical_codec (of_class p (fst ap)) (p1_encode_agg_share p) (p1_decode_agg_share p ap)) /\
  (forall ap, canonical_codec (of_class p (fst ap)) (p1_encode_out_share p) (p1_decode_out_share p ap)) /\
  (forall st : Poplar1VerifyState p, canonical_codec (of_class p (snd (fst st))) (p1_encode_verifier_share p) (p1_decode_verifier_share p st)).
Proof. exact (fun p H1 H2 => conj (fun ap => field_vec_codec p H1 H2 (fst ap)) (conj (fun ap => field_vec_codec p H1 H2 (fst ap)) (fun st => field_vec_codec p H1 H2 (snd (fst st))))). Qed.
Print Assumptions C42_shares.

(** C42.  Verifier messages: the success message is the empty string. *)
Theorem C42_message : forall p : Poplar1,
  wf_field (id_field_inner (p1_idpf p)) -> wf_field (id_field_leaf (p1_idpf p)) ->
  forall st : Poplar1VerifyState p, canonical_codec
  (fun m => match m with None => True | Some v => of_class p (snd (fst st)) v /\ 0 < fv_len v end)
  (p1_encode_verifier_message p) (p1_decode_verifier_message p st).
Proof. exact p1_message_codec. Qed.
Print Assumptions C42_message.

Example C42_example :
  (let* (ps, iss) := p1_shard toy_p1 [] [true; false] (repeat x01 16) (repeat x02 128) in
   let* is0 := get iss 0 in
   let* b := p1_encode_input_share toy_p1 is0 in
   let* is0' := p1_decode_input_share toy_p1 0 b in
   let* b' := p1_encode_input_share toy_p1 is0' in
   Ok (length b, bytes_eqb b b')) = Ok (16 + 32 + 2 * 8 + 2 * 32, true).
Proof. vm_compute. reflexivity. Qed.

(** C52.  Whatever sequence of agg_init, agg_update and merge calls produced an
    aggregate share, it is the sum of the output shares; so order and partition
    into batches are irrelevant. *)
Theorem C52_sum : forall (p : Poplar1) (lim : Z), Poplar1Ok p lim -> forall ap outs share,
  aggregated (p1_vdaf p) ap outs share -> Forall (p1_out_wf p ap) outs -> share = p1_total p ap outs.
Proof. exact agg_value. Qed.
Print Assumptions C52_sum.

Theorem C52_order : forall (p : Poplar1) (lim : Z), Poplar1Ok p lim -> forall ap outs outs' share share',
  aggregated (p1_vdaf p) ap outs share -> aggregated (p1_vdaf p) ap outs' share' ->
  Permutation outs outs' -> Forall (p1_out_wf p ap) outs -> share = share'.
Proof. exact agg_order. Qed.
Print Assumptions C52_order.

(** C52.  Accumulation never fails on output shares of the right class and length. *)
Theorem C52_total : forall (p : Poplar1) (lim : Z), Poplar1Ok p lim -> forall ap outs, Forall (p1_out_wf p ap) outs ->
  (let* agg := p1_agg_init p ap in foldM (p1_agg_update p ap) outs agg) = Ok (p1_total p ap outs) /\
  aggregated (p1_vdaf p) ap outs (p1_total p ap outs).
Proof. exact agg_total. Qed.
Print Assumptions C52_total.

(** C52.  merge and unshard return the sum of all output shares. *)
Theorem C52_unshard : forall (p : Poplar1) (lim : Z), Poplar1Ok p lim -> forall ap outss shares k,
  aggregated_all (p1_vdaf p) ap outss shares -> Forall (Forall (p1_out_wf p ap)) outss ->
  p1_merge p ap shares = Ok (p1_total p ap (concat outss)) /\
  p1_unshard p ap shares k = Ok (fv_vals (p1_total p ap (concat outss))).
Proof. exact unshard_total1. Qed.
Print Assumptions C52_unshard.

Example C52_example : Forall (p1_out_wf toy_p1 (0%Z, [[false]; [true]])) [Inner [fof 1; fof 2]; Inner [fof 3; fof 4]] /\
  fv_vals (p1_total toy_p1 (0%Z, [[false]; [true]]) [Inner [fof 1; fof 2]; Inner [fof 3; fof 4]]) = [4; 6]%Z.
Proof. split; [repeat constructor | vm_compute; reflexivity]. Qed.

(** C53.  shard rejects nonces and random strings of the wrong size, and
    measurements of the wrong length. *)
Theorem C53_sizes : forall (p : Poplar1) ctx m nonce rand,
  (length nonce <> p1_NONCE_SIZE -> p1_shard p ctx m nonce rand = Raise (ValueError "incorrect nonce size")) /\
  (length nonce = p1_NONCE_SIZE -> length rand <> p1_RAND_SIZE p ->
   p1_shard p ctx m nonce rand = Raise (ValueError "incorrect size of random bytes argument")).
Proof. exact shard_sizes. Qed.
Print Assumptions C53_sizes.

Theorem C53_measurement : forall (p : Poplar1) ctx m nonce rand r,
  p1_shard p ctx m nonce rand = Ok r -> length m = id_BITS (p1_idpf p).
Proof. exact shard_meas. Qed.
Print Assumptions C53_measurement.

(** C53.  Otherwise shard succeeds (or runs out), each byte of the random string
    ends up in exactly one of the two IDPF keys, the two correlation seeds and
    the sharding seed, and the correlated randomness is shared additively. *)
Theorem C53_shard : forall (p : Poplar1) (lim : Z), Poplar1Ok p lim -> forall n ctx m nonce rand,
  ctx_ok ctx -> length m = id_BITS (p1_idpf p) -> length nonce = p1_NONCE_SIZE -> length rand = p1_RAND_SIZE p ->
  match p1_shard p ctx m nonce rand with
  | Ok (public_share, input_shares) =>
      exists k0 k1 s0 s1 shard_seed ks kl ci0 ci1 cl0 cl1 oi0 oi1 ol0 ol1,
      P1Report p ctx m nonce rand public_share input_shares k0 k1 s0 s1 shard_seed ks kl ci0 ci1 cl0 cl1 oi0 oi1 ol0 ol1
  | Raise e => e = OutOfFuel /\ p1_ran_out p n
  end.
Proof.
  intros p lim HO n ctx m nonce rand H1 H2 H3 H4. pose proof (Poplar1Facts.shard_post1 p lim HO n ctx m nonce rand H1 H2 H3 H4) as H.
  destruct (p1_shard p ctx m nonce rand) as [[ps iss]|e]; exact H.
Qed.
Print Assumptions C53_shard.

Example C53_example : exists r, p1_shard toy_p1 [] [true; false] (repeat x01 16) (repeat x02 128) = Ok r.
Proof.
  assert (H : is_ok (p1_shard toy_p1 [] [true; false] (repeat x01 16) (repeat x02 128)) = true) by (vm_compute; reflexivity).
  destruct (p1_shard toy_p1 [] [true; false] (repeat x01 16) (repeat x02 128)) as [r|e]; [eauto|discriminate].
Qed.

(** C54.  On any decodable public and input share (by C42), honest or not,
    verify_init succeeds for every valid aggregation parameter (or runs out). *)
Theorem C54_verify_init : forall (p : Poplar1) (lim : Z), Poplar1Ok p lim ->
  forall key ctx j level prefixes nonce public_share input_share,
  ctx_ok ctx -> j < 2 -> length key = p1_VERIFY_KEY_SIZE p ->
  id_KEY_SIZE (p1_idpf p) = SEED_SIZE (id_xof_inner (p1_idpf p)) ->
  idpf_public_wf (p1_idpf p) public_share -> p1_input_share_wf p input_share ->
  level < id_BITS (p1_idpf p) -> (Z.of_nat level < 65536)%Z ->
  NoDup prefixes -> Forall (fun x => length x = S level) prefixes ->
  match p1_verify_init p key ctx j (Z.of_nat level, prefixes) nonce public_share input_share with
  | Ok ((step, lv, mem), share) => step = EVALUATE_SKETCH /\ lv = Z.of_nat level /\
      fv_len mem = 3 + length prefixes /\ fv_len share = 3
  | Raise e => e = OutOfFuel
  end.
Proof. exact verify_init_total. Qed.
Print Assumptions C54_verify_init.

Example C54_example :
  p1_input_share_wf toy_p1 (repeat x01 16, repeat x02 32, [fof 1; fof 2], [fof 3; fof 4]) /\
  id_KEY_SIZE (p1_idpf toy_p1) = SEED_SIZE (id_xof_inner (p1_idpf toy_p1)).
Proof. repeat split. Qed.
