(** Property C94: what the Aggregators learn from verifying a report more than
    once (draft-irtf-cfrg-vdaf.md:6070-6090). *)
From Verif Require Import ReuseSpec ReuseFacts ReusePrio3 ReusePoplar1 CollectFacts Prio3ViewFacts Prio3Inst Poplar1Facts Poplar1Inst FlpInstances
  FlpProofs FlpFacts RunFacts Circuits CircuitSpec CircuitInstances Props_Poplar1.
Open Scope nat_scope.

(** C94.  The proof system: if two encoded measurements, with any proofs and
    joint randomness whatever, give the same verifiers at as many test points as
    a wire polynomial has coefficients, they are the same. *)
Theorem C94_flp : forall (P : NttFieldClass), NttOk P -> forall (v : Valid P), std_circuit P v ->
  forall (meas meas' proof proof' joint_rand joint_rand' : list (F P)) (query_rands : list (list (F P))),
  length meas = vMEAS_LEN v -> length meas' = vMEAS_LEN v -> length proof = proof_len v -> length proof' = proof_len v ->
  length joint_rand = vJOINT_RAND_LEN v -> length joint_rand' = vJOINT_RAND_LEN v ->
  NoDup (map (fun q => test_point v q 0) query_rands) ->
  wire_poly_len (nth 0 (GADGET_CALLS v) 0) <= length query_rands ->
  (forall q, In q query_rands -> length q = query_rand_len v /\ exists verifier,
    bbcggi19_query v meas proof q joint_rand 1 = Ok verifier /\ bbcggi19_query v meas' proof' q joint_rand' 1 = Ok verifier) ->
  meas = meas'.
Proof. 
  intros P HP v Hv meas meas' proof proof' jr jr' Q L1 L2 L3 L4 L5 L6 ND LQ HQ.
  exact (std_reuse HP v meas meas' proof proof' jr jr' Q Hv L1 L2 L3 L4 L5 L6 ND LQ HQ).
Qed.
Print Assumptions C94_flp.

(** C94.  Prio3: two reports with the same nonce, with which the Aggregators
    exchange verifier shares of the same sums under as many verification keys as
    a wire polynomial has coefficients, are reports of the same encoded
    measurement.  Read the other way round: the sums of the verifier shares
    determine the measurement. *)
Theorem C94_prio3 : forall (P : NttFieldClass), NttOk P -> wf_field P ->
  forall (v : Valid P), std_circuit P v ->
  forall (ID : Z) (ts : TurboShake) (bound shares proofs : nat), (0 <= ID < 2 ^ 32)%Z ->
  2 <= shares < 256 -> (Z.of_nat shares < MODULUS P)%Z -> proofs < 256 ->
  let p := prio3_obj P ID v ts bound shares proofs in
  forall ctx M M' (meas meas' : list (F P)) nonce rand rand' public public' iss iss' keys k,
  ctx_ok ctx -> length nonce = p3_NONCE_SIZE -> length rand = RAND_SIZE p -> length rand' = RAND_SIZE p ->
  valid_encode v M = Ok meas -> valid_encode v M' = Ok meas' ->
  p3_shard p ctx M nonce rand = Ok (public, iss) -> p3_shard p ctx M' nonce rand' = Ok (public', iss') ->
  k < proofs -> NoDup (map (fun key => point_of v k (query_rands p key ctx nonce)) keys) ->
  wire_poly_len (nth 0 (GADGET_CALLS v) 0) <= length keys ->
  (forall key, In key keys -> exists total, exchanged p key ctx nonce public iss total /\ exchanged p key ctx nonce public' iss' total) ->
  meas = meas'.
Proof.
  intros P HP HW v Hv ID ts bound shares proofs HID Hs HsM Hpr p ctx M M' meas meas' nonce rand rand' public public' iss iss' keys k
    Hc Hn Hr Hr' He He'.
  exact (prio3_reuse P HP v Hv (XofTurboShake128 ts bound) ID 32 shares proofs (obj_lim P bound)
    (obj_ok P HW ID HID ts bound shares proofs Hs HsM Hpr v) ctx M M' meas meas' nonce rand rand' public public' iss iss' keys k
    Hc Hn Hr Hr' He He' (std_encode_length v Hv M meas He) (std_encode_length v Hv M' meas' He')).
Qed.
Print Assumptions C94_prio3.

(** C94.  How many verifications that takes: two for Count; in general more than
    there are gadget calls, and at most twice as many. *)
Theorem C94_how_many : forall P,
  wire_poly_len (nth 0 (GADGET_CALLS (Count P)) 0) = 2 /\ forall calls, 1 <= calls -> calls < wire_poly_len calls <= 2 * calls.
Proof.
  intros P. split; [reflexivity|]. intros calls H. unfold wire_poly_len.
  pose proof (GadgetFacts.np2_spec (1 + calls) ltac:(lia)) as Q. unfold np2 in *.
  destruct (bit_length (Z.of_nat (1 + calls) - 1)) as [|k]; cbn [Nat.pow] in *; lia.
Qed.
Print Assumptions C94_how_many.

(** C94.  Poplar1: the same report verified twice at the same level with as many
    candidate prefixes.  The randomness of the verification depends on the key,
    the nonce and the level only, so the masks cancel in the difference of the
    first elements of the messages of round one. *)
Theorem C94_poplar1_inner : forall (p : Poplar1) (lim : Z), Poplar1Ok p lim ->
  forall ctx m nonce rand ps is0 is1, ctx_ok ctx -> length m = id_BITS (p1_idpf p) -> length nonce = p1_NONCE_SIZE -> length rand = p1_RAND_SIZE p ->
  p1_shard p ctx m nonce rand = Ok (ps, [is0; is1]) ->
  forall key level prefixes prefixes', level < id_BITS (p1_idpf p) - 1 -> NoDup prefixes -> NoDup prefixes' ->
  Forall (fun x => length x = S level) prefixes -> Forall (fun x => length x = S level) prefixes' ->
  length prefixes' = length prefixes -> length key = SEED_SIZE (p1_xof p) -> (Z.of_nat level < 65536)%Z ->
  forall s0 s1 t0 t1 s0' s1' t0' t1',
  real_messages p key ctx (Z.of_nat level, prefixes) nonce ps is0 is1 = Ok [s0; s1; t0; t1] ->
  real_messages p key ctx (Z.of_nat level, prefixes') nonce ps is0 is1 = Ok [s0'; s1'; t0'; t1'] ->
  exists r z z', verify_rand_of p (id_field_inner (p1_idpf p)) key ctx nonce (Z.of_nat level) (length prefixes) = Ok r /\
    p1_verifier_shares_to_message p ctx (Z.of_nat level, prefixes) [s0; s1] = Ok (Some (Inner z)) /\
    p1_verifier_shares_to_message p ctx (Z.of_nat level, prefixes') [s0'; s1'] = Ok (Some (Inner z')) /\
    fsub (nth 0 z f0) (nth 0 z' f0) = fsub (path_rand prefixes level m r) (path_rand prefixes' level m r).
Proof.
  intros p lim HO ctx m nonce rand ps is0 is1 Hc Hm Hn Hr HS key level prefixes prefixes' Hi N N' W W' L Hk Hl s0 s1 t0 t1 s0' s1' t0' t1' E E'.
  exact (reuse_inner p lim HO ctx m nonce rand ps is0 is1 Hc Hm Hn Hr HS key level prefixes prefixes' N N' W W' L Hk Hl
    s0 s1 t0 t1 s0' s1' t0' t1' Hi E E').
Qed.
Print Assumptions C94_poplar1_inner.

Theorem C94_poplar1_leaf : forall (p : Poplar1) (lim : Z), Poplar1Ok p lim ->
  forall ctx m nonce rand ps is0 is1, ctx_ok ctx -> length m = id_BITS (p1_idpf p) -> length nonce = p1_NONCE_SIZE -> length rand = p1_RAND_SIZE p ->
  p1_shard p ctx m nonce rand = Ok (ps, [is0; is1]) ->
  forall key level prefixes prefixes', id_BITS (p1_idpf p) - 1 <= level < id_BITS (p1_idpf p) -> NoDup prefixes -> NoDup prefixes' ->
  Forall (fun x => length x = S level) prefixes -> Forall (fun x => length x = S level) prefixes' ->
  length prefixes' = length prefixes -> length key = SEED_SIZE (p1_xof p) -> (Z.of_nat level < 65536)%Z ->
  forall s0 s1 t0 t1 s0' s1' t0' t1',
  real_messages p key ctx (Z.of_nat level, prefixes) nonce ps is0 is1 = Ok [s0; s1; t0; t1] ->
  real_messages p key ctx (Z.of_nat level, prefixes') nonce ps is0 is1 = Ok [s0'; s1'; t0'; t1'] ->
  exists r z z', verify_rand_of p (id_field_leaf (p1_idpf p)) key ctx nonce (Z.of_nat level) (length prefixes) = Ok r /\
    p1_verifier_shares_to_message p ctx (Z.of_nat level, prefixes) [s0; s1] = Ok (Some (Leaf z)) /\
    p1_verifier_shares_to_message p ctx (Z.of_nat level, prefixes') [s0'; s1'] = Ok (Some (Leaf z')) /\
    fsub (nth 0 z f0) (nth 0 z' f0) = fsub (path_rand prefixes level m r) (path_rand prefixes' level m r).
Proof.
  intros p lim HO ctx m nonce rand ps is0 is1 Hc Hm Hn Hr HS key level prefixes prefixes' [Hi H1] N N' W W' L Hk Hl s0 s1 t0 t1 s0' s1' t0' t1' E E'.
  exact (reuse_leaf p lim HO ctx m nonce rand ps is0 is1 Hc Hm Hn Hr HS key level prefixes prefixes' H1 N N' W W' L Hk Hl
    s0 s1 t0 t1 s0' s1' t0' t1' Hi E E').
Qed.
Print Assumptions C94_poplar1_leaf.

(** C94.  With one candidate prefix each time, that difference is the known
    randomness, its negation or zero, as the measurement starts with the first
    candidate, the second or neither. *)
Theorem C94_poplar1_bit : forall (P : FieldClass) x y level m (r : list (F P)),
  length x = S level -> length y = S level -> x <> y -> length r = 1 ->
  fsub (path_rand [x] level m r) (path_rand [y] level m r) = which_prefix x y m (nth 0 r f0).
Proof. intros P. exact path_rand_one. Qed.
Print Assumptions C94_poplar1_bit.

(** The hypotheses are met: Prio3Count, two keys with different test points, a
    report that both accept. *)
Definition toy_ts : TurboShake := fun m _ i => nth (i * i mod 97) (m ++ zeros 97) x07.
Definition C94_count := prio3_obj Field64 1 (Count Field64) toy_ts 50 2 1.
Definition C94_keys : list bytes := [repeat x05 32; repeat x06 32].
Definition C94_runs : bool :=
  match p3_shard C94_count [x01] 1%Z (zeros 16) (repeat x09 64) with
  | Ok (public, iss) => forallb (fun key => forallb (fun j =>
      match p3_verify_init C94_count key [x01] j tt (zeros 16) public (nth j iss (Helper [] None)) with Ok _ => true | Raise _ => false end)
      [0; 1]) C94_keys && (length iss =? 2)
  | Raise _ => false
  end.
Definition C94_points : list Z := Eval vm_compute in
  map (fun key => val (point_of (Count Field64) 0 (query_rands C94_count key [x01] (zeros 16)))) C94_keys.
Example C94_example : exists public iss, p3_shard C94_count [x01] 1%Z (zeros 16) (repeat x09 64) = Ok (public, iss) /\
  NoDup (map (fun key => point_of (Count Field64) 0 (query_rands C94_count key [x01] (zeros 16))) C94_keys) /\
  wire_poly_len (nth 0 (GADGET_CALLS (Count Field64)) 0) <= length C94_keys /\
  forall key, In key C94_keys -> exists total, exchanged C94_count key [x01] (zeros 16) public iss total.
Proof.
  assert (C : C94_runs = true) by (vm_compute; reflexivity). unfold C94_runs in C.
  destruct (p3_shard C94_count [x01] 1%Z (zeros 16) (repeat x09 64)) as [[public iss]|e]; [|discriminate C].
  exists public, iss. split; [reflexivity|]. split; [|split; [vm_compute; lia|]].
  - assert (E : C94_points = map val (map (fun key => point_of (Count Field64) 0 (query_rands C94_count key [x01] (zeros 16))) C94_keys)) by (vm_compute; reflexivity).
    apply (NoDup_map_inv val). rewrite <- E. unfold C94_points. repeat constructor; cbn; intuition discriminate.
  - apply andb_true_iff in C. destruct C as [C L]. apply Nat.eqb_eq in L. intros key I. apply (proj1 (forallb_forall _ _) C) in I.
    destruct (choose_nat 2 (fun j sv => p3_verify_init C94_count key [x01] j tt (zeros 16) public (nth j iss (Helper [] None)) = Ok sv)
      (([], None), ([], None))) as (svs & Ls & Hs).
    { intros j Hj. assert (J : In j [0; 1]) by (cbn; lia). apply (proj1 (forallb_forall _ _) I) in J.
      destruct (p3_verify_init _ _ _ _ _ _ _ _) as [sv|]; [now exists sv | discriminate J]. }
    eexists. exists (fun j => fst (nth j svs (([], None), ([], None)))), (map snd svs). split; [now rewrite map_length|]. split; [|reflexivity].
    intros j d Hj. change (p3_SHARES C94_count) with 2 in Hj. rewrite (nth_indep iss d (Helper [] None)) by lia. rewrite (Hs j Hj). f_equal.
    change (@nil (F (p3_field C94_count)), @None bytes) with (snd ((@nil (F Field64), @None bytes), (@nil (F Field64), @None bytes))). rewrite map_nth. now destruct (nth j svs _).
Qed.

(** The measurement 10 of Poplar1 verified at level 0 with the candidate 0 and
    with the candidate 1: the difference of the messages is not zero; for the
    same candidate twice it is. *)
Definition C94_p1_run (x y : list bool) : res bool :=
  let* (ps, iss) := p1_shard toy_p1 [x09] [true; false] (repeat x01 16) (repeat x02 128) in
  match iss with
  | [is0; is1] =>
    let* a := real_messages toy_p1 (repeat x07 32) [x09] (0%Z, [x]) (repeat x01 16) ps is0 is1 in
    let* b := real_messages toy_p1 (repeat x07 32) [x09] (0%Z, [y]) (repeat x01 16) ps is0 is1 in
    let* z := p1_verifier_shares_to_message toy_p1 [x09] (0%Z, [x]) (firstn 2 a) in
    let* z' := p1_verifier_shares_to_message toy_p1 [x09] (0%Z, [y]) (firstn 2 b) in
    match z, z' with
    | Some (Inner z), Some (Inner z') => Ok (feqb (nth 0 z f0) (nth 0 z' f0))
    | _, _ => Raise OutOfFuel
    end
  | _ => Raise OutOfFuel
  end.
Definition C94_p1_outcome := Eval vm_compute in (C94_p1_run [false] [true], C94_p1_run [true] [true]).
Example C94_example_poplar1 : C94_p1_outcome = (Ok false, Ok true) /\ exists lim, Poplar1Ok toy_p1 lim.
Proof. split; [reflexivity|]. exact C37_object. Qed.
