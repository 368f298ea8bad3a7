(** Tampered reports: C76 (correlated randomness of Poplar1), C77 (Prio3Count),
    C78 (the negative test vectors of gen_test_vec.py). *)
From Coq Require Import Strings.String.
From Verif Require Import FieldProofs Poplar1CorrSpec Poplar1Corr CountSpec CountTamper NegVectors NegFacts NegProofs NegPrio3
  TestVecSpec TestVecInst Poplar1Facts Poplar1Inst Prio3Spec Prio3Facts Prio3Inst FlpInstances CircuitInstances
  PostFacts VecFacts FieldFacts Props_Poplar1 Props_Prio3.
Open Scope nat_scope.

(** C76.  A report of Poplar1 whose IDPF keys are those of the Client but whose
    correlated randomness (seeds and offsets) is arbitrary, at an inner level:
    round two accepts iff the error of the correlated randomness vanishes at the
    first element of the message of round one. *)
Theorem C76_inner : forall (p : Poplar1) (lim : Z), Poplar1Ok p lim ->
  forall ctx m nonce rand public_share input_shares k0 k1 s0 s1 shard_seed ks kl ci0 ci1 cl0 cl1 oi0 oi1 ol0 ol1,
  P1Report p ctx m nonce rand public_share input_shares k0 k1 s0 s1 shard_seed ks kl ci0 ci1 cl0 cl1 oi0 oi1 ol0 ol1 ->
  ctx_ok ctx -> length m = id_BITS (p1_idpf p) -> length nonce = p1_NONCE_SIZE ->
  forall key level prefixes seed0 seed1 inner0 inner1 leaf0 leaf1 dst o0 o1,
  level < id_BITS (p1_idpf p) - 1 -> NoDup prefixes -> Forall (fun x => length x = S level) prefixes ->
  length key = SEED_SIZE (p1_xof p) -> (Z.of_nat level < 65536)%Z ->
  length inner0 = 2 * (id_BITS (p1_idpf p) - 1) -> length inner1 = 2 * (id_BITS (p1_idpf p) - 1) ->
  p1_dst USAGE_CORR_INNER ctx = Ok dst ->
  expand_into_vec (p1_xof p) (id_field_inner (p1_idpf p)) seed0 dst (x00 :: nonce) (3 * (id_BITS (p1_idpf p) - 1)) = Ok o0 ->
  expand_into_vec (p1_xof p) (id_field_inner (p1_idpf p)) seed1 dst (x01 :: nonce) (3 * (id_BITS (p1_idpf p) - 1)) = Ok o1 ->
  match real_messages p key ctx (Z.of_nat level, prefixes) nonce public_share
          (k0, seed0, inner0, leaf0) (k1, seed1, inner1, leaf1) with
  | Ok msgs => exists r, verify_rand_of p (id_field_inner (p1_idpf p)) key ctx nonce (Z.of_nat level) (length prefixes) = Ok r /\
      corr_outcome p Inner ctx (Z.of_nat level, prefixes) (piece 3 level o0) (piece 3 level o1)
        (piece 2 level inner0) (piece 2 level inner1) (nth level ks f0) (path_rand prefixes level m r) msgs
  | Raise e => e = OutOfFuel /\ p1_ran_out p (length prefixes)
  end.
Proof.
  intros p lim HO ctx m nonce rand ps iss k0 k1 s0 s1 ss ks kl ci0 ci1 cl0 cl1 oi0 oi1 ol0 ol1 R Hc Hm Hn
    key level prefixes s0' s1' i0 i1 l0 l1 dst o0 o1 H1 H2 H3 H4 H5 H6 H7 H8 H9 H10.
  pose proof (corr_inner p lim HO _ _ _ _ _ _ _ _ _ _ _ _ _ _ _ _ _ _ _ _ _ R Hc Hm Hn key level prefixes
    s0' s1' i0 i1 l0 l1 dst o0 o1 H1 H2 H3 H4 H5 H6 H7 H8 H9 H10) as H.
  destruct (real_messages _ _ _ _ _ _ _ _); exact H.
Qed.
Print Assumptions C76_inner.

(** C76.  The same at the leaf level. *)
Theorem C76_leaf : forall (p : Poplar1) (lim : Z), Poplar1Ok p lim ->
  forall ctx m nonce rand public_share input_shares k0 k1 s0 s1 shard_seed ks kl ci0 ci1 cl0 cl1 oi0 oi1 ol0 ol1,
  P1Report p ctx m nonce rand public_share input_shares k0 k1 s0 s1 shard_seed ks kl ci0 ci1 cl0 cl1 oi0 oi1 ol0 ol1 ->
  ctx_ok ctx -> length m = id_BITS (p1_idpf p) -> length nonce = p1_NONCE_SIZE ->
  forall key level prefixes seed0 seed1 inner0 inner1 leaf0 leaf1 dst o0 o1,
  id_BITS (p1_idpf p) - 1 <= level < id_BITS (p1_idpf p) -> NoDup prefixes -> Forall (fun x => length x = S level) prefixes ->
  length key = SEED_SIZE (p1_xof p) -> (Z.of_nat level < 65536)%Z ->
  length leaf0 = 2 -> length leaf1 = 2 ->
  p1_dst USAGE_CORR_LEAF ctx = Ok dst ->
  expand_into_vec (p1_xof p) (id_field_leaf (p1_idpf p)) seed0 dst (x00 :: nonce) 3 = Ok o0 ->
  expand_into_vec (p1_xof p) (id_field_leaf (p1_idpf p)) seed1 dst (x01 :: nonce) 3 = Ok o1 ->
  match real_messages p key ctx (Z.of_nat level, prefixes) nonce public_share
          (k0, seed0, inner0, leaf0) (k1, seed1, inner1, leaf1) with
  | Ok msgs => exists r, verify_rand_of p (id_field_leaf (p1_idpf p)) key ctx nonce (Z.of_nat level) (length prefixes) = Ok r /\
      corr_outcome p Leaf ctx (Z.of_nat level, prefixes) o0 o1 leaf0 leaf1 kl (path_rand prefixes level m r) msgs
  | Raise e => e = OutOfFuel /\ p1_ran_out p (length prefixes)
  end.
Proof.
  intros p lim HO ctx m nonce rand ps iss k0 k1 s0 s1 ss ks kl ci0 ci1 cl0 cl1 oi0 oi1 ol0 ol1 R Hc Hm Hn
    key level prefixes s0' s1' i0 i1 l0 l1 dst o0 o1 H1 H2 H3 H4 H5 H6 H7 H8 H9 H10.
  pose proof (corr_leaf p lim HO _ _ _ _ _ _ _ _ _ _ _ _ _ _ _ _ _ _ _ _ _ R Hc Hm Hn key level prefixes
    s0' s1' i0 i1 l0 l1 dst o0 o1 H1 H2 H3 H4 H5 H6 H7 H8 H9 H10) as H.
  destruct (real_messages _ _ _ _ _ _ _ _); exact H.
Qed.
Print Assumptions C76_leaf.

(** C76.  When the seeds are the Client's, and (dA, dB) is added to the Client's
    offsets of a level, the error is dA * z0 + dB: it is zero for the Client's
    own offsets, never zero when only B is changed, and zero when only A is
    changed iff z0 is zero. *)
Theorem C76_offsets : forall (P : FieldClass), prime (MODULUS P) ->
  forall (abc0 abc1 AB0 AB1 : list (F P)) (k z0 dA dB : F P),
  length AB0 = 2 -> length AB1 = 2 -> zip_with fadd AB0 AB1 = corr_pair (zip_with fadd abc0 abc1) k ->
  let error := corr_error abc0 abc1 (zip_with fadd AB0 [dA; dB]) AB1 k z0 in
  error = fadd (fmul dA z0) dB /\
  (dA = f0 -> (error = f0 <-> dB = f0)) /\
  (dB = f0 -> dA <> f0 -> (error = f0 <-> z0 = f0)).
Proof. exact @corr_offsets. Qed.
Print Assumptions C76_offsets.

(** C76.  A run in which the first element of the Leader's offsets is changed, and
    one in which nothing is changed. *)
Definition c76_run (delta : Z) : res (option bool) :=
  let* (ps, iss) := p1_shard toy_p1 [x09] [true; false] (repeat x01 16) (repeat x02 128) in
  match iss with
  | [(k0, s0, c :: cs, cl0); is1] =>
    let* msgs := real_messages toy_p1 (repeat x07 32) [x09] (0%Z, [[false]; [true]]) (repeat x01 16) ps
                   (k0, s0, fadd c (fof delta) :: cs, cl0) is1 in
    match msgs with
    | [_; _; t0; t1] =>
      match p1_verifier_shares_to_message toy_p1 [x09] (0%Z, [[false]; [true]]) [t0; t1] with
      | Ok None => Ok (Some true)
      | Raise (ValueError _) => Ok (Some false)
      | _ => Ok None
      end
    | _ => Ok None
    end
  | _ => Ok None
  end.
Definition c76_outcome : bool := Eval vm_compute in
  match c76_run 0, c76_run 1 with Ok (Some true), Ok (Some false) => true | _, _ => false end.
Example C76_example : c76_outcome = true /\ exists lim, Poplar1Ok toy_p1 lim.
Proof. split; [reflexivity|]. exact C37_object. Qed.

(** C77.  Prio3 over the Count circuit, with any number of Aggregators and any
    input shares whatever.  If the square of the test point is one every
    Aggregator raises the error of query.  Otherwise the verifier shares are
    accepted exactly when [count_accepts] holds of the sums of the measurement
    shares and of the proof shares. *)
Theorem C77_run : forall (P : NttFieldClass), NttOk P -> CircuitSpec.fits P Mul 1 ->
  forall (X : XofClass) (ID : Z) (vks n : nat), 1 <= n -> (Z.of_nat n < MODULUS P)%Z ->
  let p := {| p3_field := P; p3_flp := FlpBBCGGI19 (Count P); p3_xof := X; p3_ID := ID;
              p3_VERIFY_KEY_SIZE := vks; p3_SHARES := n; p3_PROOFS := 1 |} in
  forall key ctx nonce public (shares : nat -> Prio3InputShare P) (ms prs : list (list (F P))) blinds (t : F P),
  vecs n 1 ms -> vecs n 5 prs ->
  (forall j, j < n -> expand_input_share p ctx j (shares j) = Ok (nth j ms [], nth j prs [], nth j blinds None)) ->
  query_rands p key ctx nonce = Ok [t] ->
  if feqb (fmul t t) f1
  then forall j, j < n -> p3_verify_init p key ctx j tt nonce public (shares j)
                          = Raise (ValueError "test point is a root of unity")
  else exists vs : list (list (F P)), length vs = n /\
    (forall j, j < n -> p3_verify_init p key ctx j tt nonce public (shares j)
                        = Ok ((nth j ms [], None), (nth j vs [], None))) /\
    p3_verifier_shares_to_message p ctx tt (map (fun v => (v, None)) vs)
    = if count_accepts (nth 0 (vsum 1 ms) f0) (vsum 5 prs) t then Ok None
      else Raise (ValueError "proof verifier check failed").
Proof. intros P HP Hf X ID vks n Hn HnM p. exact (count_run HP Hf X ID vks n Hn HnM). Qed.
Print Assumptions C77_run.

(** C77.  A report of a Client whose Leader's share is changed by [dx] and [dp]:
    the proof of the Client would have been accepted; the changed one is accepted
    iff [count_accepts] holds of the sum of the Client's and the change. *)
Theorem C77_tampered : forall (P : NttFieldClass), NttOk P -> CircuitSpec.fits P Mul 1 ->
  forall (X : XofClass) (ID : Z) (vks n : nat), 1 <= n -> (Z.of_nat n < MODULUS P)%Z ->
  let p := {| p3_field := P; p3_flp := FlpBBCGGI19 (Count P); p3_xof := X; p3_ID := ID;
              p3_VERIFY_KEY_SIZE := vks; p3_SHARES := n; p3_PROOFS := 1 |} in
  forall key ctx nonce rand public iss (ms prs : list (list (F P))) blinds prove_seed (pr jr : list (F P))
    (proofs : list (list (F P))) (x t : F P) (m0 p0 : list (F P)) b0 helpers (dx dp : list (F P)),
  (x = f0 \/ x = f1) ->
  Report p ctx [x] nonce rand public iss ms prs blinds prove_seed pr jr proofs ->
  iss = Leader m0 p0 b0 :: helpers -> length dx = 1 -> length dp = 5 ->
  query_rands p key ctx nonce = Ok [t] -> fmul t t <> f1 ->
  exists g0 g1 (vs : list (list (F P))),
    let proof := [nth 0 pr f0; nth 1 pr f0; g0; g1; x] in
    length vs = n /\ count_accepts x proof t = true /\
    (forall j d, j < n -> exists out,
      p3_verify_init p key ctx j tt nonce public
        (nth j (Leader (zip_with fadd m0 dx) (zip_with fadd p0 dp) b0 :: helpers) d)
      = Ok ((out, None), (nth j vs [], None))) /\
    p3_verifier_shares_to_message p ctx tt (map (fun v => (v, None)) vs)
    = if count_accepts (fadd x (nth 0 dx f0)) (zip_with fadd proof dp) t then Ok None
      else Raise (ValueError "proof verifier check failed").
Proof. intros P HP Hf X ID vks n Hn HnM p. exact (count_tampered HP Hf X ID vks n Hn HnM). Qed.
Print Assumptions C77_tampered.

(** C77.  One element of an accepted measurement and proof is changed: the result
    is rejected, except that a wire seed may be changed if the other wire vanishes
    at the test point, and the value of the gadget polynomial at 1 may be changed
    if the test point is the square root of -1 that belongs to the proof. *)
Theorem C77_cases : forall (P : NttFieldClass), NttOk P -> CircuitSpec.fits P Mul 1 ->
  forall x s0 s1 g0 g1 g2 t d : F P, fmul t t <> f1 -> d <> f0 ->
  count_accepts x [s0; s1; g0; g1; g2] t = true ->
  count_accepts (fadd x d) [s0; s1; g0; g1; g2] t = false /\
  count_accepts x [fadd s0 d; s1; g0; g1; g2] t = feqb (wire2 s1 x t) f0 /\
  count_accepts x [s0; fadd s1 d; g0; g1; g2] t = feqb (wire2 s0 x t) f0 /\
  count_accepts x [s0; s1; fadd g0 d; g1; g2] t = feqb t (nth_root P 2) /\
  count_accepts x [s0; s1; g0; fadd g1 d; g2] t = false /\
  count_accepts x [s0; s1; g0; g1; fadd g2 d] t = false.
Proof.
  intros P HP Hf x s0 s1 g0 g1 g2 t d Ht Hd HA.
  split; [exact (tamper_meas x s0 s1 g0 g1 g2 t d Hd HA)|]. split; [exact (tamper_s0 HP x s0 s1 g0 g1 g2 t d Ht Hd HA)|].
  split; [exact (tamper_s1 HP x s0 s1 g0 g1 g2 t d Ht Hd HA)|]. split; [exact (tamper_g0 HP Hf x s0 s1 g0 g1 g2 t d Ht Hd HA)|].
  split; [exact (tamper_g1 HP x s0 s1 g0 g1 g2 t d Ht Hd HA)|]. exact (tamper_g2 x s0 s1 g0 g1 g2 t d Hd HA).
Qed.
Print Assumptions C77_cases.

(** C77.  So it is not true that every change is rejected: a Client that draws the
    second wire seed 0 for the measurement 0 produces a proof whose first wire
    seed can be changed at will, whatever the test point. *)
Theorem C77_all_rejected_refuted : forall (P : NttFieldClass) (s0 t : F P),
  count_accepts f0 [s0; f0; f0; f0; f0] t = true.
Proof. exact @seed_ignored. Qed.
Print Assumptions C77_all_rejected_refuted.

(** C77.  Field64 has a gadget domain for Count, and the proof of the measurement 1
    with wire seeds 5 and 7 is accepted at test point 3. *)
Definition c77_outcome : bool := Eval vm_compute in
  match bbcggi19_prove (Count Field64) [f1] [fof 5; fof 7] [] with
  | Ok proof => count_accepts f1 proof (fof 3) && negb (count_accepts f1 (fadd (nth 0 proof f0) f1 :: skipn 1 proof) (fof 3))
  | Raise _ => false
  end.
Example C77_example : NttOk Field64 /\ CircuitSpec.fits Field64 Mul 1 /\ fmul (fof 3) (fof 3) <> @f1 Field64 /\ c77_outcome = true.
Proof.
  split; [exact (proj1 ntt_fields_ok)|]. split; [vm_compute; discriminate|]. split; [|reflexivity].
  intros H. apply (f_equal val) in H. vm_compute in H. discriminate.
Qed.

(** C78.  The generator of the negative test vectors for a Prio3 object with two
    Aggregators: if it does not raise, it produces four vectors, and the checker
    accepts each of them. *)
Theorem C78_count : forall (p : Prio3) (lim : Z), Prio3Ok p lim -> p3_SHARES p = 2 ->
  forall (good : list (F (p3_field p)) -> Prop) (valid : list (F (p3_field p)) -> list (F (p3_field p)) -> Prop),
  FlpOk (p3_flp p) good valid -> forall ctx, ctx_ok ctx ->
  forall result_eqb none m meas vecs, flp_encode (p3_flp p) m = Ok meas -> length meas = MEAS_LEN (p3_flp p) ->
  gen_negative_count p none ctx m = Ok vecs ->
  length vecs = 4 /\ Forall (fun tv => check_test_vector (Prio3Vdaf p) result_eqb tv = Ok tt) vecs.
Proof. exact count_vectors_pass. Qed.
Print Assumptions C78_count.

Theorem C78_histogram : forall (p : Prio3) (lim : Z), Prio3Ok p lim -> p3_SHARES p = 2 ->
  forall (good : list (F (p3_field p)) -> Prop) (valid : list (F (p3_field p)) -> list (F (p3_field p)) -> Prop),
  FlpOk (p3_flp p) good valid -> forall ctx, ctx_ok ctx ->
  forall result_eqb none m meas key nonce vecs, length key = p3_VERIFY_KEY_SIZE p -> length nonce = p3_NONCE_SIZE ->
  flp_encode (p3_flp p) m = Ok meas -> length meas = MEAS_LEN (p3_flp p) ->
  gen_negative_histogram p none key nonce ctx m = Ok vecs ->
  length vecs = 4 /\ Forall (fun tv => check_test_vector (Prio3Vdaf p) result_eqb tv = Ok tt) vecs.
Proof. exact histogram_vectors_pass. Qed.
Print Assumptions C78_histogram.

(** C78.  When both Aggregators get through verify_init, a vector is produced
    exactly if verifier_shares_to_message raises ValueError; if it succeeds the
    generator raises an exception. *)
Theorem C78_failure : forall (p : Prio3) (lim : Z), Prio3Ok p lim -> p3_SHARES p = 2 ->
  forall (good : list (F (p3_field p)) -> Prop) (valid : list (F (p3_field p)) -> list (F (p3_field p)) -> Prop),
  FlpOk (p3_flp p) good valid -> forall key ctx, ctx_ok ctx -> length key = p3_VERIFY_KEY_SIZE p ->
  forall none nonce rand ps is0 is1 st0 sh0 st1 sh1,
  public_share_wf p ps -> input_share_wf p 0 is0 -> input_share_wf p 1 is1 ->
  p3_verify_init p key ctx 0 tt nonce ps is0 = Ok (st0, sh0) ->
  p3_verify_init p key ctx 1 tt nonce ps is1 = Ok (st1, sh1) ->
  match p3_verifier_shares_to_message p ctx tt [sh0; sh1] with
  | Ok _ => prio3_message_failure p none key nonce rand ctx ps is0 is1
            = Raise (Exception_ "verifier_shares_to_message should fail")
  | Raise (ValueError _) => exists tv, prio3_message_failure p none key nonce rand ctx ps is0 is1 = Ok tv
  | Raise e => prio3_message_failure p none key nonce rand ctx ps is0 is1 = Raise e
  end.
Proof. intros p lim HO H2 good valid HF key ctx Hc Hk. exact (p3_failure_total p lim HO H2 good valid HF key ctx Hc Hk). Qed.
Print Assumptions C78_failure.

(** C78.  The vector with the zeroed verifier message is produced unless the seed
    that Aggregator 0 expects is itself all zeros. *)
Theorem C78_bad_message : forall (p : Prio3) (lim : Z), Prio3Ok p lim -> p3_SHARES p = 2 ->
  forall (good : list (F (p3_field p)) -> Prop) (valid : list (F (p3_field p)) -> list (F (p3_field p)) -> Prop),
  FlpOk (p3_flp p) good valid -> forall key ctx, ctx_ok ctx -> length key = p3_VERIFY_KEY_SIZE p ->
  forall none nonce rand ps is0 is1 st0 sh0,
  public_share_wf p ps -> input_share_wf p 0 is0 -> input_share_wf p 1 is1 ->
  p3_verify_init p key ctx 0 tt nonce ps is0 = Ok (st0, sh0) ->
  if opt_bytes_eqb (Some (zeros (SEED_SIZE (p3_xof p)))) (snd st0)
  then bad_verifier_message p none key nonce rand ctx ps is0 is1 = Raise (Exception_ "pep_next should fail")
  else exists tv, bad_verifier_message p none key nonce rand ctx ps is0 is1 = Ok tv.
Proof. intros p lim HO H2 good valid HF key ctx Hc Hk. exact (p3_bad_message_total p lim HO H2 good valid HF key ctx Hc Hk). Qed.
Print Assumptions C78_bad_message.

(** C78.  Prio3Count: unless the test point is a root of unity, the vectors with
    the changed measurement share and the changed gadget polynomial are always
    produced; the one with the changed wire seed is produced unless the other wire
    vanishes at the test point, when the generator raises an exception. *)
Theorem C78_count_cases : forall (P : NttFieldClass), NttOk P -> CircuitSpec.fits P Mul 1 ->
  forall (X : XofClass) (ID : Z) (vks : nat),
  let p := {| p3_field := P; p3_flp := FlpBBCGGI19 (Count P); p3_xof := X; p3_ID := ID;
              p3_VERIFY_KEY_SIZE := vks; p3_SHARES := 2; p3_PROOFS := 1 |} in
  forall lim, Prio3Ok p lim -> (2 < MODULUS P)%Z ->
  forall (good : list (F P) -> Prop) (valid : list (F P) -> list (F P) -> Prop), FlpOk (FlpBBCGGI19 (Count P)) good valid ->
  forall none key ctx nonce rand public iss (ms prs : list (list (F P))) bls prove_seed (pr jr : list (F P))
    (proofs : list (list (F P))) (x t : F P) (m0 p0 : list (F P)) b0 h,
  ctx_ok ctx -> length key = vks -> (x = f0 \/ x = f1) ->
  Report p ctx [x] nonce rand public iss ms prs bls prove_seed pr jr proofs ->
  iss = [Leader m0 p0 b0; h] ->
  query_rands p key ctx nonce = Ok [t] -> fmul t t <> f1 ->
  let gen (s : Prio3InputShare P) := prio3_message_failure p none key nonce rand ctx public s h in
  (exists s tv, bad_meas_share p (Leader m0 p0 b0) = Ok s /\ gen s = Ok tv) /\
  (exists s tv, bad_gadget_poly p (Leader m0 p0 b0) = Ok s /\ gen s = Ok tv) /\
  (exists s, bad_wire_seed p (Leader m0 p0 b0) = Ok s /\
     if feqb (wire2 (nth 1 pr f0) x t) f0
     then gen s = Raise (Exception_ "verifier_shares_to_message should fail")
     else exists tv, gen s = Ok tv).
Proof. intros P HP Hf X ID vks p lim HO H2 good valid HF. exact (count_generator HP Hf X ID vks lim HO H2 good valid HF). Qed.
Print Assumptions C78_count_cases.

(** C78.  Poplar1: the generator changes the correlated randomness of level 0, so
    at any other level verification succeeds and it raises an exception; every
    vector it produces is accepted by the checker. *)
Theorem C78_poplar1 : forall (p : Poplar1) (lim : Z), Poplar1Ok p lim ->
  wf_field (id_field_inner (p1_idpf p)) -> wf_field (id_field_leaf (p1_idpf p)) ->
  id_KEY_SIZE (p1_idpf p) = SEED_SIZE (id_xof_inner (p1_idpf p)) ->
  forall none ctx m level prefixes result_eqb, ctx_ok ctx -> length m = id_BITS (p1_idpf p) -> NoDup prefixes ->
  Forall (fun x => length x = S level) prefixes -> level < id_BITS (p1_idpf p) -> 1 < id_BITS (p1_idpf p) ->
  agg_param_wf (Z.of_nat level, prefixes) -> p1_VERIFY_KEY_SIZE p = SEED_SIZE (p1_xof p) ->
  match gen_poplar1_negative p none ctx m (Z.of_nat level, prefixes) with
  | Ok tv => level = 0 /\ check_test_vector (p1_vdaf p) result_eqb tv = Ok tt
  | Raise e => e = Exception_ "verifier_shares_to_message should fail" \/ e = OutOfFuel /\ p1_ran_out p (length prefixes)
  end.
Proof. exact gen_poplar1. Qed.
Print Assumptions C78_poplar1.

(** C78.  At level 0 the vector is produced iff the first element a + a' + x of the
    message of round one is not zero. *)
Theorem C78_poplar1_level0 : forall (p : Poplar1) (lim : Z), Poplar1Ok p lim ->
  wf_field (id_field_inner (p1_idpf p)) -> wf_field (id_field_leaf (p1_idpf p)) ->
  id_KEY_SIZE (p1_idpf p) = SEED_SIZE (id_xof_inner (p1_idpf p)) ->
  forall ctx m nonce rand public_share input_shares k0 k1 s0 s1 shard_seed ks kl ci0 ci1 cl0 cl1 oi0 oi1 ol0 ol1,
  P1Report p ctx m nonce rand public_share input_shares k0 k1 s0 s1 shard_seed ks kl ci0 ci1 cl0 cl1 oi0 oi1 ol0 ol1 ->
  ctx_ok ctx -> length m = id_BITS (p1_idpf p) -> length nonce = p1_NONCE_SIZE ->
  forall key, length key = SEED_SIZE (p1_xof p) -> forall level prefixes, NoDup prefixes ->
  Forall (fun x => length x = S level) prefixes -> level < id_BITS (p1_idpf p) -> agg_param_wf (Z.of_nat level, prefixes) ->
  forall none c cs, ci0 = c :: cs ->
  match poplar1_message_failure p none key nonce rand ctx (Z.of_nat level, prefixes) public_share
          (k0, s0, fadd c (fof 1) :: cs, cl0) (k1, s1, ci1, cl1) with
  | Ok _ => level = 0 /\ exists r,
      verify_rand_of p (id_field_inner (p1_idpf p)) key ctx nonce (Z.of_nat level) (length prefixes) = Ok r /\
      fadd (fadd (nth 0 oi0 f0) (nth 0 oi1 f0)) (path_rand prefixes level m r) <> f0
  | Raise e =>
      e = Exception_ "verifier_shares_to_message should fail" /\
      (level = 0 -> level < id_BITS (p1_idpf p) - 1 -> exists r,
         verify_rand_of p (id_field_inner (p1_idpf p)) key ctx nonce (Z.of_nat level) (length prefixes) = Ok r /\
         fadd (fadd (nth 0 oi0 f0) (nth 0 oi1 f0)) (path_rand prefixes level m r) = f0) \/
      e = OutOfFuel /\ p1_ran_out p (length prefixes)
  end.
Proof. exact p1_generator. Qed.
Print Assumptions C78_poplar1_level0.

(** C78.  Runs of the generators, and the exception when the aggregation parameter
    is at level 1; TestVec_Neg.v has the runs with the parameters of /repo. *)
Definition c78_count : Prio3 := prio3_obj Field64 1 (Count Field64) toy_ts 50 2 1.
Definition c78_outcome : bool * bool * bool := Eval vm_compute in
  (match gen_negative_count c78_count 0%Z [x09] 1%Z with Ok vecs => length vecs =? 4 | Raise _ => false end,
   match gen_poplar1_negative toy_p1 [] [x09] [false; true] (0%Z, [[false]; [true]]) with Ok _ => true | Raise _ => false end,
   match gen_poplar1_negative toy_p1 [] [x09] [false; true] (1%Z, [[false; true]]) with Raise (Exception_ _) => true | _ => false end).
Example C78_example : c78_outcome = (true, true, true).
Proof. reflexivity. Qed.
