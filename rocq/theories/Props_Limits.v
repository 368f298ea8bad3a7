(** Property C93: what the verification does not protect against
    (draft-irtf-cfrg-vdaf.md:6003-6055). *)
From Verif Require Import ForgeSpec ForgeFacts ForgeRun ForgeInst Prio3Inst Prio3Props Poplar1Props Poplar1Inst Poplar1Run FlpInstances
  FlpProofs FlpFacts RunFacts Circuits CircuitSpec CircuitInstances.
Open Scope nat_scope.

(** C93.  The Client knows the verification key [key] (and chooses nonce and
    randomness as it likes): it shares a vector honestly, replaces the
    Leader's share of the proofs, and the report is accepted with the result
    [r].  The exceptions are those of every execution: a query randomness that
    verification rejects. *)
Theorem C93_key_forges : forall (P : NttFieldClass), NttOk P -> wf_field P ->
  forall (v : Valid P) (g : gadget), std_circuit P v -> GADGETS v = [g] ->
  forall (ID : Z) (ts : TurboShake) (bound shares proofs : nat), (0 <= ID < 2 ^ 32)%Z ->
  2 <= shares < 256 -> (Z.of_nat shares < MODULUS P)%Z -> proofs < 256 ->
  let p := prio3_obj P ID v ts bound shares proofs in
  forall (key ctx : bytes) vector (r : vAggResult v), ctx_ok ctx -> length key = 32 -> forges v vector r ->
  forall nonce rand public iss qr, length nonce = p3_NONCE_SIZE -> length rand = RAND_SIZE p ->
  p3_shard (raw p) ctx vector nonce rand = Ok (public, iss) ->
  query_rands p key ctx nonce = Ok qr ->
  (forall k, k < proofs -> test_points_ok v (piece (query_rand_len v) k qr)) ->
  exists forged, length forged = proof_len v * proofs /\
    run_vdaf (sending (Prio3Vdaf p)) key tt ctx [((public, with_proofs forged iss), nonce, [])] = Ok r.
Proof.
  intros P HP HW v g Hv HG ID ts bound shares proofs HID Hs HsM Hpr p key ctx vector r Hc Hk Hf.
  exact (forged_run P HP v (proj1 (std_ok HP v Hv)) g HG (XofTurboShake128 ts bound) ID 32 shares proofs (obj_lim P bound)
    (obj_ok P HW ID HID ts bound shares proofs Hs HsM Hpr v) (circuit_zero v) (std_flp P HP ID ts bound shares proofs v Hv) key ctx vector r Hc Hk Hf).
Qed.
Print Assumptions C93_key_forges.

(** C93.  What can be forged: every count, sum and vector of counts and sums
    that the field has; for the histogram the vectors with entries adding up to
    1 in the field, and no others. *)
Theorem C93_forgeable : forall (P : NttFieldClass), NttOk P ->
  (forall r, (0 <= r < MODULUS P)%Z -> forgeable (Count P) r) /\
  (forall max r, (0 < max)%Z -> (2 ^ Z.of_nat (bit_length max) < MODULUS P)%Z -> (0 <= r < MODULUS P)%Z -> forgeable (Sum P max) r) /\
  (forall len max chunk r, (0 < max)%Z -> (2 ^ Z.of_nat (bit_length max) < MODULUS P)%Z -> length r = len -> residues (MODULUS P) r ->
    forgeable (SumVec P len max chunk) r) /\
  (forall len mw chunk r, 1 <= mw -> (Z.of_nat mw < MODULUS P)%Z -> length r = len -> residues (MODULUS P) r ->
    forgeable (MultihotCountVec P len mw chunk) r) /\
  (forall len chunk r, forgeable (Histogram P len chunk) r <->
    length r = len /\ residues (MODULUS P) r /\ (zsuml r mod MODULUS P = 1)%Z).
Proof.
  intros P HP. split; [intros r; now apply Count_forgeable|]. split; [intros max r; now apply Sum_forgeable|].
  split; [intros len max chunk r; now apply SumVec_forgeable|]. split; [intros len mw chunk r; now apply MultihotCountVec_forgeable|].
  intros len chunk r. now apply Histogram_forgeable.
Qed.
Print Assumptions C93_forgeable.

(** C93.  A malicious Aggregator [j] of Prio3 that knows the other aggregate
    shares makes the Collector decode whatever vector it likes; knowing nothing,
    it adds to the total whatever it likes. *)
Theorem C93_aggregator : forall (p : Prio3) (shares : list (list (F (p3_field p)))) j total n,
  j < length shares -> Forall (fun s => length s = OUTPUT_LEN (p3_flp p)) shares -> length total = OUTPUT_LEN (p3_flp p) ->
  exists share, length share = OUTPUT_LEN (p3_flp p) /\
    p3_unshard p tt (upd shares j share) n = flp_decode (p3_flp p) total n.
Proof.
  intros p shares j total n Hj HF Ht. destruct (vsum_completing _ shares j total Hj HF Ht) as [L E].
  exists (completing (OUTPUT_LEN (p3_flp p)) shares j total). split; [exact L|].
  rewrite unshard_vsum; [now rewrite E|]. apply Forall_forall. intros x I. apply In_nth with (d := []) in I. destruct I as (i & Hi & <-).
  rewrite length_upd in Hi. destruct (Nat.eq_dec i j) as [->|N].
  - rewrite nth_upd_same by exact Hj. exact L.
  - rewrite nth_upd_other by congruence. apply (proj1 (Forall_forall _ _) HF), nth_In, Hi.
Qed.
Print Assumptions C93_aggregator.

Theorem C93_aggregator_shift : forall (p : Prio3) (shares : list (list (F (p3_field p)))) j delta n,
  j < length shares -> Forall (fun s => length s = OUTPUT_LEN (p3_flp p)) shares -> length delta = OUTPUT_LEN (p3_flp p) ->
  p3_unshard p tt shares n = flp_decode (p3_flp p) (vsum (OUTPUT_LEN (p3_flp p)) shares) n /\
  p3_unshard p tt (upd shares j (zip_with fadd (nth j shares []) delta)) n =
    flp_decode (p3_flp p) (zip_with fadd (vsum (OUTPUT_LEN (p3_flp p)) shares) delta) n.
Proof.
  intros p shares j delta n Hj HF Hd.
  assert (Lj : length (nth j shares []) = OUTPUT_LEN (p3_flp p)) by (apply (proj1 (Forall_forall _ _) HF), nth_In, Hj).
  split; [now apply unshard_vsum|]. rewrite unshard_vsum.
  - now rewrite vsum_shift.
  - apply Forall_forall. intros x I. apply In_nth with (d := []) in I. destruct I as (i & Hi & <-).
    rewrite length_upd in Hi. destruct (Nat.eq_dec i j) as [->|N].
    + rewrite nth_upd_same by exact Hj. rewrite zip_with_length. lia.
    + rewrite nth_upd_other by congruence. apply (proj1 (Forall_forall _ _) HF), nth_In, Hi.
Qed.
Print Assumptions C93_aggregator_shift.

(** C93.  Likewise for Poplar1: either Aggregator makes the result any counts
    that the field has. *)
Theorem C93_aggregator_poplar1 : forall (p : Poplar1) (lim : Z), Poplar1Ok p lim -> forall (ap : Poplar1AggParam) share counts n,
  p1_out_wf p ap share -> length counts = length (snd ap) ->
  residues (if level_is_inner p (fst ap) then MODULUS (id_field_inner (p1_idpf p)) else MODULUS (id_field_leaf (p1_idpf p))) counts ->
  exists forged, p1_out_wf p ap forged /\
    p1_unshard p ap [share; forged] n = Ok counts /\ p1_unshard p ap [forged; share] n = Ok counts.
Proof.
  intros p lim HO ap share counts n Hw Lc Hr. destruct (level_is_inner p (fst ap)) eqn:El.
  - destruct share as [s|s]; [|destruct Hw as [W _]; unfold of_class in W; congruence].
    destruct Hw as [W Ls]. destruct (complement (P := id_field_inner (p1_idpf p)) s counts (length (snd ap)) Ls Lc Hr) as (t & Lt & E1 & E2).
    assert (Hi : p1_agg_init p ap = Ok (Inner (fzeros (length (snd ap))))) by (destruct ap as [l pf]; unfold p1_agg_init; cbn [fst] in El; now rewrite El).
    exists (Inner t). split; [split; [exact W|exact Lt]|].
    split.
    + etransitivity; [exact (p1_unshard_sum p Inner (view_inner p lim HO) ap Hi [s; t] n ltac:(repeat constructor; assumption))|]. now rewrite E1.
    + etransitivity; [exact (p1_unshard_sum p Inner (view_inner p lim HO) ap Hi [t; s] n ltac:(repeat constructor; assumption))|]. now rewrite E2.
  - destruct share as [s|s]; [destruct Hw as [W _]; unfold of_class in W; congruence|].
    destruct Hw as [W Ls]. destruct (complement (P := id_field_leaf (p1_idpf p)) s counts (length (snd ap)) Ls Lc Hr) as (t & Lt & E1 & E2).
    assert (Hi : p1_agg_init p ap = Ok (Leaf (fzeros (length (snd ap))))) by (destruct ap as [l pf]; unfold p1_agg_init; cbn [fst] in El; now rewrite El).
    exists (Leaf t). split; [split; [exact W|exact Lt]|].
    split.
    + etransitivity; [exact (p1_unshard_sum p Leaf (view_leaf p lim HO) ap Hi [s; t] n ltac:(repeat constructor; assumption))|]. now rewrite E1.
    + etransitivity; [exact (p1_unshard_sum p Leaf (view_leaf p lim HO) ap Hi [t; s] n ltac:(repeat constructor; assumption))|]. now rewrite E2.
Qed.
Print Assumptions C93_aggregator_poplar1.

(** The hypotheses are met: Prio3Count with two Aggregators, a verification key
    and a Client sharing 1000; the Client can make the count 1000 with one
    report. *)
Definition toy_ts : TurboShake := fun m _ i => nth (i * i mod 97) (m ++ zeros 97) x07.
Definition C93_count := prio3_obj Field64 1 (Count Field64) toy_ts 50 2 1.
Definition C93_key : bytes := repeat x05 32.
Definition C93_rand_ok (qr : res (list (F Field64))) : bool :=
  match qr with Ok qr => negb (existsb (bad_point (Count Field64) (piece 1 0 qr)) (seq 0 1)) | Raise _ => false end.
Definition C93_is_ok {A} (r : res A) : bool := match r with Ok _ => true | Raise _ => false end.
Example C93_example : exists public iss forged,
  p3_shard (raw C93_count) [x01] [fof (P := Field64) 1000] (zeros 16) (repeat x09 64) = Ok (public, iss) /\
  run_vdaf (sending (Prio3Vdaf C93_count)) C93_key tt [x01] [((public, with_proofs forged iss), zeros 16, [])] = Ok 1000%Z.
Proof.
  destruct (p3_shard (raw C93_count) [x01] [fof (P := Field64) 1000] (zeros 16) (repeat x09 64)) as [[public iss]|e] eqn:E.
  2: { assert (C : C93_is_ok (p3_shard (raw C93_count) [x01] [fof (P := Field64) 1000] (zeros 16) (repeat x09 64)) = true) by (vm_compute; reflexivity).
       rewrite E in C. discriminate C. }
  destruct (query_rands C93_count C93_key [x01] (zeros 16)) as [qr|e] eqn:Eq.
  2: { assert (C : C93_rand_ok (query_rands C93_count C93_key [x01] (zeros 16)) = true) by (vm_compute; reflexivity).
       rewrite Eq in C. discriminate C. }
  assert (G : C93_rand_ok (query_rands C93_count C93_key [x01] (zeros 16)) = true) by (vm_compute; reflexivity).
  rewrite Eq in G.
  destruct (C93_key_forges Field64 NttOk_Field64 (proj1 IdpfInst.idpf_fields_wf) (Count Field64) Mul (std_Count Field64 ltac:(vm_compute; congruence)) eq_refl 1 toy_ts 50 2 1
    ltac:(lia) ltac:(lia) ltac:(vm_compute; reflexivity) ltac:(lia) C93_key [x01] [fof 1000] 1000%Z
    ltac:(vm_compute; reflexivity) eq_refl) with (nonce := zeros 16) (rand := repeat x09 64) (public := public) (iss := iss) (qr := qr)
    as (forged & _ & R).
  - exists [fof 1000]. split; [reflexivity|]. split; [intros jr L; now apply Count_answerable|]. split; reflexivity.
  - reflexivity.
  - reflexivity.
  - exact E.
  - exact Eq.
  - intros k Hk. assert (k = 0) as -> by lia. apply bad_points_iff. apply negb_true_iff. exact G.
  - exists public, iss, forged. split; [reflexivity | exact R].
Qed.

(** A Helper adds 7 to the count. *)
Example C93_example_shift :
  p3_unshard C93_count tt [[fof (P := Field64) 3]; [fof (P := Field64) 4]] 10 = Ok 7%Z /\
  p3_unshard C93_count tt [[fof (P := Field64) 3]; [fof (P := Field64) 11]] 10 = Ok 14%Z.
Proof. split; reflexivity. Qed.
