(** Property C99: offline attacks on the joint randomness
    (draft-irtf-cfrg-vdaf.md:6207-6244). *)
From Verif Require Import OfflineSpec OfflineRun OfflineFacts SoundSpec SoundTotal ForgeSpec Prio3Inst Prio3Props FlpInstances FlpProofs FlpFacts
  Circuits CircuitSpec CircuitInstances CircuitProofs MeasFacts Primes.
Open Scope nat_scope.

(** C99.  A Client shares any vector of field elements and proves honestly.  The
    joint randomness [jr] can be computed from the public share, and for every
    verification key the outcome is known: the report counts if the output of
    the circuit under [jr], reduced with the query randomness, is zero in every
    proof. *)
Theorem C99_outcome : forall (P : NttFieldClass), NttOk P -> wf_field P ->
  forall (v : Valid P), std_circuit P v ->
  forall (ID : Z) (ts : TurboShake) (bound shares proofs : nat), (0 <= ID < 2 ^ 32)%Z ->
  2 <= shares < 256 -> (Z.of_nat shares < MODULUS P)%Z -> proofs < 256 ->
  let p := prio3_obj P ID v ts bound shares proofs in
  forall (ctx : bytes) vector nonce rand public iss, ctx_ok ctx -> length vector = vMEAS_LEN v ->
  length nonce = p3_NONCE_SIZE -> length rand = RAND_SIZE p ->
  p3_shard (raw p) ctx vector nonce rand = Ok (public, iss) ->
  exists jr, derived_joint_rand p ctx public = Ok jr /\ length jr = vJOINT_RAND_LEN v * proofs /\
  forall key qr, length key = 32 -> query_rands p key ctx nonce = Ok qr ->
  (forall k, k < proofs -> test_points_ok v (piece (query_rand_len v) k qr)) ->
  run_vdaf (sending (Prio3Vdaf p)) key tt ctx [((public, iss), nonce, [])] =
  if passes v proofs vector jr qr then let* out := valid_truncate v vector in valid_decode v out 1
  else Raise (ValueError "proof verifier check failed").
Proof.
  intros P HP HW v Hv ID ts bound shares proofs HID Hs HsM Hpr p ctx vector nonce rand public iss Hc Lv Hn Hr Es.
  exact (offline_run P HP v (proj1 (std_ok HP v Hv)) (XofTurboShake128 ts bound) ID 32 shares proofs (obj_lim P bound)
    (obj_ok P HW ID HID ts bound shares proofs Hs HsM Hpr v) (circuit_zero v) (std_flp P HP ID ts bound shares proofs v Hv)
    ctx vector nonce rand public iss Hc Lv Hn Hr Es).
Qed.
Print Assumptions C99_outcome.

(** C99.  If the circuit accepts under the joint randomness, so do the
    Aggregators, whatever their key; with a single output (Count, SumVec) they
    accept in no other case, so that the Client knows the outcome for all keys
    before it uploads. *)
Theorem C99_offline : forall (P : NttFieldClass), NttOk P -> forall (v : Valid P), std_circuit P v ->
  forall proofs vector jr, length vector = vMEAS_LEN v -> length jr = vJOINT_RAND_LEN v * proofs ->
  (lucky v proofs vector jr -> forall qr, passes v proofs vector jr qr = true) /\
  (EVAL_OUTPUT_LEN v = 1 -> forall qr, passes v proofs vector jr qr = true -> lucky v proofs vector jr).
Proof.
  intros P HP v Hv proofs vector jr Lv Lj. split.
  - intros HL qr. now apply lucky_passes.
  - intros E qr. now apply (passes_lucky HP v (proj1 (std_ok HP v Hv))).
Qed.
Print Assumptions C99_offline.

(** C99.  How rare such joint randomness is: with [A] accepting vectors for one
    proof there are at most [A ^ proofs] for all of them. *)
Theorem C99_rare : forall (P : NttFieldClass) (v : Valid P) proofs vector A Q, joint_bound v vector A -> NoDup Q ->
  (forall jr, In jr Q -> length jr = vJOINT_RAND_LEN v * proofs /\ lucky v proofs vector jr) ->
  (Z.of_nat (length Q) <= A ^ Z.of_nat proofs)%Z.
Proof. intros P v proofs vector A Q. exact (lucky_rare v proofs vector A Q). Qed.
Print Assumptions C99_rare.

(** C99.  That they exist, for SumVec: if all joint randomness is zero, every
    vector is accepted; and a vector with a single element that is not a bit is
    accepted exactly if the element of joint randomness for its chunk is zero
    in every proof (a fraction of [1 / MODULUS] for each proof). *)
Theorem C99_sumvec : forall (P : NttFieldClass), NttOk P -> forall len max chunk proofs, 1 <= len -> 1 <= chunk -> (0 < max)%Z ->
  let v := SumVec P len max chunk in forall vector, length vector = vMEAS_LEN v ->
  (forall jr, jr = repeat f0 (vJOINT_RAND_LEN v * proofs) -> lucky v proofs vector jr) /\
  (forall jr k, length jr = vJOINT_RAND_LEN v * proofs -> k < vMEAS_LEN v ->
     (forall i, i < vMEAS_LEN v -> i <> k -> is_bit (nth i vector f0)) -> ~ is_bit (nth k vector f0) ->
     lucky v proofs vector jr <-> forall i, i < proofs -> nth (k / chunk) (piece (vJOINT_RAND_LEN v) i jr) f0 = f0).
Proof.
  intros P HP len max chunk proofs Hl Hc Hm v vector Lv. split.
  - intros jr -> k Hk.
    assert (E : piece (vJOINT_RAND_LEN v) k (repeat f0 (vJOINT_RAND_LEN v * proofs)) = repeat (f0 : F P) (vJOINT_RAND_LEN v)).
    { assert (L : length (piece (vJOINT_RAND_LEN v) k (repeat (f0 : F P) (vJOINT_RAND_LEN v * proofs))) = vJOINT_RAND_LEN v)
        by (apply piece_length with proofs; [apply repeat_length | exact Hk]).
      apply (vec_eq (vJOINT_RAND_LEN v)); [exact L | apply repeat_length |]. intros i Hi.
      unfold piece. rewrite nth_slice by lia. now rewrite !nth_repeat. }
    rewrite E. now apply (SumVec_zero_lucky HP).
  - intros jr k Lj Hk Hb Hn. split.
    + intros H i Hi. apply (SumVec_one_bad HP len chunk max Hl Hc Hm vector _ k); try assumption; [now apply piece_length with proofs | now apply H].
    + intros H i Hi. apply (SumVec_one_bad HP len chunk max Hl Hc Hm vector _ k); try assumption; [now apply piece_length with proofs | now apply H].
Qed.
Print Assumptions C99_sumvec.

(** With a hash function that is constantly zero the joint randomness is zero:
    a vector that encodes no measurement is accepted for a measurement of 25,
    though the maximum is 3. *)
Definition zero_ts : TurboShake := fun _ _ _ => x00.
Definition toy_ts : TurboShake := fun m _ i => nth (i * i mod 97) (m ++ zeros 97) x07.
Definition C99_attempt (ts : TurboShake) : res (list Z) :=
  let p := prio3_obj Field128 3 (SumVec Field128 1 3 2) ts 50 2 1 in
  let* report := p3_shard (raw p) [x01] [fof (P := Field128) 7; fof (P := Field128) 9] (zeros 16) (repeat x09 128) in
  run_vdaf (sending (Prio3Vdaf p)) (repeat x05 32) tt [x01] [(report, zeros 16, [])].
Definition C99_lucky := Eval vm_compute in C99_attempt zero_ts.
Definition C99_unlucky := Eval vm_compute in C99_attempt toy_ts.
Example C99_example : C99_lucky = Ok [25%Z] /\ C99_unlucky = Raise (ValueError "proof verifier check failed").
Proof. split; reflexivity. Qed.
Print Assumptions C99_example.

Example C99_hypotheses : std_circuit Field128 (SumVec Field128 1 3 2) /\ EVAL_OUTPUT_LEN (SumVec Field128 1 3 2) = 1 /\
  length [fof (P := Field128) 7; fof (P := Field128) 1] = vMEAS_LEN (SumVec Field128 1 3 2) /\
  ~ is_bit (fof (P := Field128) 7) /\ is_bit (fof (P := Field128) 1).
Proof.
  split; [eapply (std_SumVec _ 1 3 2); [reflexivity | vm_compute; discriminate]|]. split; [reflexivity|]. split; [reflexivity|]. split.
  - intros [E|E]; apply (f_equal fint) in E; vm_compute in E; discriminate E.
  - right. reflexivity.
Qed.
Print Assumptions C99_hypotheses.
