(** What the Collector sees of a Prio3 batch. *)
From Verif Require Import CollectSpec CollectFacts Prio3 Prio3Spec Prio3Facts Prio3Run Prio3Inst Prio3ViewSpec Prio3ViewFacts Vdaf RunSpec RunFacts.
From Verif Require Import FlpSpec FlpBBCGGI19 Flp Field Spec FieldFacts VecFacts BaseFacts Circuits CircuitSpec MeasSpec FlpInstances.
From Coq Require Import Lia.
Open Scope nat_scope.

(** C88.  Whatever the reports are, a Helper's aggregate share is the sum of what it
    expands from the seeds that the Clients drew for it; the measurements, the nonces
    and the verification key do not enter. *)
Theorem C88_helper_shares : forall (p : Prio3) (lim : Z), Prio3Ok p lim ->
  forall good valid, FlpOk (p3_flp p) good valid ->
  (forall m meas, flp_encode (p3_flp p) m = Ok meas -> length meas = MEAS_LEN (p3_flp p)) ->
  forall (key ctx : bytes) ms (aggs : list (list (F (p3_field p)))), ctx_ok ctx ->
  aggregate_shares (Prio3Vdaf p) ctx tt key ms = Ok aggs ->
  length aggs = p3_SHARES p /\
  forall j, 1 <= j < p3_SHARES p -> exists hs,
    mapM (fun r => helper_out p ctx (rand_of r) j) ms = Ok hs /\ nth j aggs [] = vsum (OUTPUT_LEN (p3_flp p)) hs.
Proof.
  intros p lim HO good valid HF He key ctx ms aggs Hc H. destruct (batch_shares p lim HO good valid HF He key ctx ms aggs Hc H) as [[L _] X].
  split; [exact L|exact X].
Qed.
Print Assumptions C88_helper_shares.

Section Std.
Context (P : NttFieldClass) (HP : NttOk P) (HW : wf_field P).
Context (ID : Z) (HID : (0 <= ID < 2 ^ 32)%Z) (ts : TurboShake) (bound shares proofs : nat).
Context (Hs : 2 <= shares < 256) (HsM : (Z.of_nat shares < MODULUS P)%Z) (Hpr : proofs < 256).
Context (v : Valid P) (Hv : std_circuit P v).
Let p := prio3_obj P ID v ts bound shares proofs.

Lemma obj_is_ok : Prio3Ok p (obj_lim P bound).
Proof. now apply obj_ok. Qed.
Lemma obj_flp : FlpOk (p3_flp p) (test_points_ok v) (circuit_zero v).
Proof. now apply std_flp. Qed.
Lemma obj_encode m meas : flp_encode (p3_flp p) m = Ok meas -> length meas = MEAS_LEN (p3_flp p).
Proof. intros H. exact (std_encode_length v Hv m meas H). Qed.

Theorem collector_view (key ctx : bytes) ms r : ctx_ok ctx -> run_vdaf (Prio3Vdaf p) key tt ctx ms = Ok r ->
  exists (aggs : list (list (F P))) helpers total,
    aggregate_shares (Prio3Vdaf p) ctx tt key ms = Ok aggs /\
    mapM (fun j => let* hs := mapM (fun r => helper_out p ctx (rand_of r) j) ms in Ok (vsum (vOUTPUT_LEN v) hs)) (range 1 shares) = Ok helpers /\
    length total = vOUTPUT_LEN v /\ valid_decode v total (length ms) = Ok r /\
    aggs = leader_first (vOUTPUT_LEN v) total helpers.
Proof.
  intros Hc H. destruct (run_shares p _ obj_is_ok _ _ obj_flp obj_encode key ctx ms r Hc H) as (aggs & EA & ED).
  destruct (batch_shares p _ obj_is_ok _ _ obj_flp obj_encode key ctx ms aggs Hc EA) as [V HH].
  change (p3_SHARES p) with shares in *. change (OUTPUT_LEN (p3_flp p)) with (vOUTPUT_LEN v) in *.
  exists aggs, (tl aggs), (vsum (vOUTPUT_LEN v) aggs). split; [exact EA|]. split; [|split; [apply vsum_length|split; [exact ED|]]].
  - apply mapM_nth_Ok. destruct V as [L _]. destruct aggs as [|a aggs]; [cbn in L; lia|]. cbn [tl length] in *. split; [rewrite length_range; lia|].
    intros i j y Ej Ey. assert (i < shares - 1) by (rewrite <- (length_range 1 shares); apply nth_error_Some; now rewrite Ej).
    apply (nth_error_nth _ _ 0) in Ej. unfold range in Ej. rewrite seq_nth in Ej by lia. subst j. destruct (HH (1 + i) ltac:(lia)) as (hs & -> & X). cbn [bind]. f_equal. rewrite <- X.
    cbn [nth]. now apply nth_error_nth.
  - apply (leader_unique (shares - 1)). replace (S (shares - 1)) with shares by lia. exact V.
Qed.

Theorem collector_independent (key key' ctx : bytes) ms ms' r aggs aggs' : ctx_ok ctx -> map rand_of ms = map rand_of ms' ->
  run_vdaf (Prio3Vdaf p) key tt ctx ms = Ok r -> run_vdaf (Prio3Vdaf p) key' tt ctx ms' = Ok r ->
  aggregate_shares (Prio3Vdaf p) ctx tt key ms = Ok aggs -> aggregate_shares (Prio3Vdaf p) ctx tt key' ms' = Ok aggs' ->
  aggs = aggs'.
Proof.
  intros Hc HR H H' E E'. apply (batch_independent p _ obj_is_ok _ _ obj_flp obj_encode key key' ctx ms ms' aggs aggs' Hc HR E E').
  destruct (run_shares p _ obj_is_ok _ _ obj_flp obj_encode key ctx ms r Hc H) as (a & EA & ED).
  destruct (run_shares p _ obj_is_ok _ _ obj_flp obj_encode key' ctx ms' r Hc H') as (a' & EA' & ED').
  assert (a = aggs) by (rewrite E in EA; now injection EA). assert (a' = aggs') by (rewrite E' in EA'; now injection EA'). subst a a'.
  exact (std_decode_inj v Hv _ _ _ _ _ (vsum_length _ _) (vsum_length _ _) ED ED').
Qed.
End Std.

(** C88.  Prio3 with each of the five circuits: the aggregate shares, which are all the
    Collector gets, can be computed from the aggregate result and from the Helpers'
    seeds alone.  The Helpers' shares are as above, and the Leader's is what remains of
    the vector that decodes to the result. *)
Theorem C88_view : forall (P : NttFieldClass), NttOk P -> wf_field P ->
  forall (ID : Z) (ts : TurboShake) (bound shares proofs : nat), (0 <= ID < 2 ^ 32)%Z ->
  2 <= shares < 256 -> (Z.of_nat shares < MODULUS P)%Z -> proofs < 256 ->
  forall v, std_circuit P v -> let p := prio3_obj P ID v ts bound shares proofs in
  forall (key ctx : bytes) ms r, ctx_ok ctx -> run_vdaf (Prio3Vdaf p) key tt ctx ms = Ok r ->
  exists (aggs : list (list (F P))) helpers total,
    aggregate_shares (Prio3Vdaf p) ctx tt key ms = Ok aggs /\
    mapM (fun j => let* hs := mapM (fun r => helper_out p ctx (rand_of r) j) ms in Ok (vsum (vOUTPUT_LEN v) hs)) (range 1 shares) = Ok helpers /\
    length total = vOUTPUT_LEN v /\ valid_decode v total (length ms) = Ok r /\
    aggs = leader_first (vOUTPUT_LEN v) total helpers.
Proof. intros. now apply collector_view. Qed.
Print Assumptions C88_view.

(** C88.  Hence two batches of reports made with the same randomness that have the same
    aggregate result give the Collector the same aggregate shares, whatever the
    individual measurements, nonces and verification keys were. *)
Theorem C88_independent : forall (P : NttFieldClass), NttOk P -> wf_field P ->
  forall (ID : Z) (ts : TurboShake) (bound shares proofs : nat), (0 <= ID < 2 ^ 32)%Z ->
  2 <= shares < 256 -> (Z.of_nat shares < MODULUS P)%Z -> proofs < 256 ->
  forall v, std_circuit P v -> let p := prio3_obj P ID v ts bound shares proofs in
  forall (key key' ctx : bytes) ms ms' r, ctx_ok ctx -> map rand_of ms = map rand_of ms' ->
  run_vdaf (Prio3Vdaf p) key tt ctx ms = Ok r -> run_vdaf (Prio3Vdaf p) key' tt ctx ms' = Ok r ->
  exists aggs, aggregate_shares (Prio3Vdaf p) ctx tt key ms = Ok aggs /\ aggregate_shares (Prio3Vdaf p) ctx tt key' ms' = Ok aggs.
Proof.
  intros P HP HW ID ts bound shares proofs HID Hs HsM Hpr v Hv p key key' ctx ms ms' r Hc HR H H'.
  destruct (collector_view P HP HW ID HID ts bound shares proofs Hs HsM Hpr v Hv key ctx ms r Hc H) as (aggs & _ & _ & E & _).
  destruct (collector_view P HP HW ID HID ts bound shares proofs Hs HsM Hpr v Hv key' ctx ms' r Hc H') as (aggs' & _ & _ & E' & _).
  pose proof (collector_independent P HP HW ID HID ts bound shares proofs Hs HsM Hpr v Hv key key' ctx ms ms' r aggs aggs' Hc HR H H' E E') as <-.
  exists aggs. split; [exact E|exact E'].
Qed.
Print Assumptions C88_independent.

Definition toy_ts : TurboShake := fun m _ i => nth (i * i mod 97) (m ++ zeros 97) x07.
(** Two batches in which different Clients have the 1, with different nonces and keys. *)
Definition C88_p := prio3_obj Field64 1 (Count Field64) toy_ts 50 2 1.
Definition C88_ms : list (Z * bytes * bytes) := [(1%Z, zeros 16, zeros 64); (0%Z, repeat x01 16, repeat x02 64)].
Definition C88_ms' : list (Z * bytes * bytes) := [(0%Z, repeat x03 16, zeros 64); (1%Z, zeros 16, repeat x02 64)].
Definition C88_ints (r : res (list (list (F Field64)))) : res (list (list Z)) := let* r := r in Ok (map (map fint) r).
Definition C88_outcome := Eval vm_compute in
  (run_vdaf (Prio3Vdaf C88_p) (zeros 32) tt [x01] C88_ms, run_vdaf (Prio3Vdaf C88_p) (repeat x07 32) tt [x01] C88_ms',
   C88_ints (aggregate_shares (Prio3Vdaf C88_p) [x01] tt (zeros 32) C88_ms),
   C88_ints (aggregate_shares (Prio3Vdaf C88_p) [x01] tt (repeat x07 32) C88_ms')).
Example C88_example : map rand_of C88_ms = map rand_of C88_ms' /\
  C88_outcome = (Ok 1%Z, Ok 1%Z, Ok [[18446178911814418416%Z]; [565157600165906%Z]],
                 Ok [[18446178911814418416%Z]; [565157600165906%Z]]).
Proof. split; reflexivity. Qed.
