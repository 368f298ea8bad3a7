(** What all Aggregators of Prio3 but one, together with the Collector, learn from a
    batch. *)
From Verif Require Import BatchSpec BatchFacts CollectSpec CollectFacts Prio3 Prio3Spec Prio3Facts Prio3Run Prio3Inst Prio3ViewSpec Prio3ViewFacts Vdaf RunSpec RunFacts.
From Verif Require Import FlpSpec FlpBBCGGI19 Flp Field Spec FieldFacts VecFacts BaseFacts Circuits CircuitSpec MeasSpec FlpInstances ZkSpec.
From Verif Require Props_Zk.
From Coq Require Import Lia.
Open Scope nat_scope.

(** C103.  All Aggregators but number [j] and the Collector pool what they see of a
    batch: their shares of each report, all verifiers, and the aggregate share of
    Aggregator [j].  For two batches of valid measurements with the same sum, each
    view of the first arises from exactly one choice of the coins for the second. *)
Theorem C103_coalition : forall P : NttFieldClass, NttOk P -> forall v : Valid P, ValidOk v -> truncate_linear v ->
  forall (X : XofClass) (ID : Z) (vks n m : nat), 1 <= n -> (Z.of_nat n < MODULUS P)%Z ->
  let p := {| p3_field := P; p3_flp := FlpBBCGGI19 v; p3_xof := X; p3_ID := ID;
              p3_VERIFY_KEY_SIZE := vks; p3_SHARES := n; p3_PROOFS := m |} in
  forall j, j < n -> forall rs rs' : list (batch_report p), map public_coins rs = map public_coins rs' ->
  Forall (report_valid p (test_points_ok v) (circuit_zero v)) rs -> Forall (report_valid p (test_points_ok v) (circuit_zero v)) rs' ->
  batch_total p rs = batch_total p rs' ->
  forall cs, length cs = length rs -> Forall (p3_coins_wf p) cs ->
  exists seen, batch_view p j rs cs = Ok seen /\
  exists cs', length cs' = length rs' /\ Forall (p3_coins_wf p) cs' /\ batch_view p j rs' cs' = Ok seen /\
    forall cs'', length cs'' = length rs' -> Forall (p3_coins_wf p) cs'' -> batch_view p j rs' cs'' = Ok seen -> cs'' = cs'.
Proof. exact @batch_coalition. Qed.
Print Assumptions C103_coalition.

(** C103.  Nothing less than the sum is revealed: batches that can give the same view
    have the same sum. *)
Theorem C103_exact : forall P : NttFieldClass, NttOk P -> forall v : Valid P, ValidOk v -> truncate_linear v ->
  forall (X : XofClass) (ID : Z) (vks n m : nat), 1 <= n ->
  let p := {| p3_field := P; p3_flp := FlpBBCGGI19 v; p3_xof := X; p3_ID := ID;
              p3_VERIFY_KEY_SIZE := vks; p3_SHARES := n; p3_PROOFS := m |} in
  forall j, j < n -> forall rs rs' : list (batch_report p),
  Forall (report_valid p (test_points_ok v) (circuit_zero v)) rs -> Forall (report_valid p (test_points_ok v) (circuit_zero v)) rs' ->
  forall cs cs' seen, length cs = length rs -> Forall (p3_coins_wf p) cs -> length cs' = length rs' -> Forall (p3_coins_wf p) cs' ->
  batch_view p j rs cs = Ok seen -> batch_view p j rs' cs' = Ok seen -> batch_total p rs = batch_total p rs'.
Proof. intros P HP v HV HT X ID vks n m Hn. exact (batch_determines HP v HV HT X ID vks n m Hn). Qed.
Print Assumptions C103_exact.

(** C103.  For the circuits of the library: two batches of valid measurements that have
    the same aggregate result cannot be told apart. *)
Theorem C103_std : forall P : NttFieldClass, NttOk P -> forall v : Valid P, std_circuit P v ->
  forall (ID : Z) (ts : TurboShake) (bound shares proofs : nat), 1 <= shares -> (Z.of_nat shares < MODULUS P)%Z ->
  let p := prio3_obj P ID v ts bound shares proofs in
  forall j, j < shares -> forall rs rs' : list (batch_report p), map public_coins rs = map public_coins rs' ->
  Forall (report_valid p (test_points_ok v) (fun meas _ => accepts v meas)) rs ->
  Forall (report_valid p (test_points_ok v) (fun meas _ => accepts v meas)) rs' -> 
  forall result, (let* total := batch_total p rs in valid_decode v total (length rs)) = Ok result ->
  (let* total := batch_total p rs' in valid_decode v total (length rs')) = Ok result ->
  forall cs, length cs = length rs -> Forall (p3_coins_wf p) cs ->
  exists seen, batch_view p j rs cs = Ok seen /\
  exists cs', length cs' = length rs' /\ Forall (p3_coins_wf p) cs' /\ batch_view p j rs' cs' = Ok seen /\
    forall cs'', length cs'' = length rs' -> Forall (p3_coins_wf p) cs'' -> batch_view p j rs' cs'' = Ok seen -> cs'' = cs'.
Proof.
  intros P HP v HS ID ts bound n m Hn HnM p j Hj rs rs' EP V V' result E E'.
  destruct (std_ok HP v HS) as [HV HT].
  assert (K : forall rs : list (batch_report p), Forall (report_valid p (test_points_ok v) (fun meas _ => accepts v meas)) rs ->
    Forall (report_valid p (test_points_ok v) (circuit_zero v)) rs).
  { intros l. apply Forall_impl. intros [[meas qr] jr] (A & B & C & D). split; [exact A|]. split; [exact B|]. split; [exact C|].
    intros k Hk. destruct (D k Hk) as [D1 D2]. split; [exact D1|]. apply D2. exact (piece_length (vJOINT_RAND_LEN v) k m jr C Hk). }
  apply (batch_coalition HP v HV HT _ ID 32 n m Hn HnM j Hj rs rs' EP (K rs V) (K rs' V')).
  apply bind_Ok in E. destruct E as (t & ET & ED). apply bind_Ok in E'. destruct E' as (t' & ET' & ED').
  refine (eq_trans ET (eq_trans _ (eq_sym ET'))). f_equal. 
  unfold batch_total in ET, ET'. apply bind_Ok in ET. destruct ET as (o & _ & ET). apply bind_Ok in ET'. destruct ET' as (o' & _ & ET').
  apply (std_decode_inj v HS t t' (length rs) (length rs') result); [| |exact ED|exact ED'].
  - assert (X := f_equal getl ET). cbn [getl] in X. refine (eq_trans (f_equal (@length _) (eq_sym X)) _). apply vsum_length.
  - assert (X := f_equal getl ET'). cbn [getl] in X. refine (eq_trans (f_equal (@length _) (eq_sym X)) _). apply vsum_length.
Qed.
Print Assumptions C103_std.

(** C103.  What run_vdaf() does with a batch is such a view: the reports are those that
    shard() makes, the coins are what the XOF expands, the aggregate share is that of
    Aggregator [j], and the result is decoded from the sum. *)
Theorem C103_real : forall (P : NttFieldClass), NttOk P -> wf_field P ->
  forall (ID : Z) (ts : TurboShake) (bound shares proofs : nat), (0 <= ID < 2 ^ 32)%Z ->
  2 <= shares < 256 -> (Z.of_nat shares < MODULUS P)%Z -> proofs < 256 ->
  forall v, std_circuit P v -> let p := prio3_obj P ID v ts bound shares proofs in
  forall (key ctx : bytes) ms result, ctx_ok ctx -> run_vdaf (Prio3Vdaf p) key tt ctx ms = Ok result ->
  exists (aggs : list (list (F P))) (rs : list (batch_report p)) (cs : list (p3_coins p)),
    aggregate_shares (Prio3Vdaf p) ctx tt key ms = Ok aggs /\
    length rs = length ms /\ length cs = length ms /\
    (forall i report r c, nth_error ms i = Some report -> nth_error rs i = Some r -> nth_error cs i = Some c ->
       report_real p key ctx report r c) /\
    (let* total := batch_total p rs in valid_decode v total (length rs)) = Ok result /\
    forall j, j < shares -> exists views, batch_view p j rs cs = Ok (views, nth j aggs []).
Proof.
  intros P HP HW ID ts bound shares proofs HID Hs HsM Hpr v Hv p key ctx ms result Hc H.
  destruct (std_ok HP v Hv) as [HV HT].
  assert (HO : Prio3Ok p (obj_lim P bound)) by now apply obj_ok.
  assert (HF : FlpOk (p3_flp p) (test_points_ok v) (circuit_zero v)) by now apply std_flp.
  assert (HE : forall m meas, flp_encode (p3_flp p) m = Ok meas -> length meas = MEAS_LEN (p3_flp p)) by (intros m meas E; exact (std_encode_length v Hv m meas E)).
  destruct (run_shares p _ HO _ _ HF HE key ctx ms result Hc H) as (aggs & EA & ED).
  destruct (real_batch HP v HV HT _ ID 32 shares proofs ltac:(lia) (obj_lim P bound) HO HE key ctx ms aggs Hc EA) as (rs & cs & L1 & L2 & A & B & C).
  exists aggs, rs, cs. split; [exact EA|]. split; [exact L1|]. split; [exact L2|]. split; [exact A|]. split; [|exact C].
  refine (eq_trans (f_equal (fun z => bind z _) B) _). cbn [bind]. exact (eq_trans (f_equal (fun k => valid_decode v _ k) L1) ED).
Qed.
Print Assumptions C103_real.

Definition toy_ts : TurboShake := fun m _ i => nth (i * i mod 97) (m ++ zeros 97) x07.
(** Two Clients and two Aggregators: the measurements 1, 0 and 0, 1 give Helper 1 and
    the Collector the same view, the measurements 1, 1 another one. *)
Definition C103_p : Prio3 := prio3_obj Field64 1 (Count Field64) toy_ts 50 2 1.
Definition C103_rs (a b : F Field64) : list (batch_report C103_p) := [([a], [fof 3], []); ([b], [fof 3], [])].
Definition C103_proof : list (list (F Field64)) := [map fof [1; 2; 3; 4; 5]%Z].
Definition C103_c (x y h : Z) : p3_coins C103_p := (map fof [x; y]%Z, [[fof h]], C103_proof).
Definition C103_half : Z := 9223372034707292161.
Definition C103_ints (r : res (list (list (list (F Field64)) * list (list (F Field64)) * list (list (list (F Field64)))) * list (F Field64))) :=
  match r with
  | Ok (ws, agg) => Some (map (fun '(a, b, c) => (map (map val) a, map (map val) b, map (map (map val)) c)) ws, map val agg)
  | Raise _ => None
  end.
Definition C103_outcome := Eval vm_compute in
  (C103_ints (batch_view C103_p 0 (C103_rs f1 f0) [C103_c 5 7 4; C103_c 5 7 9]),
   C103_ints (batch_view C103_p 0 (C103_rs f0 f1) [C103_c (5 - C103_half) (7 - C103_half) 4; C103_c (5 + C103_half) (7 + C103_half) 9]),
   C103_ints (batch_view C103_p 0 (C103_rs f1 f1) [C103_c 5 7 4; C103_c (5 + C103_half) (7 + C103_half) 9])).
Example C103_example : exists views, C103_outcome = (Some (views, [18446744069414584309]), Some (views, [18446744069414584309]),
  Some (views, [18446744069414584310]))%Z.
Proof. eexists. reflexivity. Qed.
(** The hypotheses of C103_std are met. *)
Example C103_example_valid : forall a b, In (a, b) [(f1, f0); (f0, f1)] ->
  Forall (report_valid C103_p (test_points_ok (Count Field64)) (fun meas _ => accepts (Count Field64) meas)) (C103_rs a b).
Proof.
  destruct Props_Zk.C63_coins as (_ & _ & A1 & A0 & T).
  intros a b H. assert (accepts (Count Field64) [a] /\ accepts (Count Field64) [b]) as [Ha Hb]
    by (destruct H as [[= <- <-]|[[= <- <-]|[]]]; split; assumption).
  constructor; [|constructor; [|constructor]];
    (split; [reflexivity|]; split; [reflexivity|]; split; [reflexivity|]);
    intros k Hk; (assert (k = 0) as -> by (cbn in Hk; lia)); (split; [exact T|assumption]).
Qed.
Example C103_example_coins : Forall (p3_coins_wf C103_p) [C103_c 5 7 4; C103_c (5 + C103_half) (7 + C103_half) 9].
Proof.
  constructor; [|constructor; [|constructor]]; (split; [reflexivity|]; split; (split; [reflexivity|]); repeat constructor).
Qed.
