(** Property C86: the listings in the text of the document and the reference code. *)
From Verif Require Import Draft DraftSpec DraftFacts DraftRun Prio3Spec Poplar1Inst Props_Prio3 CommonFacts Roots.
From Coq Require Import Lia.
Open Scope nat_scope.

(** C86.  The XOFs.  XofTurboShake128 as listed gives the same bytes whenever at least
    one byte is asked for, and therefore the same seeds and vectors;
    XofFixedKeyAes128 as listed is the code's. *)
Theorem C86_turboshake : forall ts bound seed dst binder,
  let D := DraftXofTurboShake128 ts bound in let C := XofTurboShake128 ts bound in
  xof_init D seed dst binder = xof_init C seed dst binder /\
  (forall st len, 0 < len -> xof_next D st len = xof_next C st len) /\
  derive_seed D seed dst binder = derive_seed C seed dst binder /\
  (forall P len, 0 < ENCODED_SIZE P -> expand_into_vec D P seed dst binder len = expand_into_vec C P seed dst binder len).
Proof.
  intros ts bound seed dst binder D C. split; [apply draft_ts_init|]. split; [intros; now apply draft_next|].
  split; [apply draft_ts_derive|]. intros. now apply draft_ts_expand.
Qed.
Print Assumptions C86_turboshake.

(** Asked for no bytes, the listing returns everything that was read before. *)
Theorem C86_turboshake_refuted : forall ts bound m l,
  xof_next (XofTurboShake128 ts bound) (m, l) 0 = Ok ([], (m, l + 0)) /\
  xof_next (DraftXofTurboShake128 ts bound) (m, l) 0 = Ok (stream_bytes (ts m 1%Z) 0 l, (m, l + 0)).
Proof.
  intros ts bound m l. split; [reflexivity|]. cbn. unfold last_n. cbn [Nat.eqb]. now rewrite !Nat.add_0_r.
Qed.
Print Assumptions C86_turboshake_refuted.

Theorem C86_fixedkey : forall ts aes bound seed dst binder,
  let D := DraftXofFixedKeyAes128 ts aes bound in let C := XofFixedKeyAes128 ts aes bound in
  xof_init D seed dst binder = xof_init C seed dst binder /\
  (forall st len, xof_next D st len = xof_next C st len).
Proof. intros. split; [apply draft_aes_init|reflexivity]. Qed.
Print Assumptions C86_fixedkey.

(** The circuits of the document with the methods as listed. *)
Inductive listing {P : NttFieldClass} : forall v : Valid P, (vMeasurement v -> res (list (F P))) ->
  (list (F P) -> res (list (F P))) -> (list (F P) -> list (F P) -> nat -> prog P (list (F P))) -> Prop :=
| L_Count : let d := DraftCount P in listing (Count P) (valid_encode d) (valid_truncate d) (valid_eval d)
| L_Sum max : let d := DraftSum P max in listing (Sum P max) (valid_encode d) (valid_truncate d) (valid_eval d)
| L_SumVec len max chunk : let d := DraftSumVec P len max chunk in
    listing (SumVec P len max chunk) (valid_encode d) (valid_truncate d) (valid_eval d)
| L_Histogram len chunk : let d := DraftHistogram P len chunk in
    listing (Histogram P len chunk) (valid_encode d) (valid_truncate d) (valid_eval d)
| L_Multihot len mw chunk : let d := DraftMultihotCountVec P len mw chunk in
    listing (MultihotCountVec P len mw chunk) (valid_encode d) (valid_truncate d) (valid_eval d).

Lemma listing_same {P} (v : Valid P) enc trunc ev : listing v enc trunc ev -> circuit_same v enc trunc ev.
Proof.
  intros []; [apply count_same|apply sum_same|apply sumvec_same|apply histogram_same|apply multihot_same].
Qed.

(** C86.  Every algorithm of the FLP, as listed, does what the code does, unless the
    code raises an exception in a line that the document leaves out. *)
Theorem C86_flp : forall P (v : Valid P) enc trunc ev, listing v enc trunc ev ->
  let code := FlpBBCGGI19 v in let listed := DraftFlp (relist v enc trunc ev) in
  (forall m, same_unless_removed (flp_encode code m) (flp_encode listed m)) /\
  (forall meas, same_unless_removed (flp_truncate code meas) (flp_truncate listed meas)) /\
  (forall meas prove_rand joint_rand,
     same_unless_removed (flp_prove code meas prove_rand joint_rand) (flp_prove listed meas prove_rand joint_rand)) /\
  (forall meas proof query_rand joint_rand n,
     same_unless_removed (flp_query code meas proof query_rand joint_rand n) (flp_query listed meas proof query_rand joint_rand n)) /\
  (forall verifier, same_unless_removed (flp_decide code verifier) (flp_decide listed verifier)).
Proof.
  intros P v enc trunc ev H code listed. apply listing_same in H.
  split; [exact (proj1 H)|]. split; [exact (proj1 (proj2 H))|].
  split; [intros; now apply prove_same|]. split; [intros; now apply query_same|]. intros; apply decide_same.
Qed.
Print Assumptions C86_flp.

(** C86.  A whole execution of Prio3 as the document lists it. *)
Theorem C86_prio3 : forall P (v : Valid P) enc trunc ev, listing v enc trunc ev -> 0 < ENCODED_SIZE P ->
  forall ID ts bound shares proofs key ctx ms,
  same_unless_removed (run_vdaf (Prio3Vdaf (prio3_obj P ID v ts bound shares proofs)) key tt ctx ms)
    (draft_run_vdaf (Prio3Vdaf (draft_prio3 ID (relist v enc trunc ev) ts bound shares proofs)) key tt ctx ms).
Proof. intros P v enc trunc ev H HP ID ts bound shares proofs key ctx ms. apply s_run; [now apply listing_same|exact HP]. Qed.
Print Assumptions C86_prio3.

(** C86.  The same for Poplar1. *)
Theorem C86_poplar1 : forall ts aes bound bits key ap ctx ms,
  same_unless_removed (run_vdaf (p1_vdaf (p1_obj ts aes bound bits)) key ap ctx ms)
    (draft_run_vdaf (p1_vdaf (draft_poplar1 ts aes bound bits)) key ap ctx ms).
Proof. intros. apply p_run. Qed.
Print Assumptions C86_poplar1.

(** In particular what the code computes the listing computes. *)
Theorem C86_computes : forall A (code listing : res A), same_unless_removed code listing ->
  (forall x, code = Ok x -> listing = Ok x) /\ (forall e, code = Raise e -> ~ removed e -> listing = Raise e).
Proof.
  intros A code listing [E|(e & E & He)]; split.
  - congruence.
  - intros e E' _. congruence.
  - congruence.
  - intros e' E' H. replace e' with e in H by congruence. contradiction.
Qed.
Print Assumptions C86_computes.

(** C86.  The listed Prio3Count counts (C29): on valid measurements it returns their
    sum, unless the model's loop bound or a forbidden test point is hit. *)
Theorem C86_count : forall ts bound shares key ctx ms, 2 <= shares < 256 -> ctx_ok ctx -> length key = 32 ->
  let p := prio3_obj Field64 1 (Count Field64) ts bound shares 1 in sizes_ok p ms ->
  Forall (fun m => m = 0 \/ m = 1)%Z (map meas_of ms) ->
  let run := draft_run_vdaf (Prio3Vdaf (draft_prio3 1 (DraftCount Field64) ts bound shares 1)) key tt ctx ms in
  run = Ok (zsuml (map meas_of ms) mod MODULUS Field64)%Z \/ ran_out p \/
  exists m nonce rand, In (m, nonce, rand) ms /\ bad_query p (test_points_ok (Count Field64)) key ctx nonce.
Proof.
  intros ts bound shares key ctx ms Hs Hc Hk p Hz Hm run.
  destruct (proj2 (C29_count ts bound shares key ctx ms Hs) Hc Hk Hz Hm) as [E|[[_ E]|(msg & _ & E)]].
  - left. refine (proj1 (C86_computes _ _ _ (C86_prio3 _ _ _ _ _ L_Count _ 1%Z ts bound shares 1 key ctx ms)) _ E).
    cbn; lia.
  - right; now left.
  - right; now right.
Qed.
Print Assumptions C86_count.

(** What the omitted lines are there for: without them a vector with the entry -1 is
    encoded like another, valid vector, and the number 2 is encoded as a count. *)
Theorem C86_checks_refuted :
  valid_encode (DraftSumVec Field128 1 255 1) [(-1)%Z] = valid_encode (SumVec Field128 1 255 1) [127%Z] /\
  is_ok (valid_encode (DraftSumVec Field128 1 255 1) [(-1)%Z]) = true /\
  valid_encode (SumVec Field128 1 255 1) [(-1)%Z] = Raise (ValueError "entry of measurement vector is out of range") /\
  is_ok (valid_encode (DraftCount Field64) 2%Z) = true /\
  valid_encode (Count Field64) 2%Z = Raise (ValueError "measurement out of range") /\
  (exists verifier, draft_decide (DraftCount Field64) verifier = Ok true /\ bbcggi19_decide (Count Field64) verifier = Raise AssertionError).
Proof.
  split; [reflexivity|]. split; [reflexivity|]. split; [reflexivity|]. split; [reflexivity|]. split; [reflexivity|].
  exists (repeat f0 5). split; reflexivity.
Qed.
Print Assumptions C86_checks_refuted.

(** The hypotheses are met: a run of the listed Prio3Count. *)
Definition c86_outcome : res Z := Eval vm_compute in
  draft_run_vdaf (Prio3Vdaf (draft_prio3 1 (DraftCount Field64) (fun m d i => z2b ((Z.of_nat i + Z.of_nat (length m)) mod 251)) 50 2 1))
    (repeat x00 32) tt [] [(1%Z, repeat x00 16, repeat x00 64); (1%Z, repeat x01 16, repeat x00 64)].
Example C86_example : c86_outcome = Ok 2%Z /\
  sizes_ok (prio3_obj Field64 1 (Count Field64) (fun m d i => x00) 50 2 1)
    [(1%Z, repeat x00 16, repeat x00 64); (1%Z, repeat x01 16, repeat x00 64)].
Proof. split; [reflexivity|]. repeat constructor. Qed.
