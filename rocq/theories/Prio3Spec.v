(** Vocabulary for the Prio3 properties.  Nothing here models a /repo function. *)
From Verif Require Export Prio3 FlpSpec XofSpec CodecProofs.
Open Scope nat_scope.

(** The [k]-th piece of length [len]. *)
Definition piece {A} (len k : nat) (v : list A) : list A := slice v (k * len) (k * len + len).

(** What the theorems assume of a Prio3 object: a well-behaved XOF and field,
    and parameters in the documented ranges. *)
Record Prio3Ok (p : Prio3) (lim : Z) : Prop := {
  po_xof : XofOk (p3_xof p) lim;
  po_lim : (Z.of_nat (loop_bound (p3_xof p) * ENCODED_SIZE (p3_field p)) < lim)%Z;
  po_seed_lim : (Z.of_nat (SEED_SIZE (p3_xof p)) < lim)%Z;
  po_seed : 0 < SEED_SIZE (p3_xof p);
  po_field : wf_field (p3_field p);
  po_shares : 2 <= p3_SHARES p < 256;
  po_shares_field : (Z.of_nat (p3_SHARES p) < MODULUS (p3_field p))%Z;
  po_proofs : p3_PROOFS p < 256;
  po_ID : (0 <= p3_ID p < 2 ^ 32)%Z;
  po_key : p3_VERIFY_KEY_SIZE p = SEED_SIZE (p3_xof p);
}.

(** The application context is short enough for the XOF's length prefix. *)
Definition ctx_ok (ctx : bytes) : Prop := (Z.of_nat (length ctx) + 8 < 65536)%Z.

(** The lengths of the vectors a Prio3 object expands from seeds. *)
Definition expansion_lens (p : Prio3) : list nat :=
  [MEAS_LEN (p3_flp p); PROOF_LEN (p3_flp p) * p3_PROOFS p; PROVE_RAND_LEN (p3_flp p) * p3_PROOFS p;
   QUERY_RAND_LEN (p3_flp p) * p3_PROOFS p; JOINT_RAND_LEN (p3_flp p) * p3_PROOFS p].
(** Some expansion hit the model's bound on the rejection-sampling loop. *)
Definition ran_out (p : Prio3) : Prop :=
  exists seed dst binder len, In len (expansion_lens p) /\
    expand_into_vec (p3_xof p) (p3_field p) seed dst binder len = Raise OutOfFuel.

(** A blind (or joint randomness part) is present iff joint randomness is used. *)
Definition blind_wf (p : Prio3) (b : option bytes) : Prop :=
  if 0 <? JOINT_RAND_LEN (p3_flp p) then exists s, b = Some s /\ length s = SEED_SIZE (p3_xof p)
  else b = None.
Definition input_share_wf (p : Prio3) (agg_id : nat) (s : Prio3InputShare (p3_field p)) : Prop :=
  match s with
  | Leader ms ps b => agg_id = 0 /\ length ms = MEAS_LEN (p3_flp p) /\
      length ps = PROOF_LEN (p3_flp p) * p3_PROOFS p /\ blind_wf p b
  | Helper s b => agg_id <> 0 /\ length s = SEED_SIZE (p3_xof p) /\ blind_wf p b
  end.
Definition public_share_wf (p : Prio3) (s : option (list bytes)) : Prop :=
  if 0 <? JOINT_RAND_LEN (p3_flp p)
  then exists parts, s = Some parts /\ length parts = p3_SHARES p /\
    Forall (fun x => length x = SEED_SIZE (p3_xof p)) parts
  else s = None.

(** The outcome of sharding the encoded measurement [meas]: measurement and
    proof shares, blinds, the seed of the prove randomness, the prove and joint
    randomness, and the proofs. *)
Record Report (p : Prio3) (ctx : bytes) (meas : list (F (p3_field p))) (nonce rand : bytes)
  (public_share : option (list bytes)) (input_shares : list (Prio3InputShare (p3_field p)))
  (meas_shares proof_shares : list (list (F (p3_field p)))) (blinds : list (option bytes))
  (prove_seed : bytes) (prove_rand joint_rand : list (F (p3_field p)))
  (proofs : list (list (F (p3_field p)))) : Prop := {
  (* one input share per Aggregator, expanding to that Aggregator's shares *)
  rp_len : length input_shares = p3_SHARES p;
  rp_wf : forall j d, j < p3_SHARES p -> input_share_wf p j (nth j input_shares d);
  rp_public : public_share_wf p public_share;
  rp_meas_vecs : vecs (p3_SHARES p) (MEAS_LEN (p3_flp p)) meas_shares;
  rp_proof_vecs : vecs (p3_SHARES p) (PROOF_LEN (p3_flp p) * p3_PROOFS p) proof_shares;
  rp_expand : forall j, j < p3_SHARES p -> forall d,
    expand_input_share p ctx j (nth j input_shares d)
    = Ok (nth j meas_shares [], nth j proof_shares [], nth j blinds None);
  (* the shares add up *)
  rp_meas : vsum (MEAS_LEN (p3_flp p)) meas_shares = meas;
  rp_proof : vsum (PROOF_LEN (p3_flp p) * p3_PROOFS p) proof_shares = concat proofs;
  (* the proofs *)
  rp_proofs : length proofs = p3_PROOFS p;
  rp_prove_rand : prove_rands p ctx prove_seed = Ok prove_rand;
  rp_prove : forall k, k < p3_PROOFS p ->
    flp_prove (p3_flp p) meas (piece (PROVE_RAND_LEN (p3_flp p)) k prove_rand)
      (piece (JOINT_RAND_LEN (p3_flp p)) k joint_rand) = Ok (nth k proofs []);
  (* joint randomness *)
  rp_joint : if 0 <? JOINT_RAND_LEN (p3_flp p)
    then exists parts seed, public_share = Some parts /\ length parts = p3_SHARES p /\
      (forall j, j < p3_SHARES p -> exists blind, nth j blinds None = Some blind /\
        length blind = SEED_SIZE (p3_xof p) /\
        joint_rand_part p ctx j blind (nth j meas_shares []) nonce = Ok (nth j parts []) /\
        length (nth j parts []) = SEED_SIZE (p3_xof p)) /\
      joint_rand_seed p ctx parts = Ok seed /\ joint_rands p ctx seed = Ok joint_rand
    else public_share = None /\ joint_rand = [] /\ blinds = repeat None (p3_SHARES p);
  (* the random string is used up: the helpers' seeds (and blinds), the
     leader's blind, the prove seed *)
  rp_rand : rand =
    concat (map (fun j => match nth j input_shares (Helper [] None) with
                          | Helper share (Some blind) => share ++ blind
                          | Helper share None => share
                          | Leader _ _ _ => []
                          end) (seq 1 (p3_SHARES p - 1)))
    ++ match nth 0 blinds None with Some b => b | None => [] end ++ prove_seed;
}.

(** The query randomness of the report with this nonce contains a piece that
    query() rejects. *)
Definition bad_query (p : Prio3) (good : list (F (p3_field p)) -> Prop) (verify_key ctx nonce : bytes) : Prop :=
  exists qr k, query_rands p verify_key ctx nonce = Ok qr /\ k < p3_PROOFS p /\
    ~ good (piece (QUERY_RAND_LEN (p3_flp p)) k qr).

(** A run of Prio3 ends with [r], unless the derived query randomness of one
    of the reports is rejected, or a rejection-sampling loop hits the model's
    bound. *)
Definition run_result (p : Prio3) (good : list (F (p3_field p)) -> Prop) (verify_key ctx : bytes)
  (ms : list (Measurement (p3_flp p) * bytes * bytes)) (r : AggResult (p3_flp p)) : Prop :=
  run_vdaf (Prio3Vdaf p) verify_key tt ctx ms = Ok r \/
  (run_vdaf (Prio3Vdaf p) verify_key tt ctx ms = Raise OutOfFuel /\ ran_out p) \/
  (exists msg, run_vdaf (Prio3Vdaf p) verify_key tt ctx ms = Raise (ValueError msg) /\
     exists m nonce rand, In (m, nonce, rand) ms /\ bad_query p good verify_key ctx nonce).

(** Nonce and randomness of every report have the right sizes. *)
Definition sizes_ok (p : Prio3) {M} (ms : list (M * bytes * bytes)) : Prop :=
  Forall (fun '(_, nonce, rand) => length nonce = p3_NONCE_SIZE /\ length rand = RAND_SIZE p) ms.

(** The Prio3 object a constructor returns. *)
Definition prio3_obj (field : NttFieldClass) (ID : Z) (v : Valid field) (ts : TurboShake) (bound : nat)
  (shares : nat) (proofs : nat) : Prio3 := {|
  p3_field := field; p3_flp := FlpBBCGGI19 v; p3_xof := XofTurboShake128 ts bound; p3_ID := ID;
  p3_VERIFY_KEY_SIZE := 32; p3_SHARES := shares; p3_PROOFS := proofs |}.

(** [dec] accepts exactly the encodings of the values satisfying [W], each
    value has one encoding and each string decodes to one value. *)
Definition canonical_codec {A} (W : A -> Prop) (enc : A -> res bytes) (dec : bytes -> res A) : Prop :=
  (forall v, W v -> exists b, enc v = Ok b /\ dec b = Ok v) /\
  (forall b v, dec b = Ok v -> W v /\ enc v = Ok b).

Definition verifier_share_wf (p : Prio3) (s : list (F (p3_field p)) * option bytes) : Prop :=
  length (fst s) = VERIFIER_LEN (p3_flp p) * p3_PROOFS p /\ blind_wf p (snd s).

(** Histories of aggregation: [aggregated v ap outs share] says that [share] was
    obtained from the output shares [outs] by some sequence of agg_init,
    agg_update and merge calls. *)
Inductive aggregated (v : Vdaf) (ap : vd_AggParam v) : list (vd_OutShare v) -> vd_AggShare v -> Prop :=
| ag_init a : vd_agg_init v ap = Ok a -> aggregated v ap [] a
| ag_update os a o a' : aggregated v ap os a -> vd_agg_update v ap a o = Ok a' ->
    aggregated v ap (os ++ [o]) a'
| ag_merge oss shares a : aggregated_all v ap oss shares -> vd_merge v ap shares = Ok a ->
    aggregated v ap (concat oss) a
with aggregated_all (v : Vdaf) (ap : vd_AggParam v) : list (list (vd_OutShare v)) -> list (vd_AggShare v) -> Prop :=
| aga_nil : aggregated_all v ap [] []
| aga_cons os a oss shares : aggregated v ap os a -> aggregated_all v ap oss shares ->
    aggregated_all v ap (os :: oss) (a :: shares).
Scheme aggregated_mind := Induction for aggregated Sort Prop
with aggregated_all_mind := Induction for aggregated_all Sort Prop.

(** Two inputs of a seed derivation with the same output. *)
Definition seed_collision (X : XofClass) : Prop :=
  exists seed dst b b' s, b <> b' /\ derive_seed X seed dst b = Ok s /\ derive_seed X seed dst b' = Ok s.

(** The verifiers that an Aggregator computes for the [PROOFS] proofs, given
    the query and the joint randomness. *)
Definition proof_verifiers (p : Prio3) (meas_share proofs_share query_rand joint_rand : list (F (p3_field p)))
  : res (list (list (F (p3_field p)))) :=
  mapM (fun k => flp_query (p3_flp p) meas_share (piece (PROOF_LEN (p3_flp p)) k proofs_share)
                   (piece (QUERY_RAND_LEN (p3_flp p)) k query_rand)
                   (piece (JOINT_RAND_LEN (p3_flp p)) k joint_rand) (p3_SHARES p))
    (seq 0 (p3_PROOFS p)).

(** The longest message fits the length prefix of the ping-pong codec. *)
Definition p3_message_fits (p : Prio3) : Prop :=
  (Z.of_nat (VERIFIER_LEN (p3_flp p) * p3_PROOFS p * ENCODED_SIZE (p3_field p) + SEED_SIZE (p3_xof p)) < 2 ^ 32)%Z.

(** Output shares of the right length. *)
Definition outs_ok (p : Prio3) (os : list (list (F (p3_field p)))) : Prop := Forall (fun o => length o = OUTPUT_LEN (p3_flp p)) os.

(** The measurement of a report. *)
Definition meas_of {M} (r : M * bytes * bytes) : M := fst (fst r).
