(** What verified reports contribute.  Nothing here models a /repo function. *)
From Verif Require Export Prio3Spec Poplar1Spec DeploySpec.
Open Scope nat_scope.

(** [out] is the truncation of a vector (the sum of the measurement shares [ms])
    for which the FLP verifier accepts every one of the proofs, with the query
    randomness derived from the verification key and the nonce, and with joint
    randomness derived from all measurement shares. *)
Definition flp_accepted (p : Prio3) (verify_key ctx nonce : bytes) (out : list (F (p3_field p))) : Prop :=
  let flp := p3_flp p in
  exists (ms : list (list (F (p3_field p)))) (proofs query_rand joint_rand : list (F (p3_field p))),
    vecs (p3_SHARES p) (MEAS_LEN flp) ms /\
    length proofs = PROOF_LEN flp * p3_PROOFS p /\
    query_rands p verify_key ctx nonce = Ok query_rand /\
    (if 0 <? JOINT_RAND_LEN flp
     then exists blinds parts seed,
       (forall j, j < p3_SHARES p -> length (nth j blinds []) = SEED_SIZE (p3_xof p) /\
          joint_rand_part p ctx j (nth j blinds []) (nth j ms []) nonce = Ok (nth j parts [])) /\
       length parts = p3_SHARES p /\
       joint_rand_seed p ctx parts = Ok seed /\ joint_rands p ctx seed = Ok joint_rand
     else joint_rand = []) /\
    (forall k, k < p3_PROOFS p -> exists verifier,
       flp_query flp (vsum (MEAS_LEN flp) ms) (piece (PROOF_LEN flp) k proofs) (piece (QUERY_RAND_LEN flp) k query_rand)
         (piece (JOINT_RAND_LEN flp) k joint_rand) 1 = Ok verifier /\ flp_decide flp verifier = Ok true) /\
    flp_truncate flp (vsum (MEAS_LEN flp) ms) = Ok out.

(** An upload is counted if both Aggregators finish verification ... *)
Definition counted (vdaf : Vdaf) (ctx key agg_param : bytes) (u : bytes * bytes * bytes * bytes) : bool :=
  match pp_verified vdaf ctx key agg_param u with Some _ => true | None => false end.

(** ... and contributes the sum of the output shares. *)
Definition contribution (p : Prio3) (ctx key : bytes) (u : bytes * bytes * bytes * bytes) : list (F (p3_field p)) :=
  match pp_verified (Prio3Vdaf p) ctx key [] u with
  | Some (o0, o1) => vsum (OUTPUT_LEN (p3_flp p)) [o0; o1]
  | None => []
  end.

Definition nonce_of (u : bytes * bytes * bytes * bytes) : bytes := fst (fst (fst u)).

(** A report Prio3 can shard: sizes as required, measurement of the right type. *)
Definition encodable (p : Prio3) (r : Measurement (p3_flp p) * bytes * bytes) : Prop :=
  length (snd (fst r)) = p3_NONCE_SIZE /\ length (snd r) = RAND_SIZE p /\
  exists meas, flp_encode (p3_flp p) (fst (fst r)) = Ok meas /\ length meas = MEAS_LEN (p3_flp p).

(** The deployment returns [expected] of the reports whose derived query
    randomness the FLP does not refuse; the others are left out. *)
Definition deploy_result (p : Prio3) (good : list (F (p3_field p)) -> Prop) (key ctx : bytes)
  (ms : list (Measurement (p3_flp p) * bytes * bytes))
  (expected : list (Measurement (p3_flp p) * bytes * bytes) -> AggResult (p3_flp p)) : Prop :=
  ran_out p \/
  exists f, deploy (Prio3Vdaf p) ctx key [] tt ms = Ok (expected (filter f ms)) /\
    forall m nonce rand, In (m, nonce, rand) ms -> f (m, nonce, rand) = false <-> bad_query p good key ctx nonce.

(** What a verified Poplar1 upload contributes to the counts of the prefixes. *)
Definition p1_contribution (p : Poplar1) (ctx key agg_param : bytes) (level : nat) (u : bytes * bytes * bytes * bytes) : list Z :=
  match pp_verified (p1_vdaf p) ctx key agg_param u with
  | Some (o0, o1) => zip_with (fun a b => (a + b) mod level_modulus p level)%Z (fv_vals o0) (fv_vals o1)
  | None => []
  end.
(** Component-wise sum of [l], reduced modulo [M]. *)
Definition zvsum (M : Z) (n : nat) (l : list (list Z)) : list Z :=
  map (fun i => zsuml (map (fun v => nth i v 0%Z) l) mod M)%Z (seq 0 n).
(** All entries are 0, or one of them is 1 and the others are 0. *)
Definition unit_or_zero (n : nat) (c : list Z) : Prop :=
  exists t, forall i, i < n -> nth i c 0%Z = if i =? t then 1%Z else 0%Z.
(** The contribution of a client with measurement [m]. *)
Definition p1_honest (prefixes : list (list bool)) (level : nat) (m : list bool) : list Z :=
  map (fun x => if list_eq_dec Bool.bool_dec x (firstn (S level) m) then 1%Z else 0%Z) prefixes.
