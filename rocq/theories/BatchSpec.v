(** What all Aggregators of Prio3 but one, together with the Collector, see of a
    batch, as a function of ideal random choices.  Nothing here models a /repo
    function. *)
From Verif Require Export Prio3ViewSpec CollectSpec.
Open Scope nat_scope.

(** A report: the encoded measurement, and the query and joint randomness with
    which it is verified. *)
Definition batch_report (p : Prio3) : Type := list (F (p3_field p)) * list (F (p3_field p)) * list (F (p3_field p)).
Definition measurement_of {p} (r : batch_report p) : list (F (p3_field p)) := fst (fst r).
Definition public_coins {p} (r : batch_report p) : list (F (p3_field p)) * list (F (p3_field p)) := (snd (fst r), snd r).

(** The share of the measurement that Aggregator [j] gets. *)
Definition meas_share (p : Prio3) (j : nat) (meas : list (F (p3_field p))) (c : p3_coins p) : list (F (p3_field p)) :=
  nth j (leader_first (MEAS_LEN (p3_flp p)) meas (snd (fst c))) [].

(** The view of each report, and the aggregate share of Aggregator [j], which the
    Collector gets: those of the others can be computed from the views. *)
Definition batch_view (p : Prio3) (j : nat) (rs : list (batch_report p)) (cs : list (p3_coins p))
  : res (list (list (list (F (p3_field p))) * list (list (F (p3_field p))) * list (list (list (F (p3_field p)))))
         * list (F (p3_field p))) :=
  let* views := mapM (fun '((meas, query_rand, joint_rand), c) => prio3_view p j meas query_rand joint_rand c) (combine rs cs) in
  let* outs := mapM (fun '((meas, _, _), c) => flp_truncate (p3_flp p) (meas_share p j meas c)) (combine rs cs) in
  let* init := p3_agg_init p tt in
  let* agg := foldM (p3_agg_update p tt) outs init in
  Ok (views, agg).

(** The sum of the truncated measurements of the batch. *)
Definition batch_total (p : Prio3) (rs : list (batch_report p)) : res (list (F (p3_field p))) :=
  let* outs := mapM (fun r => flp_truncate (p3_flp p) (measurement_of r)) rs in
  Ok (vsum (OUTPUT_LEN (p3_flp p)) outs).

(** A report is made from valid input: [valid] for each of the proofs. *)
Definition report_valid (p : Prio3) (good : list (F (p3_field p)) -> Prop)
  (valid : list (F (p3_field p)) -> list (F (p3_field p)) -> Prop) (r : batch_report p) : Prop :=
  let '(meas, query_rand, joint_rand) := r in let flp := p3_flp p in
  length meas = MEAS_LEN flp /\ length query_rand = QUERY_RAND_LEN flp * p3_PROOFS p /\
  length joint_rand = JOINT_RAND_LEN flp * p3_PROOFS p /\
  forall k, k < p3_PROOFS p -> good (piece (QUERY_RAND_LEN flp) k query_rand) /\ valid meas (piece (JOINT_RAND_LEN flp) k joint_rand).

(** The report [r] with the coins [c] is what shard() makes of the measurement and
    the randomness and what the Aggregators see of it. *)
Definition report_real (p : Prio3) (key ctx : bytes) (report : Measurement (p3_flp p) * bytes * bytes)
  (r : batch_report p) (c : p3_coins p) : Prop :=
  let '(measurement, nonce, rand) := report in let '(meas, query_rand, joint_rand) := r in
  let meas_shares := leader_first (MEAS_LEN (p3_flp p)) meas (snd (fst c)) in
  flp_encode (p3_flp p) measurement = Ok meas /\ p3_coins_wf p c /\
  exists public input_shares prove_seed proofs_shares verifiers,
    p3_shard p ctx measurement nonce rand = Ok (public, input_shares) /\
    prove_rands p ctx prove_seed = Ok (fst (fst c)) /\ query_rands p key ctx nonce = Ok query_rand /\
    (if 0 <? JOINT_RAND_LEN (p3_flp p)
     then exists parts seed, public = Some parts /\ joint_rand_seed p ctx parts = Ok seed /\ joint_rands p ctx seed = Ok joint_rand
     else public = None /\ joint_rand = []) /\
    (forall j, j < p3_SHARES p -> exists input_share blind state part,
       nth_error input_shares j = Some input_share /\
       expand_input_share p ctx j input_share = Ok (nth j meas_shares [], nth j proofs_shares [], blind) /\
       p3_verify_init p key ctx j tt nonce public input_share = Ok (state, (concat (nth j verifiers []), part))) /\
    (forall j, prio3_view p j meas query_rand joint_rand c = Ok (without j meas_shares, without j proofs_shares, verifiers)).
