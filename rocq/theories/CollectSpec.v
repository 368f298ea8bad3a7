(** Vocabulary for what the Collector sees of a Prio3 batch.  Nothing here models a
    /repo function. *)
From Verif Require Export Prio3 Vdaf RunSpec Prio3Spec.
Open Scope nat_scope.

(** The aggregate shares of a batch: run_vdaf() returns what unshard() makes of
    them (C55). *)
Definition aggregate_shares (vdaf : Vdaf) (ctx : bytes) (ap : vd_AggParam vdaf) (key : bytes)
  (ms : list (vd_Measurement vdaf * bytes * bytes)) : res (list (vd_AggShare vdaf)) :=
  let* outs := mapM (vdaf_outputs vdaf ctx ap key) ms in
  fold_all (vd_SHARES vdaf) (vd_agg_init vdaf ap) (vd_agg_update vdaf ap) outs.

(** The seed in [rand] that shard() gives to Helper [j]: with joint randomness every
    other one, the blinds being in between. *)
Definition helper_seed (p : Prio3) (rand : bytes) (j : nat) : bytes :=
  let l := SEED_SIZE (p3_xof p) in
  let i := (j - 1) * (if 0 <? JOINT_RAND_LEN (p3_flp p) then 2 else 1) in
  slice rand (i * l) (i * l + l).

(** The output share of Helper [j] for a report made with [rand]. *)
Definition helper_out (p : Prio3) (ctx rand : bytes) (j : nat) : res (list (F (p3_field p))) :=
  let* share := helper_meas_share p ctx j (helper_seed p rand j) in
  flp_truncate (p3_flp p) share.

(** The randomness of a report. *)
Definition rand_of {M} (r : M * bytes * bytes) : bytes := snd r.
