(** Model of /repo/poc/vdaf_poc/daf.py. *)
From Verif Require Export Common.
Open Scope nat_scope.

(** daf.py:67-204: the attributes and methods of a DAF.  Every method may raise. *)
Record Daf : Type := {
  df_Measurement : Type;
  df_AggParam : Type;
  df_PublicShare : Type;
  df_InputShare : Type;
  df_OutShare : Type;
  df_AggShare : Type;
  df_AggResult : Type;
  (* daf.py:95-105 *)
  df_ID : Z;
  df_SHARES : nat;
  df_NONCE_SIZE : nat;
  df_RAND_SIZE : nat;
  (* daf.py:109-114: ctx, measurement, nonce, rand *)
  df_shard : bytes -> df_Measurement -> bytes -> bytes -> res (df_PublicShare * list df_InputShare);
  (* daf.py:128-131 *)
  df_is_valid : df_AggParam -> list df_AggParam -> res bool;
  (* daf.py:139-146: ctx, agg_id, agg_param, nonce, public_share, input_share *)
  df_prep : bytes -> nat -> df_AggParam -> bytes -> df_PublicShare -> df_InputShare -> res df_OutShare;
  (* daf.py:164-165 *)
  df_agg_init : df_AggParam -> res df_AggShare;
  (* daf.py:173-176 *)
  df_agg_update : df_AggParam -> df_AggShare -> df_OutShare -> res df_AggShare;
  (* daf.py:185-187 *)
  df_merge : df_AggParam -> list df_AggShare -> res df_AggShare;
  (* daf.py:195-199 *)
  df_unshard : df_AggParam -> list df_AggShare -> nat -> res df_AggResult;
}.

Section Run.
Context (daf : Daf).

(** daf.py:227-240: the body of the loop over the measurements.  [nonce] and
    [rand] are the results of the two calls of [gen_rand]. *)
Definition run_daf_report (ctx : bytes) (agg_param : df_AggParam daf) (agg_shares : list (df_AggShare daf))
  (report : df_Measurement daf * bytes * bytes) : res (list (df_AggShare daf)) :=
  let '(measurement, nonce, rand) := report in
  let* (public_share, input_shares) := df_shard daf ctx measurement nonce rand in
  for_range 0 (df_SHARES daf) agg_shares (fun agg_shares j =>
    let* input_share := get input_shares j in
    let* out_share := df_prep daf ctx j agg_param nonce public_share input_share in
    let* agg_share := get agg_shares j in
    let* agg_share := df_agg_update daf agg_param agg_share out_share in
    set agg_shares j agg_share).

(** daf.py:211-246 [run_daf].  Each measurement comes with the nonce and the
    randomness that [gen_rand] returned for it. *)
Definition run_daf (ctx : bytes) (agg_param : df_AggParam daf)
  (measurements : list (df_Measurement daf * bytes * bytes)) : res (df_AggResult daf) :=
  let* agg_shares := mapM (fun _ => df_agg_init daf agg_param) (range 0 (df_SHARES daf)) in
  let* agg_shares := foldM (run_daf_report ctx agg_param) measurements agg_shares in
  df_unshard daf agg_param agg_shares (length measurements).
End Run.
