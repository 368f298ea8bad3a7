(** Vocabulary for the heavy hitters protocol.  Nothing here models a /repo function. *)
From Verif Require Export HeavyHitters Poplar1Spec RobustSpec DeploySpec.
Open Scope nat_scope.

(** How many clients hold the string [x]. *)
Definition holders (x : list bool) (strings : list (list bool)) : nat := count_occ (list_eq_dec Bool.bool_dec) strings x.

(** The counts obtained for an aggregation parameter lie between two bounds. *)
Definition counts_between (lo hi : list bool -> Z) (ap : Poplar1AggParam) (counts : list Z) : Prop :=
  length counts = length (snd ap) /\
  forall i, i < length (snd ap) -> (lo (nth i (snd ap) []) <= nth i counts 0 <= hi (nth i (snd ap) []))%Z.

(** The Aggregators and the Collector of a deployment (DeploySpec.v) that holds
    [uploads] answer the query for an aggregation parameter. *)
Definition deployed_query (p : Poplar1) (ctx key : bytes) (uploads : list (bytes * bytes * bytes * bytes)) (ap : Poplar1AggParam)
  : res (list Z) :=
  let* agg_param := p1_encode_agg_param ap in
  aggregate (p1_vdaf p) ctx key agg_param ap uploads.

(** Every upload in [us] that is counted for [ap] adds one to at most one of the
    counts and nothing to the others. *)
Definition one_hot_uploads (p : Poplar1) (ctx key : bytes) (us : list (bytes * bytes * bytes * bytes)) (ap : Poplar1AggParam) : Prop :=
  forall agg_param u, p1_encode_agg_param ap = Ok agg_param -> In u us -> counted (p1_vdaf p) ctx key agg_param u = true ->
  unit_or_zero (length (snd ap)) (p1_contribution p ctx key agg_param (Z.to_nat (fst ap)) u).
