(** Model of the heavy hitters protocol that the document builds from Poplar1,
    /repo/draft-irtf-cfrg-vdaf.md:4741-4757 and 4779-4786 (line numbers refer to that
    file).  [query] stands for Steps 2 and 3 with the unsharding of Step 4: the
    aggregate result for an aggregation parameter. *)
From Verif Require Export Poplar1.
Open Scope nat_scope.

(** 4754-4755: the prefixes with hit count at least [T]. *)
Definition heavy_prefixes (T : Z) (prefixes : list (list bool)) (counts : list Z) : list (list bool) :=
  map fst (filter (fun x => T <=? snd x)%Z (combine prefixes counts)).

(** 4756-4757: [p || 0] and [p || 1] for each of them. *)
Definition next_candidates (hits : list (list bool)) : list (list bool) :=
  flat_map (fun p => [p ++ [false]; p ++ [true]]) hits.

(** 4748-4757: the loop over the levels.  The Aggregators refuse an aggregation
    parameter that is_valid() does not admit (vdaf.py:93-100, 6096-6100).  The
    Collector stops after the last level, or when nothing is heavy.  The result is
    the set of heavy leaves and the aggregation parameters used. *)
Fixpoint heavy_levels (query : Poplar1AggParam -> res (list Z)) (T : Z) (remaining level : nat)
  (history : list Poplar1AggParam) (prefixes : list (list bool)) : res (list (list bool) * list Poplar1AggParam) :=
  match remaining with
  | O => Ok ([], history)
  | S remaining =>
    let agg_param := (Z.of_nat level, prefixes) in
    let* ok := p1_is_valid agg_param history in
    let* _ := check ok (ValueError "aggregation parameter not valid") in
    let* counts := query agg_param in
    let hits := heavy_prefixes T prefixes counts in
    let history := history ++ [agg_param] in
    if (remaining =? 0) || (length hits =? 0) then Ok (hits, history)
    else heavy_levels query T remaining (S level) history (next_candidates hits)
  end.

(** 4748-4749: "an initial set of candidate prefixes, say 0 and 1" *)
Definition heavy_hitters (query : Poplar1AggParam -> res (list Z)) (T : Z) (bits : nat)
  : res (list (list bool) * list Poplar1AggParam) :=
  heavy_levels query T bits 0 [] [[false]; [true]].
