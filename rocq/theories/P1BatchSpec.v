(** What one Aggregator of Poplar1 and the Collector see of a batch, as a function of
    ideal random choices.  Nothing here models a /repo function. *)
From Verif Require Export Poplar1ViewSpec RunSpec.
Open Scope nat_scope.

Section B.
Context (p : Poplar1).
Notation idpf := (p1_idpf p).
Notation Pi := (id_field_inner (p1_idpf p)).
Notation Pl := (id_field_leaf (p1_idpf p)).
Notation FVec := (FieldVec Pi Pl).
Notation BITS := (id_BITS (p1_idpf p)).

(** A report: the measurement and the authenticators, which are secret, and what the
    Aggregator has: the nonce, its IDPF key and what it uses with each aggregation
    parameter. *)
Record Uploaded : Type := {
  up_m : list bool;
  up_ks : list (F Pi);
  up_kl : F Pl;
  up_nonce : bytes;
  up_key : bytes;
  up_queries : list (Query p);
}.
Definition up_known (r : Uploaded) : bytes * bytes * list (Query p) := (up_nonce r, up_key r, up_queries r).
Definition query_param (q : Query p) : nat * list (list bool) := (q_level p q, q_prefixes p q).
(** All reports of a batch are queried with the parameters [aps]. *)
Definition up_wf (aps : list (nat * list (list bool))) (r : Uploaded) : Prop :=
  length (up_m r) = BITS /\ length (up_ks r) = BITS - 1 /\ length (up_nonce r) = p1_NONCE_SIZE /\
  length (up_key r) = id_KEY_SIZE idpf /\ Forall (query_wf p) (up_queries r) /\ map query_param (up_queries r) = aps.
(** The random choices: what the other Aggregator's IDPF key expands to and its shares
    of the triples. *)
Definition up_coins : Type := list (Mask idpf) * list FVec.
Definition up_coins_wf (r : Uploaded) (c : up_coins) : Prop :=
  words_wf idpf (fst c) /\ Forall2 (coin_wf p) (up_queries r) (snd c).

(** One at the prefixes of the measurement, zero elsewhere. *)
Definition indicator (level : nat) (prefixes : list (list bool)) (m : list bool) : list Z :=
  map (fun x => if list_eq_dec Bool.bool_dec x (firstn (S level) m) then 1 else 0)%Z prefixes.
(** The output share of the other Aggregator completes that of Aggregator [j], the
    data part of its IDPF values, to the indicator. *)
Definition other_in {P : FieldClass} (inj : list (F P) -> FVec) (q : Query p) (m : list bool) (own : list FVec) : FVec :=
  inj (zip_with fsub (map fof (indicator (q_level p q) (q_prefixes p q) m)) (map (fun v => nth 0 (fv_as P v) f0) own)).
Definition other_out (j : bool) (ctx : bytes) (r : Uploaded) (ps : list (CorrectionWord idpf)) (q : Query p) : res FVec :=
  let* own := idpf_eval idpf (Nat.b2n j) ps (up_key r) (Z.of_nat (q_level p q)) (q_prefixes p q) ctx (up_nonce r) in
  Ok (if q_level p q <? BITS - 1 then other_in Inner q (up_m r) own else other_in Leaf q (up_m r) own).

(** The view of each report, and for each aggregation parameter the aggregate share of
    the other Aggregator, which the Collector gets. *)
Definition p1_batch_view (j : bool) (ctx : bytes) (aps : list (nat * list (list bool))) (rs : list Uploaded) (cs : list up_coins)
  : res (list (list (CorrectionWord idpf) * list (list FVec)) * list FVec) :=
  let* views := mapM (fun '(r, c) => aggregator_view p j (up_m r) (up_ks r) (up_kl r) ctx (up_nonce r) (up_key r) (up_queries r) (fst c) (snd c))
                  (combine rs cs) in
  let* outs := mapM (fun '(r, w) => mapM (other_out j ctx r (fst w)) (up_queries r)) (combine rs views) in
  let* aggs := mapM (fun '(t, (level, prefixes)) =>
    let* init := p1_agg_init p (Z.of_nat level, prefixes) in
    foldM (fun agg o => let* o := get o t in p1_agg_update p (Z.of_nat level, prefixes) agg o) outs init)
    (combine (seq 0 (length aps)) aps) in
  Ok (views, aggs).

(** The answers: how many measurements start with each prefix, modulo the modulus of
    the level. *)
Definition answers (aps : list (nat * list (list bool))) (ms : list (list bool)) : list (list Z) :=
  map (fun '(level, prefixes) => map (fun x => (Z.of_nat (count_prefix x ms) mod level_modulus p level)%Z) prefixes) aps.

End B.

(** The report [r] with the coins [c], queried once, is what shard() makes of the
    measurement and the randomness, and [w] is the public share and the verifier shares
    that the Aggregators exchange about it. *)
Definition uploaded_real (p : Poplar1) (j : bool) (key ctx : bytes) (level : nat) (prefixes : list (list bool))
  (report : list bool * bytes * bytes) (r : Uploaded p) (c : up_coins p)
  (w : list (CorrectionWord (p1_idpf p)) * list (list (FieldVec (id_field_inner (p1_idpf p)) (id_field_leaf (p1_idpf p))))) : Prop :=
  let '(measurement, nonce, rand) := report in
  exists is0 is1 messages q coin, let own := if j then is1 else is0 in let other := if j then is0 else is1 in
    up_m p r = measurement /\ up_nonce p r = nonce /\ up_key p r = key_of p own /\ up_queries p r = [q] /\ snd c = [coin] /\
    query_param p q = (level, prefixes) /\
    p1_shard p ctx measurement nonce rand = Ok (fst w, [is0; is1]) /\
    real_messages p key ctx (Z.of_nat level, prefixes) nonce (fst w) is0 is1 = Ok messages /\ snd w = [messages] /\
    expand (p1_idpf p) measurement ctx nonce (negb j) (key_of p other) (fst w) = Ok (fst c) /\
    rand_at p key ctx nonce level (length prefixes) = Ok (q_rand p q) /\
    own_triple p j (seed_of p own) ctx nonce level = Ok (q_abc p q) /\ q_AB p q = own_AB p own level /\
    own_triple p (negb j) (seed_of p other) ctx nonce level = Ok coin.
