(** What one Poplar1 Aggregator sees: its input share, the public share and the
    verifier shares of both rounds of every aggregation parameter.  Nothing here
    models a /repo function. *)
From Verif Require Export IdpfViewSpec SketchSpec.
Open Scope nat_scope.

Definition triple {P : FieldClass} (v : list (F P)) : F P * F P * F P := (nth 0 v f0, nth 1 v f0, nth 2 v f0).
Definition pair2 {P : FieldClass} (v : list (F P)) : F P * F P := (nth 0 v f0, nth 1 v f0).

Section V.
Context (p : Poplar1).
Notation idpf := (p1_idpf p).
Notation Pi := (id_field_inner (p1_idpf p)).
Notation Pl := (id_field_leaf (p1_idpf p)).
Notation FVec := (FieldVec Pi Pl).
Notation BITS := (id_BITS (p1_idpf p)).

(** The values a client shares: one and an authenticator, at each level. *)
Definition auth_inner (ks : list (F Pi)) : list (list (F Pi)) := map (fun k => [fof 1; k]) ks.
Definition auth_leaf (kl : F Pl) : list (F Pl) := [fof 1; kl].

(** An aggregation parameter, the verification randomness used with it, and what
    the Aggregator has for its level: its share of the triple (a, b, c) and its
    share of (A, B). *)
Record Query : Type := {
  q_level : nat;
  q_prefixes : list (list bool);
  q_rand : FVec;
  q_abc : FVec;
  q_AB : FVec;
}.
Definition query_wf (q : Query) : Prop :=
  q_level q < BITS /\ NoDup (q_prefixes q) /\ Forall (fun x => length x = S (q_level q)) (q_prefixes q) /\
  of_level idpf (q_level q) (length (q_prefixes q)) (q_rand q) /\
  of_level idpf (q_level q) 3 (q_abc q) /\ of_level idpf (q_level q) 2 (q_AB q).
(** The share of the triple that the other Aggregator has. *)
Definition coin_wf (q : Query) (coin : FVec) : Prop := of_level idpf (q_level q) 3 coin.

Section W.
Context (j : bool) (m : list bool) (ks : list (F Pi)) (kl : F Pl) (ctx nonce key : bytes).

(** The messages at a level of field [P], for values [own] of Aggregator [j] that
    the other's complete to [point]. *)
Definition level_messages {P : FieldClass} (inj : list (F P) -> FVec) (ap : Poplar1AggParam) (k : F P)
  (own point : list (list (F P))) (r : list (F P)) (abc_own abc_other : F P * F P * F P) (AB_own : F P * F P)
  : res (list FVec) :=
  let other := zip_with (zip_with fsub) point own in
  if j then sketch_messages p inj ctx ap (other_AB k abc_other abc_own AB_own) AB_own abc_other abc_own other own r
  else sketch_messages p inj ctx ap AB_own (other_AB k abc_own abc_other AB_own) abc_own abc_other own other r.
Definition query_in {P : FieldClass} (inj : list (F P) -> FVec) (q : Query) (own : list FVec) (coin : FVec)
  : res (list FVec) :=
  level_messages inj (Z.of_nat (q_level q), q_prefixes q)
    (nth 1 (fv_as P (beta_at idpf (auth_inner ks) (auth_leaf kl) (q_level q))) f0)
    (map (fv_as P) own)
    (map (fun x => fv_as P (point_value idpf m (auth_inner ks) (auth_leaf kl) (q_level q) x)) (q_prefixes q))
    (fv_as P (q_rand q)) (triple (fv_as P (q_abc q))) (triple (fv_as P coin)) (pair2 (fv_as P (q_AB q))).
Definition query_messages (ps : list (CorrectionWord idpf)) (q : Query) (coin : FVec) : res (list FVec) :=
  let* own := idpf_eval idpf (Nat.b2n j) ps key (Z.of_nat (q_level q)) (q_prefixes q) ctx nonce in
  if q_level q <? BITS - 1 then query_in Inner q own coin else query_in Leaf q own coin.

(** Everything Aggregator [j] receives, when the expansions of the other's IDPF
    key are replaced by [masks] and its triple shares by [coins]. *)
Definition aggregator_view (queries : list Query) (masks : list (Mask idpf)) (coins : list FVec)
  : res (list (CorrectionWord idpf) * list (list FVec)) :=
  let* ps := ideal_share idpf m (auth_inner ks) (auth_leaf kl) ctx nonce j key masks in
  let* ms := mapM (fun '(q, coin) => query_messages ps q coin) (combine queries coins) in
  Ok (ps, ms).
End W.

(** The share of the triple for a level that Aggregator [j] derives from its
    correlation seed, and its share of (A, B). *)
Definition own_triple (j : bool) (corr_seed ctx nonce : bytes) (level : nat) : res FVec :=
  if level <? BITS - 1 then
    let* dst := p1_dst USAGE_CORR_INNER ctx in
    let* o := expand_into_vec (p1_xof p) Pi corr_seed dst (z2b (Z.b2z j) :: nonce) (3 * (BITS - 1)) in
    Ok (Inner (piece 3 level o))
  else
    let* dst := p1_dst USAGE_CORR_LEAF ctx in
    let* o := expand_into_vec (p1_xof p) Pl corr_seed dst (z2b (Z.b2z j) :: nonce) 3 in
    Ok (Leaf o).
Definition own_AB (input_share : Poplar1InputShare p) (level : nat) : FVec :=
  let '(_, _, corr_inner, corr_leaf) := input_share in
  if level <? BITS - 1 then Inner (piece 2 level corr_inner) else Leaf corr_leaf.
Definition rand_at (verify_key ctx nonce : bytes) (level n : nat) : res FVec :=
  if level <? BITS - 1 then
    let* r := verify_rand_of p Pi verify_key ctx nonce (Z.of_nat level) n in Ok (Inner r)
  else
    let* r := verify_rand_of p Pl verify_key ctx nonce (Z.of_nat level) n in Ok (Leaf r).
Definition key_of (input_share : Poplar1InputShare p) : bytes := let '(key, _, _, _) := input_share in key.
Definition seed_of (input_share : Poplar1InputShare p) : bytes := let '(_, corr_seed, _, _) := input_share in corr_seed.

(** The verifier shares of both rounds, when two Aggregators run the code on their
    input shares. *)
Definition real_messages (verify_key ctx : bytes) (ap : Poplar1AggParam) (nonce : bytes) (ps : Poplar1PublicShare p)
  (is0 is1 : Poplar1InputShare p) : res (list FVec) :=
  let* (st0, s0) := p1_verify_init p verify_key ctx 0 ap nonce ps is0 in
  let* (st1, s1) := p1_verify_init p verify_key ctx 1 ap nonce ps is1 in
  let* msg := p1_verifier_shares_to_message p ctx ap [s0; s1] in
  let* r0 := p1_verify_next p ctx st0 msg in
  let* r1 := p1_verify_next p ctx st1 msg in
  match r0, r1 with
  | inl (_, t0), inl (_, t1) => Ok [s0; s1; t0; t1]
  | _, _ => Raise AssertionError
  end.
End V.
