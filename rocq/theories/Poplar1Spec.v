(** Vocabulary for the Poplar1 properties.  Nothing here models a /repo function. *)
From Verif Require Export Poplar1 IdpfSpec Prio3Spec.
Open Scope nat_scope.

(** What the theorems assume of a Poplar1 object. *)
Record Poplar1Ok (p : Poplar1) (lim : Z) : Prop := {
  pk_idpf : exists lim', IdpfOk (p1_idpf p) lim';
  pk_xof : XofOk (p1_xof p) lim;
  pk_lim : (Z.of_nat (S (id_BITS (p1_idpf p)) * (loop_bound (p1_xof p) * ENCODED_SIZE (id_field_inner (p1_idpf p)))
            + 2 * (loop_bound (p1_xof p) * ENCODED_SIZE (id_field_leaf (p1_idpf p)))) < lim)%Z;
  pk_seed : 0 < SEED_SIZE (p1_xof p);
  pk_value : id_VALUE_LEN (p1_idpf p) = 2;
  pk_nonce : id_NONCE_SIZE (p1_idpf p) = p1_NONCE_SIZE;
  pk_inner : wf_field (id_field_inner (p1_idpf p)) /\ (2 < MODULUS (id_field_inner (p1_idpf p)))%Z;
  pk_leaf : wf_field (id_field_leaf (p1_idpf p)) /\ (2 < MODULUS (id_field_leaf (p1_idpf p)))%Z;
}.

(** The lengths of the vectors drawn from a XOF when [n] prefixes are requested. *)
Definition p1_lens (p : Poplar1) (n : nat) : list nat :=
  [id_BITS (p1_idpf p) - 1; 1; 2; 3; 3 * (id_BITS (p1_idpf p) - 1); n].
(** Some expansion hit the model's bound on the rejection-sampling loop. *)
Definition p1_ran_out (p : Poplar1) (n : nat) : Prop :=
  idpf_ran_out (p1_idpf p) \/
  exists P st len, (P = id_field_inner (p1_idpf p) \/ P = id_field_leaf (p1_idpf p)) /\ In len (p1_lens p n) /\
    next_vec (p1_xof p) P st len = Raise OutOfFuel.

(** Inner product. *)
Definition dot {P : FieldClass} (u v : list (F P)) : F P := fsuml (zip_with fmul u v).
(** Component-wise square. *)
Definition squares {P : FieldClass} (v : list (F P)) : list (F P) := map (fun x => fmul x x) v.

(** The correlated randomness [A, B] that goes with [a, b, c] and the
    authenticator [k]. *)
Definition corr_pair {P : FieldClass} (abc : list (F P)) (k : F P) : list (F P) :=
  let a := nth 0 abc f0 in let b := nth 1 abc f0 in let c := nth 2 abc f0 in
  [fsub k (fadd a a); fadd (fsub (fadd (fmul a a) b) (fmul a k)) c].

(** The outcome of sharding: IDPF keys [k0], [k1] for the values
    [1, authenticator], and additive shares of the correlated randomness. *)
Record P1Report (p : Poplar1) (ctx : bytes) (m : list bool) (nonce rand : bytes)
  (ps : Poplar1PublicShare p) (iss : list (Poplar1InputShare p))
  (k0 k1 s0 s1 shard_seed : bytes)
  (ks : list (F (id_field_inner (p1_idpf p)))) (kl : F (id_field_leaf (p1_idpf p)))
  (ci0 ci1 : list (F (id_field_inner (p1_idpf p)))) (cl0 cl1 : list (F (id_field_leaf (p1_idpf p))))
  (oi0 oi1 : list (F (id_field_inner (p1_idpf p)))) (ol0 ol1 : list (F (id_field_leaf (p1_idpf p)))) : Prop := {
  r1_iss : iss = [(k0, s0, ci0, cl0); (k1, s1, ci1, cl1)];
  r1_rand : rand = (k0 ++ k1) ++ s0 ++ s1 ++ shard_seed;
  r1_keys : length k0 = id_KEY_SIZE (p1_idpf p) /\ length k1 = id_KEY_SIZE (p1_idpf p);
  r1_seeds : length s0 = SEED_SIZE (p1_xof p) /\ length s1 = SEED_SIZE (p1_xof p) /\
             length shard_seed = SEED_SIZE (p1_xof p);
  r1_ks : length ks = id_BITS (p1_idpf p) - 1;
  r1_gen : idpf_gen (p1_idpf p) m (map (fun k => [fof 1; k]) ks) [fof 1; kl] ctx nonce (k0 ++ k1) = Ok (ps, [k0; k1]);
  r1_len_i : length ci0 = 2 * (id_BITS (p1_idpf p) - 1) /\ length ci1 = 2 * (id_BITS (p1_idpf p) - 1);
  r1_len_l : length cl0 = 2 /\ length cl1 = 2;
  (* the correlation seeds expand to shares of the triples *)
  r1_oi : exists dst, p1_dst USAGE_CORR_INNER ctx = Ok dst /\
    expand_into_vec (p1_xof p) _ s0 dst (x00 :: nonce) (3 * (id_BITS (p1_idpf p) - 1)) = Ok oi0 /\
    expand_into_vec (p1_xof p) _ s1 dst (x01 :: nonce) (3 * (id_BITS (p1_idpf p) - 1)) = Ok oi1;
  r1_ol : exists dst, p1_dst USAGE_CORR_LEAF ctx = Ok dst /\
    expand_into_vec (p1_xof p) _ s0 dst (x00 :: nonce) 3 = Ok ol0 /\
    expand_into_vec (p1_xof p) _ s1 dst (x01 :: nonce) 3 = Ok ol1;
  (* the shares of (A, B) add up *)
  r1_inner : forall l, l < id_BITS (p1_idpf p) - 1 ->
    zip_with fadd (piece 2 l ci0) (piece 2 l ci1)
    = corr_pair (zip_with fadd (piece 3 l oi0) (piece 3 l oi1)) (nth l ks f0);
  r1_leaf : zip_with fadd cl0 cl1 = corr_pair (zip_with fadd ol0 ol1) kl;
}.

(** The number of measurements that start with [prefix]. *)
Definition count_prefix (prefix : list bool) (ms : list (list bool)) : nat :=
  length (filter (fun m => if list_eq_dec Bool.bool_dec prefix (firstn (length prefix) m) then true else false) ms).

(** The modulus at a level. *)
Definition level_modulus (p : Poplar1) (level : nat) : Z :=
  if level <? id_BITS (p1_idpf p) - 1 then MODULUS (id_field_inner (p1_idpf p))
  else MODULUS (id_field_leaf (p1_idpf p)).

(** Nonce and randomness of every report have the right sizes. *)
Definition p1_sizes_ok (p : Poplar1) {M} (ms : list (M * bytes * bytes)) : Prop :=
  Forall (fun '(_, nonce, rand) => length nonce = p1_NONCE_SIZE /\ length rand = p1_RAND_SIZE p) ms.

(** One round of the sketch as the two Aggregators compute it: round-one shares
    from [sketch_loop] with verification randomness [r], the combined message,
    round-two shares from [verify_next], and whether combining those yields the
    success message.  [AB] are the shares of (A, B), [abc] those of (a, b, c)
    and [v] the IDPF values, all of them arbitrary. *)
Definition sketch_run (p : Poplar1) {P : FieldClass}
  (inj : list (F P) -> FieldVec (id_field_inner (p1_idpf p)) (id_field_leaf (p1_idpf p)))
  (ctx : bytes) (agg_param : Poplar1AggParam) (AB0 AB1 : F P * F P) (abc0 abc1 : F P * F P * F P)
  (v0 v1 : list (list (F P))) (r : list (F P)) : res (option (FieldVec (id_field_inner (p1_idpf p)) (id_field_leaf (p1_idpf p)))) :=
  let* (s0, o0) := sketch_loop r v0 (fst (fst abc0)) (snd (fst abc0)) (snd abc0) in
  let* (s1, o1) := sketch_loop r v1 (fst (fst abc1)) (snd (fst abc1)) (snd abc1) in
  let* msg := p1_verifier_shares_to_message p ctx agg_param [inj s0; inj s1] in
  let* r0 := p1_verify_next p ctx (EVALUATE_SKETCH, fst agg_param, inj ([fst AB0; snd AB0; fof 0] ++ o0)) msg in
  let* r1 := p1_verify_next p ctx (EVALUATE_SKETCH, fst agg_param, inj ([fst AB1; snd AB1; fof 1] ++ o1)) msg in
  match r0, r1 with
  | inl (_, t0), inl (_, t1) => p1_verifier_shares_to_message p ctx agg_param [t0; t1]
  | _, _ => Raise AssertionError
  end.

(** The sum of the data (or, for [i = 1], authenticator) parts of two lists of values. *)
Definition sum_part {P : FieldClass} (i : nat) (v0 v1 : list (list (F P))) (k : nat) : F P :=
  fadd (nth i (nth k v0 []) f0) (nth i (nth k v1 []) f0).
(** [f] is zero or one-hot with value one on [0, n). *)
Definition one_hot {P : FieldClass} (n : nat) (f : nat -> F P) : Prop :=
  exists t, forall i, i < n -> f i = if i =? t then f1 else f0.

(** Lexicographic order on bit strings. *)
Definition lex_lt (x y : list bool) : Prop :=
  exists c a b, x = c ++ a /\ y = c ++ b /\ (a = [] /\ b <> [] \/ exists a' b', a = false :: a' /\ b = true :: b').
Definition sorted_prefixes (l : list (list bool)) : Prop :=
  forall i j, i < j < length l -> lex_lt (nth i l []) (nth j l []).

(** [ap] may follow [last]: the level grew and every prefix extends one of the
    prefixes of [last]. *)
Definition may_follow (last ap : Poplar1AggParam) : Prop :=
  (fst last < fst ap)%Z /\ forall x, In x (snd ap) -> In (firstn (Z.to_nat (fst last + 1)) x) (snd last).

(** The histories of aggregation parameters that is_valid() admits. *)
Inductive valid_history : list Poplar1AggParam -> Prop :=
| vh_nil : valid_history []
| vh_snoc h ap : valid_history h -> p1_is_valid ap h = Ok true -> valid_history (h ++ [ap]).

(** Aggregation parameters that can be encoded. *)
Definition agg_param_wf (ap : Poplar1AggParam) : Prop :=
  (0 <= fst ap < 2 ^ 16)%Z /\ (Z.of_nat (length (snd ap)) < 2 ^ 32)%Z /\
  Forall (fun x => Z.of_nat (length x) = fst ap + 1)%Z (snd ap).

(** A vector of the class of a level. *)
Definition of_class (p : Poplar1) (level : Z) (v : FieldVec (id_field_inner (p1_idpf p)) (id_field_leaf (p1_idpf p))) : Prop :=
  match v with Inner _ => level_is_inner p level = true | Leaf _ => level_is_inner p level = false end.

(** The shape of input shares. *)
Definition p1_input_share_wf (p : Poplar1) (s : Poplar1InputShare p) : Prop :=
  let '(key, seed, inner, leaf) := s in
  length key = SEED_SIZE (id_xof_inner (p1_idpf p)) /\ length seed = SEED_SIZE (p1_xof p) /\
  length inner = 2 * (id_BITS (p1_idpf p) - 1) /\ length leaf = 2.

(** The verification of one report by the two Aggregators, over an honest
    network, up to the release of the two output shares. *)
Definition p1_execute (p : Poplar1) (key ctx : bytes) (agg_param : Poplar1AggParam) (nonce : bytes)
  (public_share : Poplar1PublicShare p) (input_share0 input_share1 : Poplar1InputShare p)
  : res (FieldVec (id_field_inner (p1_idpf p)) (id_field_leaf (p1_idpf p)) *
         FieldVec (id_field_inner (p1_idpf p)) (id_field_leaf (p1_idpf p))) :=
  let* (st0, s0) := p1_verify_init p key ctx 0 agg_param nonce public_share input_share0 in
  let* (st1, s1) := p1_verify_init p key ctx 1 agg_param nonce public_share input_share1 in
  let* msg := p1_verifier_shares_to_message p ctx agg_param [s0; s1] in
  let* r0 := p1_verify_next p ctx st0 msg in
  let* r1 := p1_verify_next p ctx st1 msg in
  match r0, r1 with
  | inl (st0, t0), inl (st1, t1) =>
    let* msg := p1_verifier_shares_to_message p ctx agg_param [t0; t1] in
    let* r0 := p1_verify_next p ctx st0 msg in
    let* r1 := p1_verify_next p ctx st1 msg in
    match r0, r1 with
    | inr o0, inr o1 => Ok (o0, o1)
    | _, _ => Raise AssertionError
    end
  | _, _ => Raise AssertionError
  end.

(** The data parts of a list of IDPF values. *)
Definition data_parts {P : FieldClass} (value : list (list (F P))) : list (F P) := map (fun v => nth 0 v f0) value.

(** An output share for the aggregation parameter. *)
Definition p1_out_wf (p : Poplar1) (agg_param : Poplar1AggParam) (o : FieldVec (id_field_inner (p1_idpf p)) (id_field_leaf (p1_idpf p))) : Prop :=
  of_class p (fst agg_param) o /\ fv_len o = length (snd agg_param).
(** The sum of output shares, in the field of the level. *)
Definition p1_total (p : Poplar1) (agg_param : Poplar1AggParam) (outs : list (FieldVec (id_field_inner (p1_idpf p)) (id_field_leaf (p1_idpf p))))
  : FieldVec (id_field_inner (p1_idpf p)) (id_field_leaf (p1_idpf p)) :=
  if level_is_inner p (fst agg_param) then Inner (vsum (length (snd agg_param)) (map (fv_as _) outs))
  else Leaf (vsum (length (snd agg_param)) (map (fv_as _) outs)).

(** The longest message fits the length prefix of the ping-pong codec. *)
Definition p1_message_fits (p : Poplar1) : Prop :=
  (Z.of_nat (3 * ENCODED_SIZE (id_field_inner (p1_idpf p))) < 2 ^ 32)%Z /\
  (Z.of_nat (3 * ENCODED_SIZE (id_field_leaf (p1_idpf p))) < 2 ^ 32)%Z.

(** A vector without its first [n] elements. *)
Definition fv_skip (p : Poplar1) (n : nat) (v : FieldVec (id_field_inner (p1_idpf p)) (id_field_leaf (p1_idpf p)))
  : FieldVec (id_field_inner (p1_idpf p)) (id_field_leaf (p1_idpf p)) :=
  match v with Inner l => Inner (skipn n l) | Leaf l => Leaf (skipn n l) end.
