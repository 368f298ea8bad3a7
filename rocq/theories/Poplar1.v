(** Model of /repo/poc/vdaf_poc/vdaf_poplar1.py. *)
From Coq Require Import Strings.String.
From Verif Require Export Vdaf Idpf.
Open Scope nat_scope.

(** vdaf_poplar1.py:13-16 *)
Definition USAGE_SHARD_RAND : Z := 1.
Definition USAGE_CORR_INNER : Z := 2.
Definition USAGE_CORR_LEAF : Z := 3.
Definition USAGE_VERIFY_RAND : Z := 4.

(** vdaf_poplar1.py:51-66: the attributes of a Poplar1 object. *)
Record Poplar1 : Type := {
  p1_idpf : Idpf;
  p1_xof : XofClass;
}.
Definition p1_ID : Z := 6.
Definition p1_NONCE_SIZE : nat := 16.
Definition p1_SHARES : nat := 2.
Definition p1_ROUNDS : nat := 2.

(** vdaf_poplar1.py:62-66 [__init__] *)
Definition Poplar1_init (ts : TurboShake) (aes : BlockCipher) (bound : nat) (bits : Z) : res Poplar1 :=
  let* idpf := IdpfBBCGGI21_init ts aes bound 2 bits in
  Ok {| p1_idpf := idpf; p1_xof := XofTurboShake128 ts bound |}.

(** The step names of vdaf_poplar1.py:307, 323, 343, 351. *)
Definition EVALUATE_SKETCH : bytes := list_byte_of_string "evaluate sketch".
Definition REVEAL_SKETCH : bytes := list_byte_of_string "reveal sketch".

(** [index[:e]] for any integer [e]. *)
Definition slice_to {A} (l : list A) (e : Z) : list A :=
  firstn (Z.to_nat (if (e <? 0)%Z then Z.of_nat (length l) + e else e)%Z) l.

(** vdaf_poplar1.py:574-581 *)
Definition get_ancestor (index : list bool) (level : Z) : list bool := slice_to index (level + 1).

(** [x < y] on tuples of bools. *)
Fixpoint bits_ltb (x y : list bool) : bool :=
  match x, y with
  | [], [] => false
  | [], _ :: _ => true
  | _ :: _, [] => false
  | a :: x', b :: y' => if Bool.eqb a b then bits_ltb x' y' else negb a
  end.

(** [itertools.batched(l, n)] for [n >= 1]; [fuel] is at least the number of
    batches. *)
Fixpoint batched_loop {A} (fuel n : nat) (l : list A) : list (list A) :=
  match fuel, l with
  | S fuel', _ :: _ => firstn n l :: batched_loop fuel' n (skipn n l)
  | _, _ => []
  end.
Definition batched {A} (l : list A) (n : nat) : res (list (list A)) :=
  if n =? 0 then Raise (ValueError "n must be at least one") else Ok (batched_loop (length l) n l).

Section P1.
Context (p : Poplar1).
Notation idpf := (p1_idpf p).
Notation xof := (p1_xof p).
Notation Pi := (id_field_inner (p1_idpf p)).
Notation Pl := (id_field_leaf (p1_idpf p)).
Notation BITS := (id_BITS (p1_idpf p)).
Notation FVec := (FieldVec Pi Pl).

(** vdaf_poplar1.py:65-66 *)
Definition p1_VERIFY_KEY_SIZE : nat := SEED_SIZE xof.
Definition p1_RAND_SIZE : nat := 3 * SEED_SIZE xof + id_RAND_SIZE idpf.

(** vdaf.py:203-212 *)
Definition p1_dst (usage : Z) (ctx : bytes) : res bytes := domain_separation_tag p1_ID usage ctx.

(** vdaf_poplar1.py:19-35 *)
Definition Poplar1AggParam : Type := Z * list (list bool).
Definition Poplar1PublicShare : Type := list (CorrectionWord idpf).
Definition Poplar1InputShare : Type := bytes * bytes * list (F Pi) * list (F Pl).
Definition Poplar1VerifyState : Type := bytes * Z * FVec.

(** idpf.py:134-139 [current_field(level) is field_inner] *)
Definition level_is_inner (level : Z) : bool := (level <? Z.of_nat BITS - 1)%Z.

(** vdaf_poplar1.py:129-144 for [field_inner] and 145-160 for [field_leaf]:
    the sum of the two expansions of the correlation seeds. *)
Definition corr_offsets_of (P : FieldClass) (usage : Z) (corr_seed : list bytes) (ctx nonce : bytes) (len : nat)
  : res (list (F P)) :=
  let* seed0 := get corr_seed 0 in
  let* dst0 := p1_dst usage ctx in
  let* b0 := byte_of 0 in
  let* v0 := expand_into_vec xof P seed0 dst0 (b0 ++ nonce) len in
  let* seed1 := get corr_seed 1 in
  let* dst1 := p1_dst usage ctx in
  let* b1 := byte_of 1 in
  let* v1 := expand_into_vec xof P seed1 dst1 (b1 ++ nonce) len in
  vec_add v0 v1.

(** vdaf_poplar1.py:170-174: one iteration of the loop over the levels, up to
    the shares of (A, B); returns the remaining offsets. *)
Definition corr_level {P : FieldClass} (k : F P) (corr_offsets : list (F P)) (st : xof_state xof)
  : res (list (F P) * list (F P) * list (F P) * xof_state xof) :=
  match slice corr_offsets 0 3 with
  | [a; b; c] =>
    let corr_offsets := skipn 3 corr_offsets in
    let* two := field_init 2 in
    let A := fadd (fmul (fneg two) a) k in
    let B := fadd (fsub (fadd (fpow a 2) b) (fmul a k)) c in
    let* (corr1, st) := next_vec xof P st 2 in
    let* corr0 := vec_sub [A; B] corr1 in
    Ok (corr0, corr1, corr_offsets, st)
  | _ => Raise (ValueError "values to unpack")
  end.

(** vdaf_poplar1.py:73-187.  The list [corr_offsets] of the code has
    3*(BITS-1) elements of [field_inner] followed by three of [field_leaf]; the
    model keeps the two parts apart, so that the last iteration of the loop
    over the levels (the only one using [field_leaf]) is written separately. *)
Definition p1_shard (ctx : bytes) (measurement : list bool) (nonce rand : bytes)
  : res (Poplar1PublicShare * list Poplar1InputShare) :=
  let* _ := check (length nonce =? p1_NONCE_SIZE) (ValueError "incorrect nonce size") in
  let* _ := check (length rand =? p1_RAND_SIZE) (ValueError "incorrect size of random bytes argument") in
  let l := SEED_SIZE xof in
  let* _ := check (length rand =? p1_RAND_SIZE) (ValueError "incorrect rand size") in
  let* (idpf_rand, rand) := front (id_RAND_SIZE idpf) rand in
  let* starts := range_step 0 (3 * l) l in
  let seeds := map (fun i => slice rand i (i + l)) starts in
  let* (corr_seed, seeds) := front 2 seeds in
  let* (shard_seeds, seeds) := front 1 seeds in
  let* shard_seed := get shard_seeds 0 in
  let* dst := p1_dst USAGE_SHARD_RAND ctx in
  let* st := xof_init xof shard_seed dst nonce in
  let* (ks, st) := next_vec xof Pi st (BITS - 1) in
  let* one_inner := field_init 1 in
  let beta_inner := map (fun k => [one_inner; k]) ks in
  let* one_leaf := field_init 1 in
  let* (k_leaf, st) := next_vec xof Pl st 1 in
  let beta_leaf := [one_leaf] ++ k_leaf in
  let* (public_share, keys) := idpf_gen idpf measurement beta_inner beta_leaf ctx nonce idpf_rand in
  let* offsets_inner := corr_offsets_of Pi USAGE_CORR_INNER corr_seed ctx nonce (3 * (BITS - 1)) in
  let* offsets_leaf := corr_offsets_of Pl USAGE_CORR_LEAF corr_seed ctx nonce 3 in
  let* (corr_inner0, corr_inner1, offsets_inner, st) :=
    for_range 0 (BITS - 1) ([], [], offsets_inner, st) (fun '(corr_inner0, corr_inner1, offsets_inner, st) level =>
      let* b := get beta_inner level in
      let* k := get b 1 in
      let* (corr0, corr1, offsets_inner, st) := corr_level k offsets_inner st in
      Ok (corr_inner0 ++ corr0, corr_inner1 ++ corr1, offsets_inner, st)) in
  let* k := get beta_leaf 1 in
  let* (corr_leaf0, corr_leaf1, offsets_leaf, st) := corr_level k offsets_leaf st in
  Ok (public_share,
      combine (combine (combine keys corr_seed) [corr_inner0; corr_inner1]) [corr_leaf0; corr_leaf1]).

(** vdaf_poplar1.py:194-229 *)
Definition p1_is_valid (agg_param : Poplar1AggParam) (previous_agg_params : list Poplar1AggParam) : res bool :=
  let '(level, prefixes) := agg_param in
  let* sorted := for_range 1 (length prefixes) true (fun ok i =>
    let* a := get prefixes (i - 1) in
    let* b := get prefixes i in
    Ok (ok && bits_ltb a b)) in
  if negb sorted then Ok false
  else if length previous_agg_params <? 1 then Ok true
  else
    let* (last_level, last_prefixes) := get_last previous_agg_params in
    if (level <=? last_level)%Z then Ok false
    else Ok (forallb (fun prefix => mem_bits (get_ancestor prefix last_level) last_prefixes) prefixes).

(** vdaf_poplar1.py:282-290: the verification randomness. *)
Definition verify_rand_of (P : FieldClass) (verify_key ctx nonce : bytes) (level : Z) (len : nat)
  : res (list (F P)) :=
  let* dst := p1_dst USAGE_VERIFY_RAND ctx in
  let* encoded_level := to_be_bytes level 2 in
  let* st := xof_init xof verify_key dst (nonce ++ encoded_level) in
  let* (verify_rand, st) := next_vec xof P st len in
  Ok verify_rand.

(** vdaf_poplar1.py:291-302: the loop over the verification randomness; returns
    the sketch share and the output share.  [value] holds vectors of class [P]
    (those of [idpf_eval] at a level of field [P]). *)
Definition sketch_loop {P : FieldClass} (verify_rand : list (F P)) (value : list (list (F P))) (a_share b_share c_share : F P)
  : res (list (F P) * list (F P)) :=
  let* (s0, s1, s2, out_share) :=
    foldM (fun '(s0, s1, s2, out_share) '(i, r) =>
      let* v := get value i in
      let* data_share := get v 0 in
      let* v := get value i in
      let* auth_share := get v 1 in
      Ok (fadd s0 (fmul data_share r), fadd s1 (fmul data_share (fpow r 2)), fadd s2 (fmul auth_share r),
          out_share ++ [data_share]))
      (combine (seq 0 (length verify_rand)) verify_rand) (a_share, b_share, c_share, []) in
  Ok ([s0; s1; s2], out_share).

(** vdaf_poplar1.py:255-304 for the field [P] of the level: verify_mem and
    sketch_share.  [fast_forward] is [Some n] when the code discards [n]
    elements, and [AB] the shares of (A, B). *)
Definition verify_init_in (P : FieldClass) (usage : Z) (fast_forward : option nat) (AB : list (F P))
  (verify_key ctx : bytes) (agg_id : nat) (level : Z) (num_prefixes : nat) (nonce corr_seed : bytes)
  (value : list (list (F P))) : res (list (F P) * list (F P)) :=
  let* dst := p1_dst usage ctx in
  let* b := byte_of (Z.of_nat agg_id) in
  let* st := xof_init xof corr_seed dst (b ++ nonce) in
  let* st := match fast_forward with
             | Some n => let* (_, st) := next_vec xof P st n in Ok st
             | None => Ok st
             end in
  let* (abc, st) := next_vec xof P st 3 in
  match abc with
  | [a_share; b_share; c_share] =>
    match AB with
    | [A_share; B_share] =>
      let* verify_rand := verify_rand_of P verify_key ctx nonce level num_prefixes in
      let* (sketch_share, out_share) := sketch_loop verify_rand value a_share b_share c_share in
      let* id := field_init (Z.of_nat agg_id) in
      Ok ([A_share; B_share; id] ++ out_share, sketch_share)
    | _ => Raise (ValueError "values to unpack")
    end
  | _ => Raise (ValueError "values to unpack")
  end.

(** vdaf_poplar1.py:236-312.  [idpf_eval] has checked that [level] is in range. *)
Definition p1_verify_init (verify_key ctx : bytes) (agg_id : nat) (agg_param : Poplar1AggParam) (nonce : bytes)
  (public_share : Poplar1PublicShare) (input_share : Poplar1InputShare)
  : res (Poplar1VerifyState * FVec) :=
  let '(level, prefixes) := agg_param in
  let '(key, corr_seed, corr_inner, corr_leaf) := input_share in
  let* value := idpf_eval idpf agg_id public_share key level prefixes ctx nonce in
  if level_is_inner level then
    let l := Z.to_nat level in
    let* (verify_mem, sketch_share) :=
      verify_init_in Pi USAGE_CORR_INNER (Some (3 * l)) (slice corr_inner (2 * l) (2 * (l + 1)))
        verify_key ctx agg_id level (length prefixes) nonce corr_seed (map (fv_as Pi) value) in
    Ok ((EVALUATE_SKETCH, level, Inner verify_mem), Inner sketch_share)
  else
    let* (verify_mem, sketch_share) :=
      verify_init_in Pl USAGE_CORR_LEAF None corr_leaf
        verify_key ctx agg_id level (length prefixes) nonce corr_seed (map (fv_as Pl) value) in
    Ok ((EVALUATE_SKETCH, level, Leaf verify_mem), Leaf sketch_share).

(** vdaf_poplar1.py:333-336: the integers of [prev_sketch[0]] and of
    [prev_sketch[0]**2 - prev_sketch[1] - prev_sketch[2]], computed in the class
    of [prev_sketch]. *)
Definition sketch_terms_in {P : FieldClass} (prev_sketch : list (F P)) : res (Z * Z) :=
  let* z0 := get prev_sketch 0 in
  let* z1 := get prev_sketch 1 in
  let* z2 := get prev_sketch 2 in
  Ok (val z0, val (fsub (fsub (fpow z0 2) z1) z2)).
Definition sketch_terms (prev_sketch : FVec) : res (Z * Z) :=
  match prev_sketch with Inner v => sketch_terms_in v | Leaf v => sketch_terms_in v end.

(** vdaf_poplar1.py:328-338 in the class of [verify_mem]: the remaining
    verify_mem and the new sketch share. *)
Definition evaluate_in {P : FieldClass} (verify_mem : list (F P)) (z0 t : Z) : res (list (F P) * list (F P)) :=
  let* A_share := get verify_mem 0 in
  let* B_share := get verify_mem 1 in
  let* agg_id := get verify_mem 2 in
  let verify_mem := skipn 3 verify_mem in
  Ok (verify_mem, [fadd (fadd (fmul agg_id (fof t)) (fmul A_share (fof z0))) B_share]).

(** vdaf_poplar1.py:314-357 *)
Definition p1_verify_next (_ctx : bytes) (verify_state : Poplar1VerifyState) (verifier_message : option FVec)
  : res ((Poplar1VerifyState * FVec) + FVec) :=
  let '(step, level, verify_mem) := verify_state in
  if bytes_eqb step EVALUATE_SKETCH then
    match verifier_message with
    | None => Raise (ValueError "expected value, got none")
    | Some prev_sketch =>
      let* _ := check (fv_len prev_sketch =? 3) (ValueError "incorrect sketch length") in
      let* (z0, t) := sketch_terms prev_sketch in
      match verify_mem with
      | Inner m =>
        let* (m, sketch_share) := evaluate_in m z0 t in
        Ok (inl ((REVEAL_SKETCH, level, Inner m), Inner sketch_share))
      | Leaf m =>
        let* (m, sketch_share) := evaluate_in m z0 t in
        Ok (inl ((REVEAL_SKETCH, level, Leaf m), Leaf sketch_share))
      end
    end
  else if bytes_eqb step REVEAL_SKETCH then
    match verifier_message with
    | None => Ok (inr verify_mem)
    | Some _ => Raise (ValueError "invalid verifier message")
    end
  else Raise (ValueError "invalid verification state").

(** vdaf_poplar1.py:359-382; [==] on field elements compares [val] (field.py:88-91). *)
Definition p1_verifier_shares_to_message (_ctx : bytes) (agg_param : Poplar1AggParam) (verifier_shares : list FVec)
  : res (option FVec) :=
  let* _ := check (length verifier_shares =? 2) (ValueError "incorrect number of verifier shares") in
  let* share0 := get verifier_shares 0 in
  let* share1 := get verifier_shares 1 in
  let* sketch := fv_add share0 share1 in
  if fv_len sketch =? 3 then Ok (Some sketch)
  else if fv_len sketch =? 1 then
    if (nth 0 (fv_vals sketch) 0 =? 0)%Z then Ok None
    else Raise (ValueError "sketch verification failed")
  else Raise (ValueError "incorrect sketch length").

(** vdaf_poplar1.py:390-393 *)
Definition p1_agg_init (agg_param : Poplar1AggParam) : res FVec :=
  let '(level, prefixes) := agg_param in
  if level_is_inner level then Ok (Inner (fzeros (length prefixes))) else Ok (Leaf (fzeros (length prefixes))).

(** vdaf_poplar1.py:395-401 *)
Definition p1_agg_update (agg_param : Poplar1AggParam) (agg_share out_share : FVec) : res FVec :=
  fv_add agg_share out_share.

(** vdaf_poplar1.py:403-411 *)
Definition p1_merge (agg_param : Poplar1AggParam) (agg_shares : list FVec) : res FVec :=
  let* agg := p1_agg_init agg_param in
  foldM (fun agg agg_share => fv_add agg agg_share) agg_shares agg.

(** vdaf_poplar1.py:418-424 *)
Definition p1_unshard (agg_param : Poplar1AggParam) (agg_shares : list FVec) (_num_measurements : nat) : res (list Z) :=
  let* agg := p1_merge agg_param agg_shares in
  Ok (fv_vals agg).

(** vdaf_poplar1.py:441-446: the bytes of a prefix. *)
Definition encode_prefix (prefix : list bool) : res bytes :=
  let* chunks := batched prefix 8 in
  mapM (fun chunk =>
    let* byte_out := foldM (fun byte_out '(bit_position, bit) =>
      Ok (Z.lor byte_out (Z.shiftl (Z.b2z bit) (7 - Z.of_nat bit_position))))
      (combine (seq 0 (length chunk)) chunk) 0%Z in
    Ok (z2b byte_out)) chunks.

(** vdaf_poplar1.py:426-450 *)
Definition p1_encode_agg_param (agg_param : Poplar1AggParam) : res bytes :=
  let '(level, prefixes) := agg_param in
  let num_prefixes := Z.of_nat (length prefixes) in
  let* _ := check ((0 <=? level) && (level <? 2 ^ 16))%Z (ValueError "level out of range") in
  let* _ := check ((0 <=? num_prefixes) && (num_prefixes <? 2 ^ 32))%Z (ValueError "number of prefixes out of range") in
  let* encoded_level := to_be_bytes level 2 in
  let* encoded_num_prefixes := to_be_bytes num_prefixes 4 in
  let prefixes_len := (((level + 1) + 7) / 8 * num_prefixes)%Z in
  let* encoded_prefixes := foldM (fun encoded_prefixes prefix =>
    let* e := encode_prefix prefix in
    Ok (encoded_prefixes ++ e)) prefixes [] in
  let* _ := check (Z.of_nat (length encoded_prefixes) =? prefixes_len)%Z AssertionError in
  Ok (encoded_level ++ encoded_num_prefixes ++ encoded_prefixes).

(** vdaf_poplar1.py:465-470 *)
Definition last_byte_mask (level : Z) : res Z :=
  let leftover_bits := Z.to_nat ((level + 1) mod 8) in
  if 0 <? leftover_bits then
    let* last_byte_mask := for_range (8 - leftover_bits) 8 0%Z (fun last_byte_mask bit_index =>
      Ok (Z.lor last_byte_mask (Z.shiftl 1 (Z.of_nat bit_index)))) in
    Ok (Z.lxor last_byte_mask 255)
  else Ok 0%Z.

(** vdaf_poplar1.py:473-483: the body of the loop over the chunks. *)
Definition decode_prefix (level mask : Z) (chunk : bytes) : res (list bool) :=
  let* lst := get_last chunk in
  let* _ := check (negb (0 <? Z.land (b2z lst) mask)%Z) (ValueError "trailing bits in prefix") in
  mapM (fun i =>
    let* b := get chunk (i / 8) in
    Ok (negb (Z.land (Z.shiftr (b2z b) (Z.of_nat (7 - i mod 8))) 1 =? 0)%Z))
    (range 0 (Z.to_nat (level + 1))).

(** vdaf_poplar1.py:452-487 *)
Definition p1_decode_agg_param (encoded : bytes) : res Poplar1AggParam :=
  let* (encoded_level, encoded) := front 2 encoded in
  let level := from_be_bytes encoded_level in
  let* (encoded_num_prefixes, encoded) := front 4 encoded in
  let num_prefixes := from_be_bytes encoded_num_prefixes in
  let prefixes_len := (((level + 1) + 7) / 8 * num_prefixes)%Z in
  let* (encoded_prefixes, encoded) := front (Z.to_nat prefixes_len) encoded in
  let* mask := last_byte_mask level in
  let bytes_per_prefix := (((level + 1) + 7) / 8)%Z in
  let* chunks := batched encoded_prefixes (Z.to_nat bytes_per_prefix) in
  let* prefixes := mapM (decode_prefix level mask) chunks in
  let* _ := check (length encoded =? 0) (ValueError "trailing bytes") in
  Ok (level, prefixes).

(** vdaf_poplar1.py:493-500 *)
Definition p1_encode_input_share (input_share : Poplar1InputShare) : res bytes :=
  let '(key, seed, inner, leaf) := input_share in
  let* e_inner := encode_vec inner in
  let* e_leaf := encode_vec leaf in
  Ok (key ++ seed ++ e_inner ++ e_leaf).

(** vdaf_poplar1.py:502-517; the size of the key is that of the seeds of the
    inner XOF of the IDPF, XofFixedKeyAes128. *)
Definition p1_decode_input_share (agg_id : nat) (encoded : bytes) : res Poplar1InputShare :=
  let* (key, encoded) := front (SEED_SIZE (id_xof_inner idpf)) encoded in
  let* (seed, encoded) := front (SEED_SIZE xof) encoded in
  let* (field_inner_bytes, encoded) := front (ENCODED_SIZE Pi * (BITS - 1) * 2) encoded in
  let* field_inner := decode_vec field_inner_bytes in
  let* (field_leaf_bytes, encoded) := front (ENCODED_SIZE Pl * 2) encoded in
  let* field_leaf := decode_vec field_leaf_bytes in
  let* _ := check (length encoded =? 0) (ValueError "input share is too long") in
  Ok (key, seed, field_inner, field_leaf).

(** vdaf_poplar1.py:519-523 *)
Definition p1_encode_public_share (public_share : Poplar1PublicShare) : res bytes :=
  idpf_encode_public_share idpf public_share.
Definition p1_decode_public_share (encoded : bytes) : res Poplar1PublicShare :=
  idpf_decode_public_share idpf encoded.

(** vdaf_poplar1.py:562-567: the class is that of the elements. *)
Definition encode_idpf_field_vec (vec : FVec) : res bytes :=
  match vec with
  | Inner [] | Leaf [] => Ok []
  | Inner v => encode_vec v
  | Leaf v => encode_vec v
  end.

(** [self.idpf.current_field(level).decode_vec(encoded)] *)
Definition decode_at (level : Z) (encoded : bytes) : res FVec :=
  if level_is_inner level then let* v := decode_vec encoded in Ok (Inner v)
  else let* v := decode_vec encoded in Ok (Leaf v).

(** vdaf_poplar1.py:525-559 *)
Definition p1_encode_agg_share (agg_share : FVec) : res bytes := encode_idpf_field_vec agg_share.
Definition p1_decode_agg_share (agg_param : Poplar1AggParam) (encoded : bytes) : res FVec :=
  decode_at (fst agg_param) encoded.
Definition p1_encode_verifier_share (verifier_share : FVec) : res bytes := encode_idpf_field_vec verifier_share.
Definition p1_decode_verifier_share (verify_state : Poplar1VerifyState) (encoded : bytes) : res FVec :=
  decode_at (snd (fst verify_state)) encoded.
Definition p1_encode_verifier_message (verifier_message : option FVec) : res bytes :=
  match verifier_message with
  | Some v => encode_idpf_field_vec v
  | None => Ok []
  end.
Definition p1_decode_verifier_message (verify_state : Poplar1VerifyState) (encoded : bytes) : res (option FVec) :=
  if length encoded =? 0 then Ok None
  else let* v := decode_at (snd (fst verify_state)) encoded in Ok (Some v).
Definition p1_encode_out_share (out_share : FVec) : res bytes := encode_idpf_field_vec out_share.
Definition p1_decode_out_share (agg_param : Poplar1AggParam) (encoded : bytes) : res FVec :=
  decode_at (fst agg_param) encoded.

(** The Poplar1 object as a VDAF (vdaf_poplar1.py:37-49). *)
Definition p1_vdaf : Vdaf := {|
  vd_Measurement := list bool;
  vd_AggParam := Poplar1AggParam;
  vd_PublicShare := Poplar1PublicShare;
  vd_InputShare := Poplar1InputShare;
  vd_OutShare := FVec;
  vd_AggShare := FVec;
  vd_AggResult := list Z;
  vd_VerifyState := Poplar1VerifyState;
  vd_VerifierShare := FVec;
  vd_VerifierMessage := option FVec;
  vd_ID := p1_ID;
  vd_VERIFY_KEY_SIZE := p1_VERIFY_KEY_SIZE;
  vd_NONCE_SIZE := p1_NONCE_SIZE;
  vd_RAND_SIZE := p1_RAND_SIZE;
  vd_SHARES := p1_SHARES;
  vd_ROUNDS := p1_ROUNDS;
  vd_shard := p1_shard;
  vd_is_valid := p1_is_valid;
  vd_verify_init := p1_verify_init;
  vd_verify_next := p1_verify_next;
  vd_verifier_shares_to_message := p1_verifier_shares_to_message;
  vd_agg_init := p1_agg_init;
  vd_agg_update := p1_agg_update;
  vd_merge := p1_merge;
  vd_unshard := p1_unshard;
  vd_encode_agg_param := p1_encode_agg_param;
  vd_decode_agg_param := p1_decode_agg_param;
  vd_encode_input_share := p1_encode_input_share;
  vd_decode_input_share := p1_decode_input_share;
  vd_encode_public_share := p1_encode_public_share;
  vd_decode_public_share := p1_decode_public_share;
  vd_encode_agg_share := p1_encode_agg_share;
  vd_decode_agg_share := p1_decode_agg_share;
  vd_encode_verifier_share := p1_encode_verifier_share;
  vd_decode_verifier_share := p1_decode_verifier_share;
  vd_encode_verifier_message := p1_encode_verifier_message;
  vd_decode_verifier_message := p1_decode_verifier_message;
  vd_encode_out_share := p1_encode_out_share;
  vd_decode_out_share := p1_decode_out_share;
|}.
End P1.
