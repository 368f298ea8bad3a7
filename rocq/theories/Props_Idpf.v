(** Properties C34, C35, C36: the incremental DPF of idpf_bbcggi21.py, for every
    TurboSHAKE128 and every block cipher.

    [idpf_ran_out i] says that a rejection-sampling loop hit the model's bound
    (an arbitrary parameter; the loop of the Python code has none). *)
From Verif Require Import IdpfSpec IdpfFacts IdpfCodec IdpfInst PostFacts.
Open Scope nat_scope.

(** Every object the constructor returns meets the assumptions used below, and
    the constructor fails exactly on non-positive parameters. *)
Theorem C34_constructor : forall ts aes bound value_len bits,
  (forall k b, length b = 16 -> length (aes k b) = 16) -> (Z.of_nat bound < 2 ^ 120)%Z ->
  match IdpfBBCGGI21_init ts aes bound value_len bits with
  | Ok i => (0 < value_len)%Z /\ (0 < bits)%Z /\
      IdpfOk i (2 ^ 132) /\ wf_field (id_field_inner i) /\ wf_field (id_field_leaf i) /\
      Z.of_nat (id_VALUE_LEN i) = value_len /\ Z.of_nat (id_BITS i) = bits /\
      id_KEY_SIZE i = 16 /\ id_NONCE_SIZE i = 16 /\ id_RAND_SIZE i = 32
  | Raise e => e = AssertionError /\ (value_len <= 0 \/ bits <= 0)%Z
  end.
Proof. exact idpf_init_cases. Qed.
Print Assumptions C34_constructor.

(** C34.  gen succeeds on well-formed arguments (or runs out); it returns a
    well-formed public share and the two halves of the randomness as keys. *)
Theorem C34_gen : forall (i : Idpf) (lim : Z), IdpfOk i lim ->
  forall alpha beta_inner beta_leaf ctx nonce rand,
  gen_args_ok i alpha beta_inner beta_leaf ctx nonce rand ->
  match idpf_gen i alpha beta_inner beta_leaf ctx nonce rand with
  | Ok (public_share, keys) => idpf_public_wf i public_share /\
      exists k0 k1, keys = [k0; k1] /\ length k0 = id_KEY_SIZE i /\ length k1 = id_KEY_SIZE i /\ rand = k0 ++ k1
  | Raise e => e = OutOfFuel /\ idpf_ran_out i
  end.
Proof. exact gen_total. Qed.
Print Assumptions C34_gen.

(** C34.  The two evaluations succeed (or run out) on every level and every
    duplicate-free list of prefixes of the level, and for each prefix add up to
    the value programmed at the level if the prefix is on the path to alpha, and
    to zero otherwise. *)
Theorem C34_eval : forall (i : Idpf) (lim : Z), IdpfOk i lim ->
  forall alpha beta_inner beta_leaf ctx nonce rand public_share k0 k1 level prefixes,
  gen_args_ok i alpha beta_inner beta_leaf ctx nonce rand ->
  idpf_gen i alpha beta_inner beta_leaf ctx nonce rand = Ok (public_share, [k0; k1]) ->
  level < id_BITS i -> NoDup prefixes -> Forall (fun x => length x = S level) prefixes ->
  match idpf_eval i 0 public_share k0 (Z.of_nat level) prefixes ctx nonce,
        idpf_eval i 1 public_share k1 (Z.of_nat level) prefixes ctx nonce with
  | Ok out0, Ok out1 =>
      length out0 = length prefixes /\ length out1 = length prefixes /\
      Forall (of_level i level (id_VALUE_LEN i)) out0 /\ Forall (of_level i level (id_VALUE_LEN i)) out1 /\
      forall k d, k < length prefixes ->
        fv_add (nth k out0 d) (nth k out1 d)
        = Ok (point_value i alpha beta_inner beta_leaf level (nth k prefixes []))
  | Raise e, _ => e = OutOfFuel /\ idpf_ran_out i
  | Ok _, Raise e => e = OutOfFuel /\ idpf_ran_out i
  end.
Proof. exact eval_sums. Qed.
Print Assumptions C34_eval.

(** A toy TurboSHAKE128 and block cipher for the examples. *)
Definition toy_ts : TurboShake := fun m d n =>
  z2b (fold_left (fun a x => (a * 31 + b2z x + 7) mod 251)%Z m (d + Z.of_nat n * Z.of_nat n * 5) mod 256)%Z.
Definition toy_aes : BlockCipher := fun k b =>
  map (fun x => z2b ((b2z (fst x) * 3 + b2z (snd x) * 5 + 11) mod 256)) (combine k b).

(** A concrete run: 3-bit inputs, two-element values. *)
Example C34_example : let i := idpf_obj toy_ts toy_aes 10 2 3 in
  (let* (ps, keys) := idpf_gen i [true; false; true] [[fof 1; fof 5]; [fof 2; fof 6]] [fof 3; fof 7] [x01] (repeat x02 16) (repeat x03 32) in
   let prefixes := [[true; true]; [true; false]; [false; false]] in
   let* o0 := idpf_eval i 0 ps (nth 0 keys []) 1 prefixes [x01] (repeat x02 16) in
   let* o1 := idpf_eval i 1 ps (nth 1 keys []) 1 prefixes [x01] (repeat x02 16) in
   let* sums := mapM (fun x => fv_add (fst x) (snd x)) (combine o0 o1) in
   Ok (map fv_vals sums)) = Ok [[0; 0]; [2; 6]; [0; 0]]%Z.
Proof. vm_compute. reflexivity. Qed.

(** C35.  The answer for a prefix does not depend on the other prefixes or their
    order: a request succeeds exactly when its aggregator id, level and prefixes
    are acceptable and each single-prefix request succeeds, with those answers. *)
Theorem C35_independent : forall (i : Idpf) j public_share key level prefixes ctx nonce outs,
  idpf_eval i j public_share key level prefixes ctx nonce = Ok outs <->
  j < 2 /\ (0 <= level < Z.of_nat (id_BITS i))%Z /\ NoDup prefixes /\
  Forall2 (fun x o => idpf_eval i j public_share key level [x] ctx nonce = Ok [o]) prefixes outs.
Proof. exact eval_independent. Qed.
Print Assumptions C35_independent.

(** C35.  On well-formed keys and public shares, ValueError is raised exactly for
    bad aggregator ids, levels, duplicates or prefix lengths. *)
Theorem C35_arguments : forall (i : Idpf) (lim : Z), IdpfOk i lim ->
  forall j public_share key level prefixes ctx nonce,
  ctx_ok ctx -> length key = id_KEY_SIZE i -> idpf_public_wf i public_share ->
  let good := j < 2 /\ (0 <= level < Z.of_nat (id_BITS i))%Z /\ NoDup prefixes /\
              Forall (fun x => Z.of_nat (length x) = level + 1)%Z prefixes in
  match idpf_eval i j public_share key level prefixes ctx nonce with
  | Ok _ => good
  | Raise (ValueError _) => ~ good
  | Raise e => e = OutOfFuel /\ idpf_ran_out i
  end.
Proof. exact eval_args. Qed.
Print Assumptions C35_arguments.

(** The exception of a call, if any. *)
Definition exn_of {A} (r : res A) : option exn := match r with Ok _ => None | Raise e => Some e end.

Definition ok_or {A} (d : A) (r : res A) : A := match r with Ok x => x | Raise _ => d end.
Definition ex_idpf : Idpf := idpf_obj toy_ts toy_aes 10 1 2.
Definition ex_beta_inner : list (list (F (id_field_inner ex_idpf))) := [[fof 1]].
Definition ex_beta_leaf : list (F (id_field_leaf ex_idpf)) := [fof 3].
Definition ex_ps : list (CorrectionWord ex_idpf) :=
  fst (ok_or ([], []) (idpf_gen ex_idpf [true; false] ex_beta_inner ex_beta_leaf [x01] (repeat x02 16) (repeat x03 32))).

Example C35_example :
  let ev j := idpf_eval ex_idpf j ex_ps (repeat x03 16) in
  is_ok (ev 0 0%Z [[true]; [false]] [] (repeat x02 16)) = true /\
  exn_of (ev 2 0%Z [[true]] [] []) = Some (ValueError "aggregator id out of range") /\
  exn_of (ev 1 2%Z [[true]] [] []) = Some (ValueError "level out of range") /\
  exn_of (ev 1 (-1)%Z [] [] []) = Some (ValueError "level out of range") /\
  exn_of (ev 1 0%Z [[true]; [true]] [] []) = Some (ValueError "prefixes must be unique") /\
  exn_of (ev 1 0%Z [[true; true]] [] []) = Some (ValueError "incorrect prefix length").
Proof. repeat apply conj; vm_compute; reflexivity. Qed.

(** C36.  pack_bits produces ceil(n/8) bytes; bit [8k+j] is bit [j] of byte [k],
    and the padding is zero. *)
Theorem C36_pack : forall bits, exists p, pack_bits bits = Ok p /\ length p = (length bits + 7) / 8 /\
  forall k j, k < length p -> j < 8 ->
    Z.testbit (b2z (nth k p x00)) (Z.of_nat j) = nth (8 * k + j) bits false.
Proof. exact pack_bits_spec. Qed.
Print Assumptions C36_pack.

(** C36.  pack_bits and unpack_bits are mutually inverse; unpack_bits accepts
    nothing but packed bits. *)
Theorem C36_pack_unpack :
  (forall bits, bits <> [] -> exists p, pack_bits bits = Ok p /\ unpack_bits p (length bits) = Ok bits) /\
  (forall p n bits, unpack_bits p n = Ok bits -> length bits = n /\ pack_bits bits = Ok p).
Proof. exact (conj pack_unpack unpack_pack). Qed.
Print Assumptions C36_pack_unpack.

(** C36, the exception: the empty list packs to the empty string, which
    unpack_bits cannot read back. *)
Theorem C36_empty_refuted : pack_bits [] = Ok [] /\ unpack_bits [] 0 = Raise IndexError.
Proof. split; reflexivity. Qed.
Print Assumptions C36_empty_refuted.

(** C36.  Public shares: encoding round-trips, and decode accepts only canonical
    encodings of well-formed shares. *)
Theorem C36_public_share : forall (i : Idpf),
  wf_field (id_field_inner i) -> wf_field (id_field_leaf i) -> 0 < id_BITS i ->
  canonical_codec (idpf_public_wf i) (idpf_encode_public_share i) (idpf_decode_public_share i).
Proof. exact idpf_public_codec. Qed.
Print Assumptions C36_public_share.

Definition ex_encoded : bytes := ok_or [] (idpf_encode_public_share ex_idpf ex_ps).
Example C36_example : let i := ex_idpf in
  length ex_encoded = 1 + 2 * 16 + 8 + 32 /\
  (let* ps := idpf_decode_public_share i ex_encoded in idpf_encode_public_share i ps) = Ok ex_encoded /\
  exn_of (idpf_decode_public_share i (ex_encoded ++ [x00])) = Some (ValueError "trailing bytes") /\
  exn_of (idpf_decode_public_share i (x10 :: tl ex_encoded)) = Some (ValueError "trailing bits").
Proof. repeat apply conj; vm_compute; reflexivity. Qed.

(** Encoding the empty public share (no level at all, so not well-formed) fails. *)
Example C36_no_levels : exn_of (idpf_encode_public_share ex_idpf []) = Some (ValueError "not enough values to unpack").
Proof. vm_compute. reflexivity. Qed.
