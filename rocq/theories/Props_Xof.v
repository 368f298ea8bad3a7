(** Properties C15, C17, C18, C19: the XOFs of xof.py, for every TurboSHAKE128
    and every block cipher. *)
From Verif Require Import XofProofs XofFacts SampleFacts.
Open Scope nat_scope.

(** C15.  XofTurboShake128 absorbs the message computed by
    [turboshake_message]; construction fails (with ValueError) exactly when dst
    or seed is too long. *)
Theorem C15_turboshake_domain : forall (ts : TurboShake) (bound : nat) (seed dst binder : bytes),
  (forall st, xof_init (XofTurboShake128 ts bound) seed dst binder = Ok st ->
     exists m, turboshake_message seed dst binder = Ok m /\ st = (m, 0)) /\
  (is_ok (xof_init (XofTurboShake128 ts bound) seed dst binder) = true <->
     length dst <= Z.to_nat 65535 /\ length seed <= 255) /\
  (forall e, xof_init (XofTurboShake128 ts bound) seed dst binder = Raise e -> exists msg, e = ValueError msg).
Proof. exact framing_ts. Qed.
Print Assumptions C15_turboshake_domain.

(** C15.  The absorbed message determines seed, dst and binder. *)
Theorem C15_turboshake_injective : forall seed dst binder seed' dst' binder' m,
  turboshake_message seed dst binder = Ok m -> turboshake_message seed' dst' binder' = Ok m ->
  seed = seed' /\ dst = dst' /\ binder = binder'.
Proof. exact turboshake_message_inj. Qed.
Print Assumptions C15_turboshake_injective.

(** C15.  The same for the key derivation of XofFixedKeyAes128. *)
Theorem C15_fixed_key_domain : forall (ts : TurboShake) (aes : BlockCipher) (bound : nat) (seed dst binder : bytes),
  (forall st, xof_init (XofFixedKeyAes128 ts aes bound) seed dst binder = Ok st ->
     exists m, fixed_key_message dst binder = Ok m /\
     st = {| fixed_key := stream_bytes (ts m 2%Z) 0 16; aes_seed := seed; length_consumed := 0 |}) /\
  (is_ok (xof_init (XofFixedKeyAes128 ts aes bound) seed dst binder) = true <->
     length dst <= Z.to_nat 65535 /\ length seed = 16) /\
  (forall e, xof_init (XofFixedKeyAes128 ts aes bound) seed dst binder = Raise e -> exists msg, e = ValueError msg).
Proof. exact framing_aes. Qed.
Print Assumptions C15_fixed_key_domain.

Theorem C15_fixed_key_injective : forall dst binder dst' binder' m,
  fixed_key_message dst binder = Ok m -> fixed_key_message dst' binder' = Ok m ->
  dst = dst' /\ binder = binder'.
Proof. exact fixed_key_message_inj. Qed.
Print Assumptions C15_fixed_key_injective.

Example C15_example :
  turboshake_message [x07] [x01; x02] [x09] = Ok [x02; x00; x01; x02; x01; x07; x09] /\
  fixed_key_message [x01; x02] [x09] = Ok [x02; x00; x01; x02; x09].
Proof. split; reflexivity. Qed.

(** C17.  Any sequence of [next] calls on a fresh XofFixedKeyAes128 returns the
    requested lengths, and the answers concatenate to a prefix of one stream
    (for a total of less than 2^132 bytes: the block counter has 128 bits). *)
Theorem C17_stream : forall (ts : TurboShake) (aes : BlockCipher) (bound : nat),
  (forall k b, length b = 16 -> length (aes k b) = 16) ->
  forall seed dst binder st, xof_init (XofFixedKeyAes128 ts aes bound) seed dst binder = Ok st ->
  exists s : nat -> byte, forall lens, (Z.of_nat (list_sum lens) < 2 ^ 132)%Z ->
    exists bs st', next_calls (XofFixedKeyAes128 ts aes bound) st lens = Ok (bs, st') /\
      concat bs = stream_bytes s 0 (list_sum lens) /\ map (@length byte) bs = lens.
Proof. exact aes_calls. Qed.
Print Assumptions C17_stream.

(** C17.  Block [i] of the stream is the hash of the seed XORed with the
    little-endian counter [i]. *)
Theorem C17_blocks : forall (ts : TurboShake) (aes : BlockCipher) (bound : nat),
  (forall k b, length b = 16 -> length (aes k b) = 16) ->
  forall seed dst binder st i b st',
  xof_init (XofFixedKeyAes128 ts aes bound) seed dst binder = Ok st ->
  (Z.of_nat i < 2 ^ 127)%Z ->
  xof_next (XofFixedKeyAes128 ts aes bound) st (16 * i + 16) = Ok (b, st') ->
  slice b (16 * i) (16 * i + 16)
  = hash_block aes (fixed_key st) (xor seed (le_bytes 16 (Z.of_nat i))).
Proof. exact aes_block_stream. Qed.
Print Assumptions C17_blocks.

(** C17.  The linear map applied before the block cipher is injective. *)
Theorem C17_sigma_injective : forall a b, length a = 16 -> length b = 16 -> sigma a = sigma b -> a = b.
Proof. exact sigma_inj. Qed.
Print Assumptions C17_sigma_injective.

(** C17.  The same stream property for XofTurboShake128. *)
Theorem C17_turboshake_stream : forall (ts : TurboShake) (bound : nat) seed dst binder st,
  xof_init (XofTurboShake128 ts bound) seed dst binder = Ok st ->
  exists s : nat -> byte, forall lens,
    exists bs st', next_calls (XofTurboShake128 ts bound) st lens = Ok (bs, st') /\
      concat bs = stream_bytes s 0 (list_sum lens) /\ map (@length byte) bs = lens.
Proof. exact ts_calls. Qed.
Print Assumptions C17_turboshake_stream.

(** A block cipher meeting the hypothesis, and a run of three calls. *)
Example C17_example :
  let X := XofFixedKeyAes128 (fun _ _ _ => x00) (fun k b => b) 0 in
  match xof_init X (zeros 16) [] [] with
  | Ok st => match next_calls X st [3; 20; 10], next_calls X st [33] with
             | Ok (bs, _), Ok (cs, _) => concat bs = concat cs /\ map (@length byte) bs = [3; 20; 10]
             | _, _ => False
             end
  | Raise _ => False
  end.
Proof. split; reflexivity. Qed.

(** C18.  [next_vec] on a stream [s] at position [p]: it returns exactly [len]
    elements, namely the chunks below the modulus among the first [k] chunks,
    where [k] is the least number of chunks containing [len] of them, and
    leaves the stream just after chunk [k].  Within the modelled bound on the
    number of iterations it never fails otherwise. *)
Theorem C18_rejection_sampling : forall (X : XofClass) (P : FieldClass) lim st s at_ len p,
  streams X lim st s at_ -> (Z.of_nat (p + loop_bound X * ENCODED_SIZE P) < lim)%Z ->
  (forall v st', next_vec X P (at_ p) len = Ok (v, st') ->
     length v = len /\ exists k, k <= loop_bound X /\ map val v = accepted P s p k /\
       (forall j, j < k -> length (accepted P s p j) < len) /\ st' = at_ (p + k * ENCODED_SIZE P)) /\
  (is_ok (next_vec X P (at_ p) len) = true <-> len <= length (accepted P s p (loop_bound X))) /\
  (forall e, next_vec X P (at_ p) len = Raise e -> e = OutOfFuel).
Proof. exact next_vec_spec. Qed.
Print Assumptions C18_rejection_sampling.

(** C18.  The bound does not influence any completed call. *)
Theorem C18_bound_irrelevant : forall (X : XofClass) (P : FieldClass) st len b r,
  loop_bound X <= b -> next_vec X P st len = r -> r <> Raise OutOfFuel ->
  next_vec (with_bound X b) P st len = r.
Proof. exact next_vec_bound. Qed.
Print Assumptions C18_bound_irrelevant.

(** C18.  Every field element has the same number of accepting chunks, and, over
    all random tapes of [n] chunks, any two vectors of the same length are
    returned for the same number of tapes. *)
Theorem C18_uniform : forall P : FieldClass, wf_field P ->
  (forall x : F P, forall L,
     enumerates L (fun b => length b = ENCODED_SIZE P /\ chunk_value P b = val x) ->
     Z.of_nat (length L) = (2 ^ (8 * Z.of_nat (ENCODED_SIZE P) - bits_of P))%Z) /\
  (forall n (v w : list (F P)) L1 L2, length v = length w ->
     enumerates L1 (fun t => length t = n * ENCODED_SIZE P /\
                             exists st, next_vec (TapeXof n) P t (length v) = Ok (v, st)) ->
     enumerates L2 (fun t => length t = n * ENCODED_SIZE P /\
                             exists st, next_vec (TapeXof n) P t (length w) = Ok (w, st)) ->
     length L1 = length L2).
Proof. exact next_vec_uniform_wf. Qed.
Print Assumptions C18_uniform.

(** The XOFs of the code are streams, so C18 applies to them; the bits kept are
    those of the fields' moduli. *)
Example C18_xofs : forall (ts : TurboShake) (aes : BlockCipher) (bound : nat),
  (forall k b, length b = 16 -> length (aes k b) = 16) ->
  (forall lim, XofOk (XofTurboShake128 ts bound) lim) /\ XofOk (XofFixedKeyAes128 ts aes bound) (2 ^ 132).
Proof. intros. split; [intros; apply turboshake_ok | now apply aes_ok]. Qed.
Example C18_bits : bits_of Field64 = 64%Z /\ bits_of Field96 = 96%Z /\
  bits_of Field128 = 128%Z /\ bits_of Field255 = 255%Z.
Proof. repeat split. Qed.
(** A chunk at or above the modulus is skipped. *)
Example C18_example :
  match next_vec (TapeXof 3) Field64 (repeat xff 8 ++ x05 :: zeros 7 ++ [x01; x02]) 1 with
  | Ok (v, rest) => map val v = [5%Z] /\ rest = [x01; x02]
  | Raise _ => False
  end.
Proof. split; reflexivity. Qed.

(** C19.  Sampling [a + b] elements is sampling [a] and then [b]. *)
Theorem C19_split : forall (X : XofClass) (P : FieldClass) st a b,
  (forall v st2, next_vec X P st (a + b) = Ok (v, st2) ->
     exists st1, next_vec X P st a = Ok (firstn a v, st1) /\ next_vec X P st1 b = Ok (skipn a v, st2)) /\
  (forall v1 st1 v2 st2, next_vec X P st a = Ok (v1, st1) -> next_vec X P st1 b = Ok (v2, st2) ->
     next_vec (with_bound X (2 * loop_bound X)) P st (a + b) = Ok (v1 ++ v2, st2)).
Proof. exact next_vec_split. Qed.
Print Assumptions C19_split.

(** C19.  Poplar1's fast-forward: after discarding 3*level elements, the next
    three are triple number [level] of the vector expanded in one go. *)
Theorem C19_fast_forward : forall (X : XofClass) (P : FieldClass) st n level v st',
  level < n -> next_vec X P st (3 * n) = Ok (v, st') ->
  exists w st1 st2, next_vec X P st (3 * level) = Ok (w, st1) /\
    next_vec X P st1 3 = Ok (slice v (3 * level) (3 * level + 3), st2).
Proof. exact fast_forward. Qed.
Print Assumptions C19_fast_forward.

Example C19_example :
  is_ok (next_vec (TapeXof 6) Field64 (zeros 48) (3 * 2)) = true.
Proof. reflexivity. Qed.
