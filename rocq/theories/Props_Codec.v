(** Properties C01, C02, C05, C13, C16: integer, vector and bit helpers of
    common.py and the field-vector codec of field.py. *)
From Verif Require Import CodecProofs.
Open Scope Z_scope.

(** C01.  [to_le_bytes]/[to_be_bytes] succeed exactly on 0 <= v < 2^(8n), the
    result has n bytes with the little-/big-endian positional value v; any
    other v raises ValueError. *)
Theorem C01_int_encode : forall (v : Z) (n : nat),
  (forall b, to_le_bytes v n = Ok b <->
     0 <= v < 2 ^ (8 * Z.of_nat n) /\ length b = n /\
     v = zsum n (fun i => b2z (nth i b x00) * 256 ^ Z.of_nat i)) /\
  (forall b, to_be_bytes v n = Ok b <->
     0 <= v < 2 ^ (8 * Z.of_nat n) /\ length b = n /\
     v = zsum n (fun i => b2z (nth i b x00) * 256 ^ Z.of_nat (n - 1 - i))) /\
  (~ 0 <= v < 2 ^ (8 * Z.of_nat n) ->
     (exists m, to_le_bytes v n = Raise (ValueError m)) /\
     (exists m, to_be_bytes v n = Raise (ValueError m))).
Proof. exact codec_int_encode. Qed.
Print Assumptions C01_int_encode.

(** C01.  Every byte string decodes to its positional value, whose encoding is
    the same byte string. *)
Theorem C01_int_decode : forall b : bytes,
  from_le_bytes b = zsum (length b) (fun i => b2z (nth i b x00) * 256 ^ Z.of_nat i) /\
  from_be_bytes b = zsum (length b) (fun i => b2z (nth i b x00) * 256 ^ Z.of_nat (length b - 1 - i)) /\
  to_le_bytes (from_le_bytes b) (length b) = Ok b /\
  to_be_bytes (from_be_bytes b) (length b) = Ok b.
Proof. exact codec_int_decode. Qed.
Print Assumptions C01_int_decode.

Example C01_example :
  to_le_bytes 258 3 = Ok [x02; x01; x00] /\ to_be_bytes 258 3 = Ok [x00; x01; x02] /\
  from_be_bytes [x01; x02] = 258 /\ is_ok (to_le_bytes 256 1) = false.
Proof. repeat split. Qed.

(** C02.  The vector codec of every field class whose elements fit in
    ENCODED_SIZE bytes. *)
Theorem C02_vec_codec : forall P : FieldClass, wf_field P ->
  (forall v : list (F P), exists b,
     encode_vec v = Ok b /\ length b = (length v * ENCODED_SIZE P)%nat /\ decode_vec b = Ok v /\
     forall i, (i < length v)%nat ->
       from_le_bytes (slice b (i * ENCODED_SIZE P) ((i + 1) * ENCODED_SIZE P)) = val (nth i v f0)) /\
  (forall b (v : list (F P)), decode_vec b = Ok v -> encode_vec v = Ok b) /\
  (forall b e, decode_vec b = Raise e :> res (list (F P)) -> exists m, e = ValueError m).
Proof. exact @codec_vec. Qed.
Print Assumptions C02_vec_codec.

(** C02.  [decode_vec] accepts exactly the strings made of whole elements, each
    below the modulus. *)
Theorem C02_vec_decode_domain : forall (P : FieldClass) (b : bytes), wf_field P ->
  is_ok (decode_vec b : res (list (F P))) = true <->
  (length b mod ENCODED_SIZE P = 0)%nat /\
  forall i, (i < length b / ENCODED_SIZE P)%nat ->
    from_le_bytes (slice b (i * ENCODED_SIZE P) ((i + 1) * ENCODED_SIZE P)) < MODULUS P.
Proof. exact @codec_vec_rejects. Qed.
Print Assumptions C02_vec_decode_domain.

(** The four concrete fields meet the hypothesis. *)
Theorem C02_fields : wf_field Field64 /\ wf_field Field96 /\ wf_field Field128 /\ wf_field Field255.
Proof. repeat split; vm_compute; try lia; discriminate. Qed.
Print Assumptions C02_fields.

(** C05.  Power-of-two helpers. *)
Theorem C05_pow2_helpers : forall n : Z,
  (forall r, next_power_of_2 n = Ok r <->
     0 < n /\ (exists k : nat, r = 2 ^ Z.of_nat k) /\ n <= r /\
     (forall k : nat, n <= 2 ^ Z.of_nat k -> r <= 2 ^ Z.of_nat k)) /\
  (n <= 0 -> next_power_of_2 n = Raise AssertionError) /\
  (forall k, assert_power_of_2 n = Ok k <-> n = 2 ^ Z.of_nat k) /\
  ((forall k : nat, n <> 2 ^ Z.of_nat k) -> exists e, assert_power_of_2 n = Raise e).
Proof. exact pow2_helpers. Qed.
Print Assumptions C05_pow2_helpers.

(** C05.  [bitrev k] reverses the k-bit representation and is an involution. *)
Theorem C05_bitrev : forall (k : nat) (n : Z),
  (0 <= n < 2 ^ Z.of_nat k ->
   exists r, bitrev k n = Ok r /\ 0 <= r < 2 ^ Z.of_nat k /\ bitrev k r = Ok n /\
     forall i, (i < k)%nat -> Z.testbit r (Z.of_nat i) = Z.testbit n (Z.of_nat (k - 1 - i))) /\
  (~ 0 <= n < 2 ^ Z.of_nat k -> bitrev k n = Raise AssertionError).
Proof. exact bitrev_spec. Qed.
Print Assumptions C05_bitrev.

Example C05_example : next_power_of_2 5 = Ok 8 /\ assert_power_of_2 8 = Ok 3%nat /\
  bitrev 4 3 = Ok 12 /\ bitrev 3 8 = Raise AssertionError.
Proof. repeat split. Qed.

(** C13.  Vector helpers. *)
Theorem C13_vec_ops : forall (P : FieldClass) (l r : list (F P)),
  (length l = length r -> exists s d,
     vec_add l r = Ok s /\ vec_sub l r = Ok d /\
     length s = length l /\ length d = length l /\
     (forall i, (i < length l)%nat ->
        nth i s f0 = fadd (nth i l f0) (nth i r f0) /\
        nth i d f0 = fsub (nth i l f0) (nth i r f0)) /\
     vec_sub s r = Ok l /\ vec_add d r = Ok l) /\
  (length l <> length r ->
     (exists m, vec_add l r = Raise (ValueError m)) /\ (exists m, vec_sub l r = Raise (ValueError m))) /\
  (length (vec_neg l) = length l /\
   forall i, (i < length l)%nat -> nth i (vec_neg l) f0 = fneg (nth i l f0)).
Proof. exact @vec_ops. Qed.
Print Assumptions C13_vec_ops.

Theorem C13_xor : forall a b : bytes,
  length (xor a b) = Nat.min (length a) (length b) /\
  (forall i, (i < Nat.min (length a) (length b))%nat ->
     b2z (nth i (xor a b) x00) = Z.lxor (b2z (nth i a x00)) (b2z (nth i b x00))) /\
  xor a b = xor b a /\
  (length a = length b -> xor (xor a b) b = a).
Proof. exact xor_spec. Qed.
Print Assumptions C13_xor.

(** C16.  Tags for different (class, algorithm, usage), whatever is appended to
    them (the application context), never coincide; inputs out of range raise. *)
Theorem C16_format_dst_injective : forall c a u c' a' u' d d' ctx ctx',
  format_dst c a u = Ok d -> format_dst c' a' u' = Ok d' -> d ++ ctx = d' ++ ctx' ->
  c = c' /\ a = a' /\ u = u' /\ ctx = ctx'.
Proof. exact format_dst_inj. Qed.
Print Assumptions C16_format_dst_injective.

Theorem C16_format_dst_domain : forall c a u,
  0 <= c < 2 ^ 8 -> 0 <= a < 2 ^ 32 -> 0 <= u < 2 ^ 16 -> exists d, format_dst c a u = Ok d.
Proof. exact format_dst_total. Qed.
Print Assumptions C16_format_dst_domain.

Example C16_example : format_dst 0 4294901761 1 = Ok [x12; x00; xff; xff; x00; x01; x00; x01].
Proof. reflexivity. Qed.
