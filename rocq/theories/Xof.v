(** Model of /repo/poc/vdaf_poc/xof.py. *)
From Verif Require Export Field.
Open Scope Z_scope.

(** xof.py:16-46: the attributes and abstract methods of a XOF class.
    [__init__] takes seed, dst and binder.  An instance is the mutable state of
    the stream, so [next] returns the output and the new state.
    [loop_bound] is not in the code: it bounds the number of iterations of the
    [while] loop of [next_vec], whose model answers [Raise OutOfFuel] when the
    bound is reached. *)
Record XofClass : Type := {
  SEED_SIZE : nat;
  xof_state : Type;
  xof_init : bytes -> bytes -> bytes -> res xof_state;
  xof_next : xof_state -> nat -> res (bytes * xof_state);
  loop_bound : nat;
}.
Arguments xof_init X seed dst binder : rename.
Arguments xof_next X xof len : rename.

(** xof.py:54-67 *)
Definition derive_seed (X : XofClass) (seed dst binder : bytes) : res bytes :=
  let* xof := xof_init X seed dst binder in
  let* (out, _) := xof_next X xof (SEED_SIZE X) in
  Ok out.

(** xof.py:79-85, the [while] loop with its accumulator [vec]. *)
Fixpoint next_vec_loop (X : XofClass) (P : FieldClass) (fuel : nat) (m : Z)
  (len : nat) (xof : xof_state X) (vec : list (F P)) : res (list (F P) * xof_state X) :=
  if (length vec <? len)%nat then
    match fuel with
    | O => Raise OutOfFuel
    | S fuel' =>
      let* (b, xof) := xof_next X xof (ENCODED_SIZE P) in
      let x := Z.land (from_le_bytes b) m in
      if x <? MODULUS P then
        let* e := field_init x in
        next_vec_loop X P fuel' m len xof (vec ++ [e])
      else next_vec_loop X P fuel' m len xof vec
    end
  else Ok (vec, xof).

(** xof.py:69-85 *)
Definition next_vec (X : XofClass) (P : FieldClass) (xof : xof_state X) (len : nat)
  : res (list (F P) * xof_state X) :=
  let* p := next_power_of_2 (MODULUS P) in
  let m := p - 1 in
  next_vec_loop X P (loop_bound X) m len xof [].

(** xof.py:87-104 *)
Definition expand_into_vec (X : XofClass) (P : FieldClass) (seed dst binder : bytes)
  (len : nat) : res (list (F P)) :=
  let* xof := xof_init X seed dst binder in
  let* (vec, _) := next_vec X P xof len in
  Ok vec.

(** Bytes [pos .. pos+len-1] of an infinite byte stream. *)
Definition stream_bytes (s : nat -> byte) (pos len : nat) : bytes := map s (seq pos len).

(** The type of TurboSHAKE128 (a primitive of the library PyCryptodome): from
    message and domain byte to the infinite output stream.  A hash object on
    which [update] and then [read] are called is the message absorbed so far
    and the number of bytes read so far. *)
Definition TurboShake : Type := bytes -> Z -> nat -> byte.

(** xof.py:132-138 [XofTurboShake128.__init__]: the message absorbed. *)
Definition turboshake_message (seed dst binder : bytes) : res bytes :=
  let* dst_len := to_le_bytes (Z.of_nat (length dst)) 2 in
  let* seed_len := to_le_bytes (Z.of_nat (length seed)) 1 in
  Ok (dst_len ++ dst ++ seed_len ++ seed ++ binder).

(** xof.py:115-154 *)
Definition XofTurboShake128 (turboshake128 : TurboShake) (bound : nat) : XofClass :=
  {| SEED_SIZE := 32;
     xof_state := bytes * nat;
     xof_init := fun seed dst binder =>
       let* m := turboshake_message seed dst binder in Ok (m, 0%nat);
     xof_next := fun '(m, l) len =>
       Ok (stream_bytes (turboshake128 m 1) l len, (m, (l + len)%nat));
     loop_bound := bound |}.

(** The type of AES-128 (a primitive of the library PyCryptodome) in ECB mode
    on one block: key and block to block. *)
Definition BlockCipher : Type := bytes -> bytes -> bytes.

(** xof.py:250-252, body of [hash_block]. *)
Definition sigma (block : bytes) : bytes :=
  let lo := firstn 8 block in
  let hi := skipn 8 block in
  concat_bytes [hi; xor hi lo].
Definition hash_block (aes128 : BlockCipher) (fixed_key block : bytes) : bytes :=
  let sigma_block := sigma block in
  xor (aes128 fixed_key sigma_block) sigma_block.

(** xof.py:211-215: the message from which the AES key is derived. *)
Definition fixed_key_message (dst binder : bytes) : res bytes :=
  let* dst_len := to_le_bytes (Z.of_nat (length dst)) 2 in
  Ok (dst_len ++ dst ++ binder).

(** Instance attributes of XofFixedKeyAes128 (xof.py:202, 216-218). *)
Record AesState : Type := {
  fixed_key : bytes;
  aes_seed : bytes;
  length_consumed : nat;
}.

(** xof.py:199-218 [XofFixedKeyAes128.__init__] *)
Definition aes_init (turboshake128 : TurboShake) (seed dst binder : bytes) : res AesState :=
  let* _ := check (length seed =? 16)%nat (ValueError "incorrect seed size") in
  let* m := fixed_key_message dst binder in
  Ok {| fixed_key := stream_bytes (turboshake128 m 2) 0 16;
        aes_seed := seed;
        length_consumed := 0 |}.

(** xof.py:220-233 [XofFixedKeyAes128.next] *)
Definition aes_next (aes128 : BlockCipher) (st : AesState) (len : nat) : res (bytes * AesState) :=
  let offset := (length_consumed st mod 16)%nat in
  let new_length := (length_consumed st + len)%nat in
  let block_range := range (length_consumed st / 16) (new_length / 16 + 1) in
  let* hashed_blocks := mapM (fun i =>
    let* e := to_le_bytes (Z.of_nat i) 16 in
    Ok (hash_block aes128 (fixed_key st) (xor (aes_seed st) e))) block_range in
  Ok (slice (concat_bytes hashed_blocks) offset (offset + len),
      {| fixed_key := fixed_key st; aes_seed := aes_seed st; length_consumed := new_length |}).

(** xof.py:165-252 *)
Definition XofFixedKeyAes128 (turboshake128 : TurboShake) (aes128 : BlockCipher) (bound : nat)
  : XofClass :=
  {| SEED_SIZE := 16;
     xof_state := AesState;
     xof_init := aes_init turboshake128;
     xof_next := aes_next aes128;
     loop_bound := bound |}.
