(** C84: the unit tests of the XOFs, the generators of the test vectors of the XOFs and
    of the IDPF, and the printing of long lines. *)
From Coq Require Import Strings.String.
From Verif Require Import XofTestsSpec XofTestsFacts XofFacts IdpfInst.
Open Scope nat_scope.

(** C84.  On a seed of the right length the test of a XOF passes, unless the model's
    bound on the rejection-sampling loop is hit. *)
Theorem C84_test : forall X P lim expanded_len seed, XofOk X lim -> (700 < lim)%Z -> (Z.of_nat expanded_len < lim)%Z ->
  (Z.of_nat (SEED_SIZE X) < lim)%Z -> (Z.of_nat (loop_bound X * ENCODED_SIZE P) < lim)%Z ->
  length seed = SEED_SIZE X ->
  match test_xof X P expanded_len seed with
  | Ok _ => True
  | Raise e => e = OutOfFuel /\ exists dst binder, expand_into_vec X P seed dst binder expanded_len = Raise OutOfFuel
  end.
Proof. exact test_xof_outcome. Qed.
Print Assumptions C84_test.

(** C84.  Both XOFs of the document. *)
Theorem C84_both : forall ts aes bound seed, (forall k b, length b = 16 -> length (aes k b) = 16) -> (Z.of_nat bound < 2 ^ 120)%Z ->
  (length seed = 32 -> test_turboshake128 ts bound seed = Ok tt \/ test_turboshake128 ts bound seed = Raise OutOfFuel) /\
  (length seed = 16 -> test_fixedkeyaes128 ts aes bound seed = Ok tt \/ test_fixedkeyaes128 ts aes bound seed = Raise OutOfFuel).
Proof.
  intros ts aes bound seed Ha Hb. split; intros Hs.
  - unfold test_turboshake128.
    pose proof (test_xof_outcome (XofTurboShake128 ts bound) Field128 (2 ^ 132) 23 seed (turboshake_ok ts bound _)) as H.
    destruct (test_xof _ _ _ _) as [[]|e]; [now left|right]. f_equal. apply H; try exact Hs; try (cbn; lia).
  - unfold test_fixedkeyaes128.
    pose proof (test_xof_outcome (XofFixedKeyAes128 ts aes bound) Field128 (2 ^ 132) 23 seed (aes_ok ts aes Ha bound)) as H.
    destruct (test_xof _ _ _ _) as [[]|e]; [now left|right]. f_equal. apply H; try exact Hs; try (cbn; lia).
Qed.
Print Assumptions C84_both.

(** A XOF whose calls of next() start over fails the test. *)
Definition c84_tests : list (res unit) := Eval vm_compute in
  [test_xof (ForgetfulXof 100) Field128 23 [x00];
   test_turboshake128 (fun m d i => z2b ((Z.of_nat i * Z.of_nat i) mod 251)) 30 (repeat x00 32);
   test_turboshake128 (fun m d i => z2b ((Z.of_nat i * Z.of_nat i) mod 251)) 3 (repeat x00 32)].
Example C84_example_tests : c84_tests = [Raise AssertionError; Ok tt; Raise OutOfFuel].
Proof. reflexivity. Qed.

(** C84.  The test of the rejection sampling: it passes exactly if the element
    accepted after 13882 others is the expected one, and fails if it is another. *)
Theorem C84_rejection : forall ts bound, let s := ts rejection_message 1%Z in
  match test_rejection_sampling ts bound with
  | Ok _ => exists k, k < bound /\ length (accepted Field64 s 0 k) = Z.to_nat 13882 /\ chunk Field64 s 0 k = 4857131209231097247%Z
  | Raise AssertionError => exists k, k < bound /\ length (accepted Field64 s 0 k) = Z.to_nat 13882 /\
      (chunk Field64 s 0 k < MODULUS Field64)%Z /\ chunk Field64 s 0 k <> 4857131209231097247%Z
  | Raise e => e = OutOfFuel /\ length (accepted Field64 s 0 bound) < Z.to_nat 13883
  end.
Proof. exact rejection_cases. Qed.
Print Assumptions C84_rejection.

(** C84.  The test vector of a XOF: the seed, the tag and the binder are those used;
    the derived seed is the beginning of the XOF's output, and the vector is made of
    the accepted chunks of the same output.  If no chunk is rejected the encoding of
    the vector is the output itself, so that it begins with the derived seed. *)
Theorem C84_vector : forall X lim, XofOk X lim -> (Z.of_nat (SEED_SIZE X) < lim)%Z -> (Z.of_nat (loop_bound X * 16) < lim)%Z ->
  let seed := test_vec_gen_rand (SEED_SIZE X) in
  match gen_test_vec_for_xof X with
  | Ok v => fromhex (xv_seed v) = Ok seed /\ fromhex (xv_dst v) = Ok vector_dst /\ fromhex (xv_binder v) = Ok vector_binder /\
      xv_length v = 40 /\ exists s, outputs X lim seed vector_dst vector_binder s /\
      fromhex (xv_derived_seed v) = Ok (stream_bytes s 0 (SEED_SIZE X)) /\
      exists (vec : list (F Field128)) encoded k, fromhex (xv_expanded_vec_field128 v) = Ok encoded /\ decode_vec encoded = Ok vec /\
        length vec = 40 /\ map val vec = accepted Field128 s 0 k /\
        ((forall j, j < 40 -> (chunk Field128 s 0 j < MODULUS Field128)%Z) -> encoded = stream_bytes s 0 640)
  | Raise e => e = OutOfFuel /\ expand_into_vec X Field128 seed vector_dst vector_binder 40 = Raise OutOfFuel
  end.
Proof. exact xof_vector. Qed.
Print Assumptions C84_vector.

(** The derived seed is then a prefix of the encoded vector. *)
Theorem C84_prefix : forall s n k, n <= k -> stream_bytes s 0 n = firstn n (stream_bytes s 0 k).
Proof. intros s n k. exact (stream_prefix s 0 n k). Qed.
Print Assumptions C84_prefix.

(** C84.  The test vector of an IDPF: read back, its public share and keys evaluate,
    at every level, to the level's number on the prefix of alpha and to zero on
    every other prefix; these are the values the test vector lists. *)
Theorem C84_idpf : forall (i : Idpf) lim, IdpfOk i lim -> wf_field (id_field_inner i) -> wf_field (id_field_leaf i) ->
  (Z.of_nat (id_BITS i) <= MODULUS (id_field_inner i))%Z -> (Z.of_nat (id_BITS i) <= MODULUS (id_field_leaf i))%Z ->
  forall alpha ctx, length alpha = id_BITS i -> ctx_ok ctx ->
  match gen_test_vec_for_idpf i alpha ctx with
  | Ok v =>
      iv_bits v = id_BITS i /\ iv_alpha v = alpha /\ fromhex (iv_ctx v) = Ok ctx /\
      map (map read_nat) (iv_beta_inner v) = map (fun level => repeat (Some (Z.of_nat level)) (id_VALUE_LEN i)) (seq 0 (id_BITS i - 1)) /\
      map read_nat (iv_beta_leaf v) = repeat (Some (Z.of_nat (id_BITS i - 1))) (id_VALUE_LEN i) /\
      exists nonce encoded public_share k0 k1, fromhex (iv_nonce v) = Ok nonce /\
      fromhex (iv_public_share v) = Ok encoded /\ idpf_decode_public_share i encoded = Ok public_share /\
      mapM fromhex (iv_keys v) = Ok [k0; k1] /\ k0 ++ k1 = test_vec_gen_rand (id_RAND_SIZE i) /\
      forall level prefixes, level < id_BITS i -> NoDup prefixes -> Forall (fun x => length x = S level) prefixes ->
      match idpf_eval i 0 public_share k0 (Z.of_nat level) prefixes ctx nonce,
            idpf_eval i 1 public_share k1 (Z.of_nat level) prefixes ctx nonce with
      | Ok out0, Ok out1 => forall k d, k < length prefixes ->
          exists total, fv_add (nth k out0 d) (nth k out1 d) = Ok total /\
          fv_vals total = repeat (if list_eq_dec Bool.bool_dec (nth k prefixes []) (firstn (S level) alpha)
                                  then Z.of_nat level else 0%Z) (id_VALUE_LEN i)
      | Raise e, _ => e = OutOfFuel /\ idpf_ran_out i
      | Ok _, Raise e => e = OutOfFuel /\ idpf_ran_out i
      end
  | Raise e => e = OutOfFuel /\ idpf_ran_out i
  end.
Proof. exact idpf_vector. Qed.
Print Assumptions C84_idpf.

(** C84.  Printing a long line: the pieces put together are the line, and every
    printed line but the last is 72 characters wide, the indentation included. *)
Theorem C84_wrapped : forall line tab, tab < 72 -> exists lines, print_wrapped_line line tab = Ok lines /\
  concat_s (map (drop tab) lines) = line /\
  forall k, k < length lines -> exists c, nth k lines EmptyString = (spaces tab ++ c)%string /\
    String.length c = if S k =? length lines then String.length line - k * (72 - tab) else 72 - tab.
Proof. exact wrapped_lines. Qed.
Print Assumptions C84_wrapped.

(** C84.  What is printed for an encoded value, with an even indentation (the code
    uses 2, 4 and 6), can be read by bytes.fromhex() as it stands. *)
Theorem C84_readable : forall b tab, tab < 72 -> Nat.even tab = true ->
  exists lines, print_wrapped_line (to_hex b) tab = Ok lines /\ fromhex (unlines lines) = Ok b.
Proof. exact wrapped_hex. Qed.
Print Assumptions C84_readable.

(** The exceptions: an odd indentation can split a byte, an indentation of 72 raises
    ValueError, and with a larger one the line is lost. *)
Theorem C84_wrapped_refuted :
  (exists b lines, print_wrapped_line (to_hex b) 1 = Ok lines /\ is_ok (fromhex (unlines lines)) = false) /\
  (forall line, exists msg, print_wrapped_line line 72 = Raise (ValueError msg)) /\
  (forall line tab, 72 < tab -> print_wrapped_line line tab = Ok []).
Proof.
  split; [|split].
  - exists (repeat x00 36). eexists. split; [vm_compute; reflexivity|]. vm_compute. reflexivity.
  - intros line. eexists. reflexivity.
  - intros line tab H. unfold print_wrapped_line. rewrite (proj2 (Nat.ltb_lt 72 tab) H). reflexivity.
Qed.
Print Assumptions C84_wrapped_refuted.

(** C84.  The test of bitrev(). *)
Theorem C84_bitrev : test_bitrev = Ok tt.
Proof. reflexivity. Qed.
Print Assumptions C84_bitrev.

(** The hypotheses are met: the IDPF of the test vector in /repo. *)
Definition c84_idpf : Idpf := idpf_obj (fun m d i => z2b (Z.of_nat i)) (fun k b => b) 10 2 10.
Definition c84_idpf_outcome : bool := Eval vm_compute in
  is_ok (gen_test_vec_for_idpf c84_idpf (repeat false 10) (byte_literal "some application")).
Example C84_example_idpf : IdpfOk c84_idpf (2 ^ 132) /\ c84_idpf_outcome = true.
Proof.
  split; [|reflexivity].
  apply (idpf_init_ok (fun m d i => z2b (Z.of_nat i)) (fun k b => b) 10 2 10); [auto|reflexivity|reflexivity].
Qed.
Example C84_example_wrapped : print_wrapped_line "abc" 4 = Ok ["    abc"%string] /\ print_wrapped_line "" 4 = Ok [] /\
  read_nat (str_nat 1337) = Some 1337%Z.
Proof. repeat split. Qed.
Definition c84_xof_outcome : option nat := Eval vm_compute in
  match gen_test_vec_for_xof (XofTurboShake128 (fun m d i => z2b ((Z.of_nat i * Z.of_nat i) mod 251)) 50) with
  | Ok v => Some (xv_length v) | Raise _ => None end.
Example C84_example_xof : c84_xof_outcome = Some 40.
Proof. reflexivity. Qed.
