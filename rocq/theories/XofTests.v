(** Model of /repo/poc/tests/test_xof.py and tests/test_common.py, and of the
    generation of the test vectors of the XOFs and of the IDPF by
    /repo/poc/gen_test_vec.py.  As in TestVectors.v the test vectors are kept as
    values; writing JSON files is not modelled.  What a function prints is the list
    of the lines it prints. *)
From Coq Require Import Strings.String Strings.Ascii Decimal DecimalString.
From Verif Require Export TestVectors IdpfTests.
Open Scope nat_scope.

(** tests/test_xof.py:8-30; [seed] is what gen_rand() returns. *)
Definition test_xof (X : XofClass) (P : FieldClass) (expanded_len : nat) (seed : bytes) : res unit :=
  let* dst := format_dst 7 1337 2 in
  let binder := byte_literal "a string that binds some protocol artifact to the output" in
  let* xof := xof_init X seed dst binder in
  let* (expanded_data, _) := xof_next X xof expanded_len in
  let* _ := assert_true (length expanded_data =? expanded_len) in
  let* xof := xof_init X seed dst binder in
  let* (want, _) := xof_next X xof 700 in
  let* xof := xof_init X seed dst binder in
  let* steps := range_step 0 700 7 in
  let* (got, _) := foldM (fun '(got, xof) _ =>
    let* (b, xof) := xof_next X xof 7 in
    Ok (got ++ b, xof)) steps ([], xof) in
  let* _ := assert_true (bytes_eqb got want) in
  let* derived_seed := derive_seed X seed dst binder in
  let* _ := assert_true (length derived_seed =? SEED_SIZE X) in
  let* expanded_vec := expand_into_vec X P seed dst binder expanded_len in
  assert_true (length expanded_vec =? expanded_len).

(** tests/test_xof.py:34-48 *)
Definition rejection_seed : bytes :=
  map z2b [68; 52; 29; 197; 45; 113; 162; 255; 46; 76; 48; 94; 147; 53; 218; 155; 25; 175; 198; 142; 16; 184; 181; 67; 105; 13;
           173; 157; 59; 187; 70; 186]%Z.
Definition test_rejection_sampling (ts : TurboShake) (bound : nat) : res unit :=
  let* expanded_vec := expand_into_vec (XofTurboShake128 ts bound) Field64 rejection_seed [] [] (Z.to_nat 13883) in
  let* x := get_last expanded_vec in
  let* want := field_init (P := Field64) 4857131209231097247 in
  assert_true (feqb x want).

(** tests/test_xof.py:50-54 *)
Definition test_turboshake128 (ts : TurboShake) (bound : nat) (seed : bytes) : res unit :=
  test_xof (XofTurboShake128 ts bound) Field128 23 seed.
Definition test_fixedkeyaes128 (ts : TurboShake) (aes : BlockCipher) (bound : nat) (seed : bytes) : res unit :=
  test_xof (XofFixedKeyAes128 ts aes bound) Field128 23 seed.

(** tests/test_common.py:6-10 *)
Definition test_bitrev : res unit :=
  let want := [0; 4; 2; 6; 1; 5; 3; 7]%Z in
  let* got := mapM (fun i => bitrev 3 (Z.of_nat i)) (range 0 8) in
  assert_true (ints_eqb got want).

(** gen_test_vec.py:76-83 *)
Record xof_vec : Type := {
  xv_seed : string;
  xv_dst : string;
  xv_binder : string;
  xv_length : nat;
  xv_derived_seed : string;
  xv_expanded_vec_field128 : string;
}.

(** gen_test_vec.py:70-89 *)
Definition gen_test_vec_for_xof (cls : XofClass) : res xof_vec :=
  let seed := test_vec_gen_rand (SEED_SIZE cls) in
  let dst := byte_literal "domain separation tag" in
  let binder := byte_literal "binder string" in
  let len := 40 in
  let* derived_seed := derive_seed cls seed dst binder in
  let* expanded := expand_into_vec cls Field128 seed dst binder len in
  let* encoded := encode_vec expanded in
  Ok {| xv_seed := to_hex seed; xv_dst := to_hex dst; xv_binder := to_hex binder; xv_length := len;
        xv_derived_seed := to_hex derived_seed; xv_expanded_vec_field128 := to_hex encoded |}.

(** Python's [str(x)] of a nonnegative integer. *)
Definition str_nat (x : Z) : string := NilZero.string_of_uint (N.to_uint (Z.to_N x)).

(** gen_test_vec.py:49-58 *)
Record idpf_vec : Type := {
  iv_bits : nat;
  iv_alpha : list bool;
  iv_beta_inner : list (list string);
  iv_beta_leaf : list string;
  iv_ctx : string;
  iv_nonce : string;
  iv_public_share : string;
  iv_keys : list string;
}.

(** gen_test_vec.py:25-58 *)
Definition gen_test_vec_for_idpf (idpf : Idpf) (alpha : list bool) (ctx : bytes) : res idpf_vec :=
  let* beta_inner := mapM (fun level =>
    let* x := field_init (P := id_field_inner idpf) (Z.of_nat level) in
    Ok (repeat x (id_VALUE_LEN idpf))) (range 0 (id_BITS idpf - 1)) in
  let* x := field_init (P := id_field_leaf idpf) (Z.of_nat (id_BITS idpf) - 1) in
  let beta_leaf := repeat x (id_VALUE_LEN idpf) in
  let rand := test_vec_gen_rand (id_RAND_SIZE idpf) in
  let nonce := test_vec_gen_rand (id_NONCE_SIZE idpf) in
  let* (public_share, keys) := idpf_gen idpf alpha beta_inner beta_leaf ctx nonce rand in
  let* encoded := idpf_encode_public_share idpf public_share in
  Ok {| iv_bits := id_BITS idpf; iv_alpha := alpha;
        iv_beta_inner := map (map (fun elem => str_nat (val elem))) beta_inner;
        iv_beta_leaf := map (fun elem => str_nat (val elem)) beta_leaf;
        iv_ctx := to_hex ctx; iv_nonce := to_hex nonce; iv_public_share := to_hex encoded;
        iv_keys := map to_hex keys |}.

(** Python's [' ' * n]. *)
Fixpoint spaces (n : nat) : string := match n with O => EmptyString | S n => String " " (spaces n) end.

(** common.py:183-187.  range() with a negative step from 0 to a nonnegative number
    is empty. *)
Definition print_wrapped_line (line : string) (tab : nat) : res (list string) :=
  let width := 72 in
  let* starts := if width <? tab then Ok [] else range_step 0 (String.length line) (width - tab) in
  let chunk_len := width - tab in
  Ok (map (fun start => (spaces tab ++ substring start chunk_len line)%string) starts).
