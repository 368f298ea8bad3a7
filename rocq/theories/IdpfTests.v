(** Model of /repo/poc/tests/test_idpf_bbcggi21.py.  The bytes drawn by
    [gen_rand] and the field elements drawn by [rand_vec] are arguments. *)
From Verif Require Export Idpf FieldTests.
Open Scope nat_scope.

(** The byte string [b'...'] of an ASCII literal. *)
Definition byte_literal (s : string) : bytes := map byte_of_ascii (list_ascii_of_string s).

(** test_idpf_bbcggi21.py:265-277 *)
Definition bytes_to_bit_string (s : bytes) : list bool :=
  flat_map (fun byte => map (fun m => negb (Z.land (b2z byte) m =? 0)%Z) [128; 64; 32; 16; 8; 4; 2; 1]%Z) s.

(** test_idpf_bbcggi21.py:280-283 *)
Definition int_to_bit_string (value : Z) (len : nat) : list bool :=
  map (fun i => negb (Z.land (Z.shiftr value (Z.of_nat (len - 1 - i))) 1 =? 0)%Z) (range 0 len).

(** [x == y] for lists of integers and for vectors of field elements, which are
    compared by their [val] (field.py:88-91). *)
Fixpoint ints_eqb (x y : list Z) : bool :=
  match x, y with
  | [], [] => true
  | a :: x, b :: y => (a =? b)%Z && ints_eqb x y
  | _, _ => false
  end.
Definition fv_eqb {Pi Pl : FieldClass} (x y : FieldVec Pi Pl) : bool := ints_eqb (fv_vals x) (fv_vals y).

(** [itertools.product( *[(False, True)] * n)] *)
Fixpoint bit_product (n : nat) : list (list bool) :=
  match n with
  | O => [[]]
  | S n => map (cons false) (bit_product n) ++ map (cons true) (bit_product n)
  end.

Section Idpf.
Context (idpf : Idpf).
Notation Pi := (id_field_inner idpf).
Notation Pl := (id_field_leaf idpf).
Notation FVec := (FieldVec Pi Pl).

(** idpf.py:134-139: [current_field(level).zeros(VALUE_LEN)] *)
Definition level_zeros (level : Z) : FVec :=
  if (level <? Z.of_nat (id_BITS idpf) - 1)%Z then Inner (fzeros (id_VALUE_LEN idpf)) else Leaf (fzeros (id_VALUE_LEN idpf)).

(** test_idpf_bbcggi21.py:35-41 and 79-85.  [eval] has accepted [level], so it
    is not negative. *)
Definition wanted (alpha : list bool) (beta_inner : list (list (F Pi))) (beta_leaf : list (F Pl)) (level : Z)
  (prefix : list bool) : res FVec :=
  if is_prefix prefix alpha (Z.to_nat level) then
    if (level <? Z.of_nat (id_BITS idpf) - 1)%Z then let* b := get beta_inner (Z.to_nat level) in Ok (Inner b)
    else Ok (Leaf beta_leaf)
  else Ok (level_zeros level).

(** test_idpf_bbcggi21.py:13-43 *)
Definition run_idpf_test (alpha : list bool) (level : Z) (prefixes : list (list bool)) (rand nonce : bytes) : res unit :=
  let ctx := byte_literal "some context" in
  let* one := field_init (P := Pi) 1 in
  let beta_inner := repeat (repeat one (id_VALUE_LEN idpf)) (id_BITS idpf - 1) in
  let* one := field_init (P := Pl) 1 in
  let beta_leaf := repeat one (id_VALUE_LEN idpf) in
  let* (public_share, keys) := idpf_gen idpf alpha beta_inner beta_leaf ctx nonce rand in
  let out := repeat (level_zeros level) (length prefixes) in
  let* out := for_range 0 id_SHARES out (fun out agg_id =>
    let* key := get keys agg_id in
    let* out_share := idpf_eval idpf agg_id public_share key level prefixes ctx nonce in
    for_range 0 (length prefixes) out (fun out i =>
      let* x := get out i in
      let* y := get out_share i in
      let* s := fv_add x y in
      set out i s)) in
  foldM (fun _ '(got, prefix) =>
    let* want := wanted alpha beta_inner beta_leaf level prefix in
    assert_true (fv_eqb got want)) (combine out prefixes) tt.

(** test_idpf_bbcggi21.py:45-87 *)
Definition run_idpf_exhaustive_test (alpha : list bool) (beta_inner : list (list (F Pi))) (beta_leaf : list (F Pl))
  (rand nonce : bytes) : res unit :=
  let ctx := byte_literal "some context" in
  let* (public_share, keys) := idpf_gen idpf alpha beta_inner beta_leaf ctx nonce rand in
  for_range 0 (id_BITS idpf) tt (fun _ level =>
    let prefixes := bit_product (level + 1) in
    let* out_shares := mapM (fun agg_id =>
      let* key := get keys agg_id in
      idpf_eval idpf agg_id public_share key (Z.of_nat level) prefixes ctx nonce) (range 0 id_SHARES) in
    foldM (fun _ '(i, prefix) =>
      let* parts := mapM (fun x => get x i) out_shares in
      let* first := get parts 0 in
      let* got := foldM fv_add (skipn 1 parts) first in
      let* want := wanted alpha beta_inner beta_leaf (Z.of_nat level) prefix in
      assert_true (fv_eqb got want)) (enumerate prefixes) tt).

(** test_idpf_bbcggi21.py:208-214: one iteration of the loop of
    test_index_encoding. *)
Definition index_encoding_case (alpha_str : bytes) (prefix : list bool) (level : Z) (rand nonce : bytes) : res unit :=
  let ctx := byte_literal "some context" in
  let alpha := bytes_to_bit_string alpha_str in
  let* one := field_init (P := Pi) 1 in
  let beta_inner := repeat [one] (id_BITS idpf - 1) in
  let* one := field_init (P := Pl) 1 in
  let* (public_share, keys) := idpf_gen idpf alpha beta_inner [one] ctx nonce rand in
  let* key := get keys 0 in
  let* out_share_0 := idpf_eval idpf 0 public_share key level [prefix] ctx nonce in
  let* key := get keys 1 in
  let* out_share_1 := idpf_eval idpf 1 public_share key level [prefix] ctx nonce in
  let* x := get out_share_0 0 in
  let* y := get out_share_1 0 in
  let* s := fv_add x y in
  let* out := get (fv_vals s) 0 in
  assert_true (out =? 1)%Z.

(** [x == y] for public shares: lists of tuples (idpf_bbcggi21.py:27). *)
Definition cw_eqb (x y : CorrectionWord idpf) : bool :=
  let '(s, (a, b), w) := x in
  let '(s', (a', b'), w') := y in
  bytes_eqb s s' && (Bool.eqb a a' && Bool.eqb b b') && fv_eqb w w'.
Fixpoint public_share_eqb (x y : list (CorrectionWord idpf)) : bool :=
  match x, y with
  | [], [] => true
  | a :: x, b :: y => cw_eqb a b && public_share_eqb x y
  | _, _ => false
  end.

(** test_idpf_bbcggi21.py:251-262 *)
Definition public_share_roundtrip (rand nonce : bytes) : res unit :=
  let ctx := byte_literal "some context" in
  let alpha := bytes_to_bit_string (byte_literal "cool") in
  let* b := field_init (P := Pi) 23 in
  let beta_inner := repeat [b] (id_BITS idpf - 1) in
  let* b := field_init (P := Pl) 97 in
  let* (public_share, _) := idpf_gen idpf alpha beta_inner [b] ctx nonce rand in
  let* encoded := idpf_encode_public_share idpf public_share in
  let* decoded := idpf_decode_public_share idpf encoded in
  assert_true (public_share_eqb decoded public_share).
End Idpf.

Section Suite.
Context (ts : TurboShake) (aes : BlockCipher) (bound : nat).

(** test_idpf_bbcggi21.py:90-167: the arguments of the calls of run_idpf_test. *)
Definition idpf_test_cases : list (Z * list bool * Z * list (list bool)) :=
  let alpha := int_to_bit_string 61680 16 in
  [(16, alpha, 15, [int_to_bit_string 61680 16]);
   (16, alpha, 14, [int_to_bit_string 30840 15]);
   (16, alpha, 13, [int_to_bit_string 15420 14]);
   (16, alpha, 12, [int_to_bit_string 7710 13]);
   (16, alpha, 11, [int_to_bit_string 3855 12]);
   (16, alpha, 10, [int_to_bit_string 1927 11]);
   (16, alpha, 5, [int_to_bit_string 60 6]);
   (16, alpha, 4, [int_to_bit_string 30 5]);
   (16, alpha, 3, [int_to_bit_string 15 4]);
   (16, alpha, 2, [int_to_bit_string 7 3]);
   (16, alpha, 1, [int_to_bit_string 3 2]);
   (16, alpha, 0, [int_to_bit_string 1 1]);
   (1000, repeat false 1000, 999, [repeat false 1000])]%Z.

(** test_idpf_bbcggi21.py:168-179: the arguments of run_idpf_exhaustive_test. *)
Definition idpf_exhaustive_cases : list (Z * list bool) :=
  [(1, [false]); (1, [true]); (8, int_to_bit_string 91 8)]%Z.

(** test_idpf_bbcggi21.py:89-179; [rands k] and [betas k] are the values drawn
    by the k-th call. *)
Definition test_idpf (rands : nat -> bytes * bytes)
  (betas : nat -> list (list (F Field64)) * list (F Field255)) : res unit :=
  let* _ := foldM (fun _ '(k, (bits, alpha, level, prefixes)) =>
    let* idpf := IdpfBBCGGI21_init ts aes bound 2 bits in
    run_idpf_test idpf alpha level prefixes (fst (rands k)) (snd (rands k))) (enumerate idpf_test_cases) tt in
  foldM (fun _ '(k, (bits, alpha)) =>
    let* _ := check (0 <? bits)%Z AssertionError in
    let idpf := {| id_field_inner := Field64; id_field_leaf := Field255;
                   id_xof_inner := XofFixedKeyAes128 ts aes bound; id_xof_leaf := XofTurboShake128 ts bound;
                   id_VALUE_LEN := 2; id_BITS := Z.to_nat bits |} in
    let r := rands (length idpf_test_cases + k) in
    run_idpf_exhaustive_test idpf alpha (fst (betas k)) (snd (betas k)) (fst r) (snd r)) (enumerate idpf_exhaustive_cases) tt.

(** test_idpf_bbcggi21.py:181-214; [rand0] and [rand1] are drawn by the two
    iterations. *)
Definition test_index_encoding (nonce rand0 rand1 : bytes) : res unit :=
  let* idpf := IdpfBBCGGI21_init ts aes bound 1 32 in
  let* _ := index_encoding_case idpf [x01; x02; x03; x04] (int_to_bit_string 66051 24) 23 rand0 nonce in
  index_encoding_case idpf (byte_literal "abcd") (int_to_bit_string 1633837924 32) 31 rand1 nonce.

(** test_idpf_bbcggi21.py:216-247 *)
Definition test_is_prefix : res unit :=
  let* _ := IdpfBBCGGI21_init ts aes bound 1 8 in
  let y := int_to_bit_string 193 8 in
  let* _ := assert_true (is_prefix (int_to_bit_string 1 1) y 0) in
  let* _ := assert_true (is_prefix (int_to_bit_string 3 2) y 1) in
  let* _ := assert_true (is_prefix (int_to_bit_string 6 3) y 2) in
  let* _ := assert_true (is_prefix (int_to_bit_string 12 4) y 3) in
  let* _ := assert_false (is_prefix (int_to_bit_string 7 3) y 2) in
  assert_false (is_prefix (int_to_bit_string 13 4) y 3).

(** test_idpf_bbcggi21.py:249-262 *)
Definition test_public_share_roundtrip (nonce rand : bytes) : res unit :=
  let* idpf := IdpfBBCGGI21_init ts aes bound 1 32 in
  public_share_roundtrip idpf rand nonce.
End Suite.
