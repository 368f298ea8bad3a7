(** Properties C79 and C80: the unit tests of fields, polynomials and the IDPF
    (test_field.py, test_idpf_bbcggi21.py), whatever they draw. *)
From Verif Require Import FieldTests FieldTestsFacts IdpfTests IdpfTestsFacts IdpfSpec IdpfInst IdpfFacts CodecProofs FieldProofs Primes Roots PostFacts Props_Idpf Props_Field Props_Codec.
From Coq Require Import Znumtheory.
Open Scope nat_scope.

(** C79.  The arithmetic test of a field passes exactly if the first drawn
    element is not zero: zero has no inverse, so the inversion check fails. *)
Theorem C79_arithmetic : forall (P : FieldClass), In P [Field64 : FieldClass; Field96 : FieldClass; Field128 : FieldClass; Field255] ->
  forall (vec want : list (F P)) x y, length vec = 23 -> (0 <= x < MODULUS P)%Z -> (0 <= y < MODULUS P)%Z ->
  run_field_test P vec x y want = if (x =? 0)%Z then Raise AssertionError else Ok tt.
Proof.
  intros P HP. pose proof C02_fields as (W1 & W2 & W3 & W4).
  cbn [In] in HP. destruct HP as [<-|[<-|[<-|[<-|[]]]]]; apply field_test; auto;
    first [exact prime_Field64|exact prime_Field96|exact prime_Field128|exact prime_Field255|reflexivity].
Qed.
Print Assumptions C79_arithmetic.

(** C79.  The tests of the three NTT fields pass exactly if, besides, none of
    the polynomials drawn is the zero polynomial, which [poly_eval] rejects. *)
Theorem C79_ntt_fields : forall (P : NttFieldClass), In P [Field64; Field96; Field128] ->
  forall (vec want : list (F P)) x y (ps qs : nat -> list (F P)),
  length vec = 23 -> (0 <= x < MODULUS P)%Z -> (0 <= y < MODULUS P)%Z ->
  (forall n, length (ps n) = 2 ^ n) -> (forall n, length (qs n) = 2 ^ n) ->
  (run_ntt_field_test P vec x y want ps qs = Ok tt <->
   x <> 0%Z /\ forall n, n < 8 -> ~ allzero (ps n) /\ ~ allzero (qs n)) /\
  (forall e, run_ntt_field_test P vec x y want ps qs = Raise e ->
   e = if (x =? 0)%Z then AssertionError else IndexError).
Proof.
  intros P HP. pose proof C02_fields as (W1 & W2 & W3 & W4). pose proof ntt_fields_ok as (N1 & N2 & N3).
  cbn [In] in HP. destruct HP as [<-|[<-|[<-|[]]]]; apply ntt_field_test; auto;
    first [reflexivity|apply Nat.leb_le; vm_compute; reflexivity].
Qed.
Print Assumptions C79_ntt_fields.

(** C79.  The tests of polynomials (over Field64): those that evaluate a
    polynomial in the monomial basis fail on the zero polynomial and pass
    otherwise; those in the Lagrange basis pass whatever is drawn. *)
Theorem C79_polynomials : forall (p : list (F Field64)) batch values (ps qs : nat -> list (F Field64)) ws,
  length p = 10 -> length batch = 4 -> Forall (fun p => length p = 16) batch ->
  (forall n, length (ps n) = 2 ^ n) -> (forall n, length (qs n) = 2 ^ n) -> (forall n k, length (ws n k) = k) ->
  (~ allzero p -> test_interp Field64 p = Ok tt) /\ (allzero p -> test_interp Field64 p = Raise IndexError) /\
  (Forall (fun p => ~ allzero p) batch -> test_poly_eval_lagrange Field64 batch values = Ok tt) /\
  (Exists allzero batch -> test_poly_eval_lagrange Field64 batch values = Raise IndexError) /\
  test_poly_change_basis Field64 ps = Ok tt /\
  test_poly_mul_lagrange Field64 ps qs = Ok tt /\
  test_extend_values_to_power_of_2 Field64 ws = Ok tt /\
  test_double_evaluations Field64 ps = Ok tt.
Proof.
  intros p batch values ps qs ws Hp Hb Hb' Hps Hqs Hws. pose proof (proj1 ntt_fields_ok) as N.
  assert (G : 8 <= gen_log Field64) by (apply Nat.leb_le; vm_compute; reflexivity).
  assert (M : (10 <= MODULUS Field64)%Z) by discriminate.
  destruct (interp_test N p M Hp) as [A1 A2]. destruct (lagrange_test N batch values ltac:(lia) Hb Hb') as [B1 B2].
  repeat apply conj; auto.
  - apply (change_basis_test N); auto; lia.
  - apply (mul_lagrange_test N); auto; lia.
  - apply (extend_test N); auto; lia.
  - apply (double_test N); auto; lia.
Qed.
Print Assumptions C79_polynomials.

Definition c79_outcome : list (res unit) := Eval vm_compute in
  [run_field_test Field255 (repeat (fof 3) 23) 5 7 [fof 1; fof 2]; run_field_test Field255 (repeat (fof 3) 23) 0 7 [];
   test_interp Field64 (map fof [1; 2; 3; 4; 5; 6; 7; 8; 9; 10]%Z); test_interp Field64 (repeat f0 10)].
Example C79_example : c79_outcome = [Ok tt; Raise AssertionError; Ok tt; Raise IndexError].
Proof. reflexivity. Qed.

(** C80.  The comparisons: vectors of field elements are equal iff their integers
    are, public shares iff seeds, control bits and payloads of all levels are. *)
Theorem C80_compares : (forall x y, ints_eqb x y = true <-> x = y) /\
  forall (i : Idpf) (x y : list (CorrectionWord i)), public_share_eqb i x y = true <->
    map (fun '(seed, ctrl, w) => (seed, ctrl, fv_vals w)) x = map (fun '(seed, ctrl, w) => (seed, ctrl, fv_vals w)) y.
Proof.
  split; [exact ints_eqb_eq|]. intros i. induction x as [|[[s [a b]] w] x IH]; intros [|[[s' [a' b']] w'] y]; cbn [public_share_eqb map];
    try (split; [discriminate || reflexivity | discriminate || reflexivity]).
  unfold cw_eqb, fv_eqb. rewrite !andb_true_iff, IH, ints_eqb_eq, bytes_eqb_eq, !Bool.eqb_true_iff. split.
  - intros [[[E1 [E2 E3]] E4] E5]. congruence.
  - intros E. injection E as E1 E2 E3 E4 E5. auto 6.
Qed.
Print Assumptions C80_compares.

(** C80.  The helpers: [int_to_bit_string v n] lists the low n bits of v, the
    most significant first; a byte string is read in big-endian order. *)
Theorem C80_bit_strings : forall v n s,
  length (int_to_bit_string v n) = n /\
  (forall i, i < n -> nth i (int_to_bit_string v n) false = Z.testbit v (Z.of_nat (n - 1 - i))) /\
  (forall w, int_to_bit_string v n = int_to_bit_string w n <-> (v mod 2 ^ Z.of_nat n = w mod 2 ^ Z.of_nat n)%Z) /\
  bytes_to_bit_string s = int_to_bit_string (from_be_bytes s) (8 * length s).
Proof.
  intros v n s. destruct (int_to_bits_spec v n) as [L B]. repeat apply conj; auto.
  - intros w. apply int_to_bits_inj.
  - apply bytes_to_bits.
Qed.
Print Assumptions C80_bit_strings.

(** C80.  [itertools.product] of bits: every bit string of that length, once. *)
Theorem C80_product : forall n, NoDup (bit_product n) /\ forall x, In x (bit_product n) <-> length x = n.
Proof. intros n. split; [apply bit_product_NoDup|]. intros x. split; [apply bit_product_len|apply bit_product_all]. Qed.
Print Assumptions C80_product.

(** C80.  run_idpf_test passes exactly if the level is one of the tree and the
    prefixes are distinct and of that level; otherwise the call raises
    ValueError.  (With the given bound, rejection sampling may run out.) *)
Theorem C80_run_test : forall (i : Idpf) lim, IdpfOk i lim ->
  (1 < MODULUS (id_field_inner i))%Z -> (1 < MODULUS (id_field_leaf i))%Z ->
  forall alpha level prefixes rand nonce,
  length alpha = id_BITS i -> length nonce = id_NONCE_SIZE i -> length rand = id_RAND_SIZE i ->
  match run_idpf_test i alpha level prefixes rand nonce with
  | Ok _ => request_ok i level prefixes
  | Raise (ValueError _) => ~ request_ok i level prefixes
  | Raise e => e = OutOfFuel /\ idpf_ran_out i
  end.
Proof. intros. eapply idpf_test_outcome; eauto. Qed.
Print Assumptions C80_run_test.

(** C80.  The exhaustive test passes whatever the index and the values. *)
Theorem C80_exhaustive : forall (i : Idpf) lim, IdpfOk i lim ->
  forall alpha beta_inner beta_leaf rand nonce,
  gen_args_ok i alpha beta_inner beta_leaf (byte_literal "some context") nonce rand ->
  run_idpf_exhaustive_test i alpha beta_inner beta_leaf rand nonce = Ok tt \/
  run_idpf_exhaustive_test i alpha beta_inner beta_leaf rand nonce = Raise OutOfFuel /\ idpf_ran_out i.
Proof. intros. eapply exhaustive_test; eauto. Qed.
Print Assumptions C80_exhaustive.

(** C80.  A case of the index-encoding test passes exactly if the prefix is the
    beginning of the big-endian bits of the index. *)
Theorem C80_index_encoding : forall (i : Idpf) lim, IdpfOk i lim -> id_VALUE_LEN i = 1 ->
  (1 < MODULUS (id_field_inner i))%Z -> (1 < MODULUS (id_field_leaf i))%Z ->
  forall s prefix n rand nonce, 8 * length s = id_BITS i -> n < id_BITS i ->
  length nonce = id_NONCE_SIZE i -> length rand = id_RAND_SIZE i -> length prefix = S n ->
  match index_encoding_case i s prefix (Z.of_nat n) rand nonce with
  | Ok _ => prefix = firstn (S n) (int_to_bit_string (from_be_bytes s) (8 * length s))
  | Raise AssertionError => prefix <> firstn (S n) (int_to_bit_string (from_be_bytes s) (8 * length s))
  | Raise e => e = OutOfFuel /\ idpf_ran_out i
  end.
Proof. intros. eapply index_case; eauto. Qed.
Print Assumptions C80_index_encoding.

Section Suites.
Context (ts : TurboShake) (aes : BlockCipher) (bound : nat)
  (Haes : forall k b, length b = 16 -> length (aes k b) = 16) (Hb : (Z.of_nat bound < 2 ^ 120)%Z).

(** Nothing but exhausted rejection sampling stops a suite. *)
Definition passes (m : res unit) : Prop := m = Ok tt \/ m = Raise OutOfFuel.

Lemma passes_seq (m k : res unit) : passes m -> passes k -> passes (let* _ := m in k).
Proof. intros [->| ->] H; [exact H|now right]. Qed.
Lemma passes_foldM {A} (body : unit -> A -> res unit) l : (forall x, In x l -> passes (body tt x)) -> passes (foldM body l tt).
Proof.
  induction l as [|x l IH]; intros H; [now left|]. cbn [foldM].
  destruct (H x (or_introl eq_refl)) as [->| ->]; cbn [bind]; [|now right].
  apply IH. intros y Hy. apply H. now right.
Qed.

Definition idpf_obj (value_len bits : nat) : Idpf :=
  {| id_field_inner := Field64; id_field_leaf := Field255; id_xof_inner := XofFixedKeyAes128 ts aes bound;
     id_xof_leaf := XofTurboShake128 ts bound; id_VALUE_LEN := value_len; id_BITS := bits |}.
Lemma idpf_obj_ok v n : 0 < v -> 0 < n -> IdpfBBCGGI21_init ts aes bound (Z.of_nat v) (Z.of_nat n) = Ok (idpf_obj v n) /\
  IdpfOk (idpf_obj v n) (2 ^ 132) /\ id_KEY_SIZE (idpf_obj v n) = 16 /\ id_NONCE_SIZE (idpf_obj v n) = 16 /\ id_RAND_SIZE (idpf_obj v n) = 32.
Proof.
  intros Hv Hn. pose proof (idpf_init_cases ts aes bound (Z.of_nat v) (Z.of_nat n) Haes Hb) as H.
  assert (E : IdpfBBCGGI21_init ts aes bound (Z.of_nat v) (Z.of_nat n) = Ok (idpf_obj v n)).
  { unfold IdpfBBCGGI21_init.
    replace (0 <? Z.of_nat v)%Z with true by (symmetry; apply Z.ltb_lt; lia).
    replace (0 <? Z.of_nat n)%Z with true by (symmetry; apply Z.ltb_lt; lia). cbn [check bind].
    rewrite !Nat2Z.id. reflexivity. }
  rewrite E in H. split; [exact E|]. tauto.
Qed.

Definition case_okb (c : Z * list bool * Z * list (list bool)) : bool :=
  let '(bits, alpha, level, prefixes) := c in
  ((0 <? bits) && (Z.of_nat (length alpha) =? bits) && (0 <=? level) && (level <? bits) &&
   match prefixes with [x] => (Z.of_nat (length x) =? level + 1) | _ => false end)%Z.
Lemma cases_ok : forallb case_okb idpf_test_cases = true. Proof. vm_compute. reflexivity. Qed.

(** C80.  test_idpf passes whatever is drawn. *)
Lemma idpf_suite (rands : nat -> bytes * bytes) (betas : nat -> list (list (F Field64)) * list (F Field255)) :
  (forall k, length (fst (rands k)) = 32 /\ length (snd (rands k)) = 16) ->
  (forall k bits, nth_error [1; 1; 8] k = Some bits -> length (fst (betas k)) = bits - 1 /\
    Forall (fun b => length b = 2) (fst (betas k)) /\ length (snd (betas k)) = 2) ->
  passes (test_idpf ts aes bound rands betas).
Proof.
  intros Hr Hbt. unfold test_idpf. apply passes_seq.
  - apply passes_foldM. intros (k & (((bits & alpha) & level) & prefixes)) Hin.
    apply in_combine_r in Hin. pose proof (proj1 (forallb_forall _ _) cases_ok _ Hin) as Hc. unfold case_okb in Hc.
    destruct prefixes as [|x [|? ?]]; rewrite ?Bool.andb_false_r in Hc; try discriminate.
    rewrite !Bool.andb_true_iff, !Z.ltb_lt, !Z.leb_le, !Z.eqb_eq in Hc.
    destruct (idpf_obj_ok 2 (Z.to_nat bits) ltac:(lia) ltac:(lia)) as (E & HI & K1 & K2 & K3).
    rewrite Z2Nat.id in E by lia. change (Z.of_nat 2) with 2%Z in E. rewrite E. cbn [bind].
    pose proof (idpf_test_outcome _ _ HI alpha level [x] (fst (rands k)) (snd (rands k)) eq_refl eq_refl
      ltac:(cbn [id_BITS idpf_obj]; lia) ltac:(rewrite K2; apply Hr) ltac:(rewrite K3; apply Hr)) as O.
    assert (R : request_ok (idpf_obj 2 (Z.to_nat bits)) level [x]).
    { split; [cbn [id_BITS idpf_obj]; lia|]. split; [constructor; [easy|constructor]|]. constructor; [lia|constructor]. }
    destruct run_idpf_test as [[]|e]; [now left|]. destruct e; try (right; f_equal; tauto); tauto.
  - apply passes_foldM. intros (k & (bits & alpha)) Hin.
    unfold enumerate in Hin. unfold idpf_exhaustive_cases in Hin. cbn [length range seq Nat.sub combine In] in Hin.
    assert (H : exists n, nth_error [1; 1; 8] k = Some n /\ bits = Z.of_nat n /\ 0 < n /\ length alpha = n).
    { destruct Hin as [E|[E|[E|[]]]]; inversion E; subst.
      - exists 1; repeat split; lia.
      - exists 1; repeat split; lia.
      - exists 8; repeat split; lia. }
    destruct H as (n & Hk & -> & Hn & Ha).
    replace (0 <? Z.of_nat n)%Z with true by (symmetry; apply Z.ltb_lt; lia). cbn [check bind].
    rewrite Nat2Z.id. cbv zeta. change ({| id_field_inner := _ |}) with (idpf_obj 2 n).
    destruct (idpf_obj_ok 2 n ltac:(lia) Hn) as (_ & HI & K1 & K2 & K3).
    destruct (Hbt k n Hk) as (B1 & B2 & B3).
    assert (G : gen_args_ok (idpf_obj 2 n) alpha (fst (betas k)) (snd (betas k)) (byte_literal "some context")
      (snd (rands (length idpf_test_cases + k))) (fst (rands (length idpf_test_cases + k)))).
    { constructor; rewrite ?K2, ?K3; auto; try apply Hr; try (apply ctx_fits). }
    destruct (exhaustive_test _ _ HI _ _ _ _ _ G) as [E|[E _]]; [left|right]; exact E.
Qed.

Lemma encoding_suite nonce rand0 rand1 : length nonce = 16 -> length rand0 = 32 -> length rand1 = 32 ->
  passes (test_index_encoding ts aes bound nonce rand0 rand1).
Proof.
  intros Hn H0 H1. unfold test_index_encoding.
  destruct (idpf_obj_ok 1 32 ltac:(lia) ltac:(lia)) as (E & HI & K1 & K2 & K3).
  change (Z.of_nat 1) with 1%Z in E. change (Z.of_nat 32) with 32%Z in E. rewrite E. cbn [bind].
  apply passes_seq.
  - pose proof (index_case _ _ HI [x01; x02; x03; x04] (int_to_bit_string 66051 24) 23 rand0 nonce eq_refl eq_refl eq_refl eq_refl
      ltac:(cbn [id_BITS idpf_obj]; lia) ltac:(congruence) ltac:(congruence) eq_refl) as O.
    change (Z.of_nat 23) with 23%Z in O. destruct index_encoding_case as [[]|e]; [now left|].
    destruct e; try (right; f_equal; apply O). all: exfalso; apply O; vm_compute; reflexivity.
  - pose proof (index_case _ _ HI (byte_literal "abcd") (int_to_bit_string 1633837924 32) 31 rand1 nonce eq_refl eq_refl eq_refl eq_refl
      ltac:(cbn [id_BITS idpf_obj]; lia) ltac:(congruence) ltac:(congruence) eq_refl) as O.
    change (Z.of_nat 31) with 31%Z in O. destruct index_encoding_case as [[]|e]; [now left|].
    destruct e; try (right; f_equal; apply O). all: exfalso; apply O; vm_compute; reflexivity.
Qed.

Lemma roundtrip_suite nonce rand : length nonce = 16 -> length rand = 32 ->
  passes (test_public_share_roundtrip ts aes bound nonce rand).
Proof.
  intros Hn H0. unfold test_public_share_roundtrip.
  destruct (idpf_obj_ok 1 32 ltac:(lia) ltac:(lia)) as (E & HI & K1 & K2 & K3).
  change (Z.of_nat 1) with 1%Z in E. change (Z.of_nat 32) with 32%Z in E. rewrite E. cbn [bind].
  pose proof C02_fields as (W1 & _ & _ & W4).
  destruct (roundtrip_test _ _ HI rand nonce eq_refl eq_refl eq_refl eq_refl W1 W4 ltac:(congruence) ltac:(congruence)) as [->|[-> _]];
    [now left|now right].
Qed.
End Suites.

(** C80.  The four tests of the suite, whatever they draw. *)
Theorem C80_suite : forall ts aes bound,
  (forall k b, length b = 16 -> length (aes k b) = 16) -> (Z.of_nat bound < 2 ^ 120)%Z ->
  (forall rands betas,
     (forall k, length (fst (rands k)) = 32 /\ length (snd (rands k)) = 16) ->
     (forall k bits, nth_error [1; 1; 8] k = Some bits -> length (fst (betas k)) = bits - 1 /\
       Forall (fun b => length b = 2) (fst (betas k)) /\ length (snd (betas k)) = 2) ->
     passes (test_idpf ts aes bound rands betas)) /\
  (forall nonce rand0 rand1, length nonce = 16 -> length rand0 = 32 -> length rand1 = 32 ->
     passes (test_index_encoding ts aes bound nonce rand0 rand1)) /\
  (forall nonce rand, length nonce = 16 -> length rand = 32 ->
     passes (test_public_share_roundtrip ts aes bound nonce rand)) /\
  test_is_prefix ts aes bound = Ok tt.
Proof.
  intros ts aes bound Ha Hb. repeat apply conj.
  - intros. now apply idpf_suite.
  - intros. now apply encoding_suite.
  - intros. now apply roundtrip_suite.
  - reflexivity.
Qed.
Print Assumptions C80_suite.

(** The tests run, with toy primitives. *)
Definition units_ts : TurboShake := fun m _ i => nth (i * i mod 97) (m ++ zeros 97) x07.
Definition units_aes : BlockCipher := fun k b =>
  map (fun x => z2b ((b2z (fst x) * 3 + b2z (snd x) * 5 + 11) mod 256)) (combine (firstn 16 (k ++ repeat x00 16)) b).
Definition c80_outcome : list (res unit) := Eval vm_compute in
  [run_idpf_exhaustive_test (idpf_obj units_ts units_aes 50 2 2) [true; false] [[f1; fof 3]] [fof 5; fof 7] (repeat x01 32) (repeat x02 16);
   test_public_share_roundtrip units_ts units_aes 50 (repeat x02 16) (repeat x01 32);
   index_encoding_case (idpf_obj units_ts units_aes 50 1 8) [x80] [false] 0 (repeat x01 32) (repeat x02 16)].
Example C80_example : c80_outcome = [Ok tt; Ok tt; Raise AssertionError] /\
  (forall k b, length b = 16 -> length (units_aes k b) = 16).
Proof.
  split; [reflexivity|].
  intros k b H. unfold units_aes. rewrite map_length, combine_length, firstn_length, app_length, repeat_length. lia.
Qed.
