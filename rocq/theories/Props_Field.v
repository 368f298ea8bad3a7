(** Properties C03, C04, C06, C07: field arithmetic, roots of unity, NTT. *)
From Verif Require Import NttFacts FieldProofs.
Open Scope Z_scope.

(** C03.  The four moduli are prime. *)
Theorem C03_moduli_prime :
  prime (2 ^ 32 * 4294967295 + 1) /\ prime (2 ^ 64 * 4294966555 + 1) /\
  prime (2 ^ 66 * 4611686018427387897 + 1) /\ prime (2 ^ 255 - 19) /\
  MODULUS Field64 = 2 ^ 32 * 4294967295 + 1 /\ MODULUS Field96 = 2 ^ 64 * 4294966555 + 1 /\
  MODULUS Field128 = 2 ^ 66 * 4611686018427387897 + 1 /\ MODULUS Field255 = 2 ^ 255 - 19.
Proof. exact moduli_prime. Qed.
Print Assumptions C03_moduli_prime.

(** C03.  The operations are arithmetic modulo the modulus, on canonical
    representatives; the constructor accepts exactly -M < v < M. *)
Theorem C03_ops_modular : forall (P : FieldClass) (x y : F P) (n : N) (v : Z),
  0 <= val x < MODULUS P /\
  val (fadd x y) = (val x + val y) mod MODULUS P /\
  val (fsub x y) = (val x - val y) mod MODULUS P /\
  val (fmul x y) = (val x * val y) mod MODULUS P /\
  val (fneg x) = (- val x) mod MODULUS P /\
  val (fpow x n) = (val x ^ Z.of_N n) mod MODULUS P /\
  (feqb x y = true <-> x = y) /\
  (val x = val y -> x = y) /\
  (- MODULUS P < v < MODULUS P -> exists e, field_init v = Ok (e : F P) /\ val e = v mod MODULUS P) /\
  (~ - MODULUS P < v < MODULUS P -> field_init v = Raise AssertionError :> res (F P)).
Proof. exact @ops_modular. Qed.
Print Assumptions C03_ops_modular.

(** C03.  Field laws, for every class with prime modulus. *)
Theorem C03_field_laws : forall P : FieldClass, prime (MODULUS P) ->
  field_theory f0 f1 fadd fmul fsub fneg (fun x y => fmul x (finv y)) finv (@eq (F P)).
Proof. exact @F_field. Qed.
Print Assumptions C03_field_laws.

Theorem C03_inverse : forall (P : FieldClass), prime (MODULUS P) -> 2 < MODULUS P ->
  (forall x : F P, x <> f0 -> fmul (finv x) x = f1) /\ finv (f0 : F P) = f0.
Proof. exact @inverse_spec. Qed.
Print Assumptions C03_inverse.

Example C03_example : val (finv (fof 7 : F Field64)) * 7 mod MODULUS Field64 = 1.
Proof. vm_compute. reflexivity. Qed.

(** C04.  [gen] has order GEN_ORDER and [nth_root n] has order exactly 2^n. *)
Theorem C04_nth_root : forall P : NttFieldClass, NttOk P -> forall n : nat,
  2 ^ Z.of_nat n <= GEN_ORDER P ->
  primitive_root (nth_root P n) (2 ^ n) /\
  (2 ^ Z.of_nat (S n) <= GEN_ORDER P ->
   fmul (nth_root P (S n)) (nth_root P (S n)) = nth_root P n) /\
  exists l, nth_root_powers P (2 ^ n) = Ok l /\ length l = (2 ^ n)%nat /\ NoDup l /\
    (forall i, (i < 2 ^ n)%nat -> nth i l f0 = npow (nth_root P n) i) /\
    (forall x, In x l <-> npow x (2 ^ n) = f1).
Proof. exact @nth_root_spec. Qed.
Print Assumptions C04_nth_root.

(** The hypothesis [NttOk] holds for the three NTT fields. *)
Theorem C04_fields_ok : NttOk Field64 /\ NttOk Field96 /\ NttOk Field128.
Proof. exact ntt_fields_ok. Qed.
Print Assumptions C04_fields_ok.

Theorem C04_gen_order : forall P : NttFieldClass, NttOk P ->
  primitive_root (gen P) (Z.to_nat (GEN_ORDER P)).
Proof. exact @gen_order_spec. Qed.
Print Assumptions C04_gen_order.

(** C06.  [ntt p n set_s] returns the values of the polynomial at s * w^i, where
    w is the root [nth_root (log n)] (primitive by C04) and s is 1 or a square
    root of w; [p] is left as its zero-padded self. *)
Theorem C06_ntt : forall P : NttFieldClass, NttOk P ->
  forall (p : list (F P)) (L : nat) (set_s : bool),
  (length p <= 2 ^ L)%nat ->
  (if set_s then 2 ^ Z.of_nat (S L) else 2 ^ Z.of_nat L) <= GEN_ORDER P ->
  exists (s : F P) (q : list (F P)),
    (if set_s then fmul s s = nth_root P L /\ primitive_root s (2 ^ S L) else s = f1) /\
    ntt p (2 ^ L) set_s = Ok q /\ length q = (2 ^ L)%nat /\
    forall i, (i < 2 ^ L)%nat -> nth i q f0 = peval p (fmul s (npow (nth_root P L) i)).
Proof. exact @ntt_correct. Qed.
Print Assumptions C06_ntt.

Theorem C06_ntt_argument : forall (P : NttFieldClass) (p : list (F P)) (n : nat),
  exists z, ntt_arg p n = p ++ z /\ allzero z /\ length (ntt_arg p n) = Nat.max (length p) n.
Proof. exact @ntt_arg_spec. Qed.
Print Assumptions C06_ntt_argument.

Theorem C06_ntt_bad_size : forall (P : NttFieldClass) (p : list (F P)) (n : nat) (set_s : bool),
  (forall L, n <> 2 ^ L)%nat -> exists e, ntt p n set_s = Raise e.
Proof. exact @ntt_bad_size. Qed.
Print Assumptions C06_ntt_bad_size.

(** C07.  Both compositions are the identity. *)
Theorem C07_inverse_ntt : forall P : NttFieldClass, NttOk P ->
  forall (v : list (F P)) (L : nat), 2 ^ Z.of_nat L <= GEN_ORDER P -> length v = (2 ^ L)%nat ->
  (exists e, ntt v (2 ^ L) false = Ok e /\ inv_ntt e (2 ^ L) = Ok v) /\
  (exists c, inv_ntt v (2 ^ L) = Ok c /\ ntt c (2 ^ L) false = Ok v).
Proof. exact @inverse_ntt_spec. Qed.
Print Assumptions C07_inverse_ntt.

(** 1+2x+3x^2 at 1, i, -1, -i where i = 2^48 is the square root of -1. *)
Example C06_example : match ntt [fof 1; fof 2; fof 3 : F Field64] 4 false with
  Ok q => map val q = [6; 2 * 2 ^ 48 - 2; 2; MODULUS Field64 - 2 * 2 ^ 48 - 2]
  | Raise _ => False end.
Proof. vm_compute. reflexivity. Qed.
