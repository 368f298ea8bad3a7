(** Model of /repo/poc/vdaf_poc/field.py, lines 14-256 (line numbers are those
    of field.py itself): Field, NttField and the concrete field classes. *)
From Verif Require Export Common.
Open Scope Z_scope.

(** field.py:14-21.  A field class: modulus and encoded size.  (The modulus is
    a Coq [positive] so that reduction is always defined; primality is a
    hypothesis or theorem where needed.) *)
Record FieldClass : Type := {
  modulus_pos : positive;
  ENCODED_SIZE : nat;
}.
Definition MODULUS (P : FieldClass) : Z := Zpos (modulus_pos P).

(** An instance of a field class: the attribute [val], which [__init__]
    (field.py:23-27) guarantees to be in [0, MODULUS). *)
Record F (P : FieldClass) : Type := mkF {
  val : Z;
  val_ok : (0 <=? val) && (val <? MODULUS P) = true;
}.
Arguments mkF {P} val val_ok.
Arguments val {P} f.

Lemma mod_in_range (P : FieldClass) (z : Z) :
  (0 <=? z mod MODULUS P) && (z mod MODULUS P <? MODULUS P) = true.
Proof.
  pose proof (Z.mod_pos_bound z (MODULUS P) eq_refl) as H.
  apply andb_true_intro; split; [apply Z.leb_le | apply Z.ltb_lt]; lia.
Qed.

(** The element [z % MODULUS]. *)
Definition fof {P} (z : Z) : F P := mkF (z mod MODULUS P) (mod_in_range P z).

(** field.py:23-27 [Field.__init__]: asserts -MODULUS < val < MODULUS. *)
Definition field_init {P} (v : Z) : res (F P) :=
  if (v <? MODULUS P) && (- MODULUS P <? v) then Ok (fof v) else Raise AssertionError.

(** [field(0)], [field(1)] *)
Definition f0 {P} : F P := fof 0.
Definition f1 {P} : F P := fof 1.

(** field.py:29-32 *)
Definition fzeros {P} (len : nat) : list (F P) := repeat f0 len.

(** field.py:76-77, 79-80, 82-83, 93-94.  The argument of [__class__] is
    already reduced, so the constructor's assertions hold. *)
Definition fadd {P} (x y : F P) : F P := fof (val x + val y).
Definition fneg {P} (x : F P) : F P := fof (- val x).
Definition fmul {P} (x y : F P) : F P := fof (val x * val y).
Definition fsub {P} (x y : F P) : F P := fof (val x - val y).

(** field.py:99-100 [__pow__], Python's [pow(val, n, MODULUS)] for n >= 0
    (binary exponentiation; the code never uses a negative exponent). *)
Fixpoint fpow_pos {P} (x : F P) (n : positive) : F P :=
  match n with
  | xH => x
  | xO m => let y := fpow_pos x m in fmul y y
  | xI m => let y := fpow_pos x m in fmul x (fmul y y)
  end.
Definition fpow {P} (x : F P) (n : N) : F P :=
  match n with
  | N0 => f1
  | Npos p => fpow_pos x p
  end.

(** field.py:85-86: [pow(val, MODULUS-2, MODULUS)]. *)
Definition finv {P} (x : F P) : F P := fpow x (Z.to_N (MODULUS P - 2)).

(** field.py:88-91 *)
Definition feqb {P} (x y : F P) : bool := val x =? val y.

(** field.py:108-109 [int()] *)
Definition fint {P} (x : F P) : Z := val x.

(** common.py:74-92 on field vectors. *)
Definition vec_sub {P} (l r : list (F P)) : res (list (F P)) :=
  if (length l =? length r)%nat then Ok (zip_with fsub l r)
  else Raise (ValueError "mismatched vector sizes").
Definition vec_add {P} (l r : list (F P)) : res (list (F P)) :=
  if (length l =? length r)%nat then Ok (zip_with fadd l r)
  else Raise (ValueError "mismatched vector sizes").
Definition vec_neg {P} (v : list (F P)) : list (F P) := map fneg v.

(** field.py:47-55 *)
Definition encode_vec {P} (vec : list (F P)) : res bytes :=
  foldM (fun encoded x =>
           let* e := to_le_bytes (fint x) (ENCODED_SIZE P) in
           Ok (encoded ++ e))
        vec [].

(** field.py:57-74.  The [while len(encoded) > 0] loop removes ENCODED_SIZE
    bytes per iteration; it is run with [length encoded] units of fuel, which
    theorem C02 shows to be enough whenever ENCODED_SIZE > 0. *)
Fixpoint decode_vec_loop {P} (fuel : nat) (encoded : bytes) (vec : list (F P))
  : res (list (F P)) :=
  match encoded with
  | [] => Ok vec
  | _ =>
    match fuel with
    | O => Raise OutOfFuel
    | S fuel' =>
      let* (encoded_x, encoded') := front (ENCODED_SIZE P) encoded in
      let x := from_le_bytes encoded_x in
      if MODULUS P <=? x then Raise (ValueError "modulus overflow")
      else
        let* e := field_init x in
        decode_vec_loop fuel' encoded' (vec ++ [e])
    end
  end.
Definition decode_vec {P} (encoded : bytes) : res (list (F P)) :=
  if negb (length encoded mod ENCODED_SIZE P =? 0)%nat
  then Raise (ValueError "input length must be a multiple of the size of an encoded field element")
  else decode_vec_loop (length encoded) encoded [].

(** field.py:112-124 [NttField]: adds GEN_ORDER and [gen()]. *)
Record NttFieldClass : Type := {
  base_field :> FieldClass;
  GEN_ORDER : Z;
  gen : F base_field;
}.

(** field.py:126-129 *)
Definition nth_root (P : NttFieldClass) (n : nat) : F P :=
  fpow (gen P) (Z.to_N (Z.shiftr (GEN_ORDER P) (Z.of_nat n))).

(** field.py:131-136 *)
Definition nth_root_powers (P : NttFieldClass) (n : nat) : res (list (F P)) :=
  let* log_n := assert_power_of_2 (Z.of_nat n) in
  let root := nth_root P log_n in
  Ok (map (fun i => fpow root (N.of_nat i)) (range 0 n)).

(** field.py:152-177.  [p += [cls(0)] * (n-len(p))] extends the caller's list
    in place; [ntt_arg] is that list after the call, [ntt] the returned value. *)
Definition ntt_arg {P : NttFieldClass} (p : list (F P)) (n : nat) : list (F P) :=
  p ++ repeat f0 (n - length p).

(** field.py:170-175, body of the innermost loop (one butterfly). *)
Definition butterfly {P : NttFieldClass} (w : F P) (q : list (F P)) (x y : nat)
  : res (list (F P)) :=
  let* u := get q x in
  let* t := get q (x + y)%nat in
  let v := fmul w t in
  let* q1 := set q x (fadd u v) in
  set q1 (x + y)%nat (fsub u v).

(** field.py:164-176, one iteration [k] of the outer loop. *)
Definition ntt_stage {P : NttFieldClass} (set_s : bool) (n : nat)
  (q : list (F P)) (k : nat) : res (list (F P)) :=
  let w0 := if set_s then nth_root P (k + 1) else f1 in
  let y := Nat.shiftl 1 (k - 1) in
  let r := nth_root P k in
  let* (q', _) :=
    for_range 0 y (q, w0) (fun '(q, w) i =>
      let* q' := for_range 0 (Nat.shiftr n k) q (fun q j =>
        butterfly w q (Nat.shiftl j k + i) y) in
      Ok (q', fmul w r)) in
  Ok q'.

Definition ntt {P : NttFieldClass} (p : list (F P)) (n : nat) (set_s : bool)
  : res (list (F P)) :=
  let* log_n := assert_power_of_2 (Z.of_nat n) in
  let p := ntt_arg p n in
  let* q := mapM (fun i => let* j := bitrev log_n (Z.of_nat i) in get p (Z.to_nat j))
                 (range 0 n) in
  for_range 1 (log_n + 1) q (ntt_stage set_s n).

(** field.py:138-150.  [out.pop(0)] raises IndexError on an empty list. *)
Definition inv_ntt {P : NttFieldClass} (p : list (F P)) (n : nat) : res (list (F P)) :=
  let* out := ntt p n false in
  match out with
  | [] => Raise IndexError
  | x :: out' =>
    let out := rev (out' ++ [x]) in
    let* fn := field_init (Z.of_nat n) in
    let inv_n := finv fn in
    Ok (map (fun e => fmul e inv_n) out)
  end.

(** field.py:180-219: the concrete classes. *)
Definition Field64_base : FieldClass :=
  {| modulus_pos := 18446744069414584321; ENCODED_SIZE := 8 |}.
Definition Field64 : NttFieldClass :=
  {| base_field := Field64_base; GEN_ORDER := 2 ^ 32;
     gen := fpow (fof 7) 4294967295 |}.
Definition Field96_base : FieldClass :=
  {| modulus_pos := 79228148845226978974766202881; ENCODED_SIZE := 12 |}.
Definition Field96 : NttFieldClass :=
  {| base_field := Field96_base; GEN_ORDER := 2 ^ 64;
     gen := fpow (fof 3) 4294966555 |}.
Definition Field128_base : FieldClass :=
  {| modulus_pos := 340282366920938462946865773367900766209; ENCODED_SIZE := 16 |}.
Definition Field128 : NttFieldClass :=
  {| base_field := Field128_base; GEN_ORDER := 2 ^ 66;
     gen := fpow (fof 7) 4611686018427387897 |}.
Definition Field255 : FieldClass :=
  {| modulus_pos := 57896044618658097711785492504343953926634992332820282019728792003956564819949;
     ENCODED_SIZE := 32 |}.

(** The moduli are the ones written in field.py:183, 195, 207, 219. *)
Example Field64_modulus : MODULUS Field64 = 2 ^ 32 * 4294967295 + 1.
Proof. reflexivity. Qed.
Example Field96_modulus : MODULUS Field96 = 2 ^ 64 * 4294966555 + 1.
Proof. reflexivity. Qed.
Example Field128_modulus : MODULUS Field128 = 2 ^ 66 * 4611686018427387897 + 1.
Proof. reflexivity. Qed.
Example Field255_modulus : MODULUS Field255 = 2 ^ 255 - 19.
Proof. reflexivity. Qed.
