(** Model of /repo/poc/vdaf_poc/common.py. *)
From Verif Require Export Base.
Open Scope Z_scope.

(** common.py:8 *)
Definition VERSION : Z := 18.

(** Python [int.bit_length]. *)
Definition bit_length (z : Z) : nat :=
  if z =? 0 then 0%nat else S (Z.to_nat (Z.log2 (Z.abs z))).

(** common.py:27-31.  [math.log2(0)] (or of a negative number) raises
    ValueError before the assertion is reached.  Simplification: [math.log2]
    is the exact real logarithm (IEEE rounding is not modelled; it is exact on
    powers of two, and for other [n] the comparison [n == 1 << log_n] fails for
    every integer [log_n]). *)
Definition assert_power_of_2 (n : Z) : res nat :=
  if n <=? 0 then Raise (ValueError "math domain error")
  else
    let log_n := Z.log2_up n in
    if n =? Z.shiftl 1 log_n then Ok (Z.to_nat log_n) else Raise AssertionError.

(** common.py:34-37 *)
Definition next_power_of_2 (n : Z) : res Z :=
  if 0 <? n then Ok (Z.shiftl 1 (Z.of_nat (bit_length (n - 1))))
  else Raise AssertionError.

(** The same function where the result is used as a list length. *)
Definition next_power_of_2_nat (n : nat) : res nat :=
  let* z := next_power_of_2 (Z.of_nat n) in Ok (Z.to_nat z).

(** Digits of [bin(n)[2:]], most significant first, for [n >= 0]. *)
Fixpoint pos_digits_lsb (p : positive) : list bool :=
  match p with
  | xH => [true]
  | xO q => false :: pos_digits_lsb q
  | xI q => true :: pos_digits_lsb q
  end.
Definition bin_digits (n : Z) : list bool :=
  match n with
  | Z0 => [false]
  | Zpos p => rev (pos_digits_lsb p)
  | Zneg p => rev (pos_digits_lsb p)
  end.
(** [int(s, 2)] on a string of binary digits. *)
Definition int_of_digits (ds : list bool) : Z :=
  fold_left (fun (acc : Z) (d : bool) => 2 * acc + (if d then 1 else 0)) ds 0.

(** common.py:40-46 *)
Definition bitrev (k : nat) (n : Z) : res Z :=
  let maxnum := Z.shiftl 1 (Z.of_nat k) in
  if (0 <=? n) && (n <? maxnum) then
    let r := rev (bin_digits n) in
    let padded := r ++ repeat false (k - length r) in
    Ok (int_of_digits padded)
  else Raise AssertionError.

(** common.py:49-51 *)
Definition zeros (len : nat) : bytes := repeat x00 len.

(** common.py:59-61; [int.to_bytes(1)] raises OverflowError out of range. *)
Definition byte_of (number : Z) : res bytes :=
  if (0 <=? number) && (number <? 256) then Ok [z2b number]
  else Raise OverflowError.

(** common.py:64-66; [zip] stops at the shorter argument. *)
Definition byte_xor (a b : byte) : byte := z2b (Z.lxor (b2z a) (b2z b)).
Fixpoint xor (left right : bytes) : bytes :=
  match left, right with
  | a :: l, b :: r => byte_xor a b :: xor l r
  | _, _ => []
  end.

(** common.py:74-87: [vec_sub] and [vec_add] are this function with the
    element operation [x - y] resp. [x + y]; see Field.v. *)
Fixpoint zip_with {A B C} (f : A -> B -> C) (l : list A) (r : list B) : list C :=
  match l, r with
  | a :: l', b :: r' => f a b :: zip_with f l' r'
  | _, _ => []
  end.

(** [int.to_bytes(length, 'little')] for a value already known to fit. *)
Fixpoint le_bytes (len : nat) (val : Z) : bytes :=
  match len with
  | O => []
  | S n => z2b (val mod 256) :: le_bytes n (val / 256)
  end.

(** common.py:95-104 *)
Definition to_le_bytes (val : Z) (len : nat) : res bytes :=
  if (val <? 0) || (Z.shiftl 1 (8 * Z.of_nat len) <=? val)
  then Raise (ValueError "bad to_le_bytes call")
  else Ok (le_bytes len val).

(** common.py:107-109 *)
Fixpoint from_le_bytes (encoded : bytes) : Z :=
  match encoded with
  | [] => 0
  | b :: t => b2z b + 256 * from_le_bytes t
  end.

(** common.py:112-121; big-endian is the reverse of little-endian. *)
Definition to_be_bytes (val : Z) (len : nat) : res bytes :=
  if (val <? 0) || (Z.shiftl 1 (8 * Z.of_nat len) <=? val)
  then Raise (ValueError "bad to_be_bytes call")
  else Ok (rev (le_bytes len val)).

(** common.py:124-126 *)
Definition from_be_bytes (encoded : bytes) : Z := from_le_bytes (rev encoded).

(** common.py:129-131 *)
Definition concat_bytes (parts : list bytes) : bytes := concat parts.

(** common.py:147-157 *)
Definition front {A} (len : nat) (vec : list A) : res (list A * list A) :=
  if (len <=? length vec)%nat then Ok (firstn len vec, skipn len vec)
  else Raise AssertionError.

(** common.py:163-180 *)
Definition format_dst (algo_class algo usage : Z) : res bytes :=
  let* v := to_be_bytes VERSION 1 in
  let* c := to_be_bytes algo_class 1 in
  let* a := to_be_bytes algo 4 in
  let* u := to_be_bytes usage 2 in
  Ok (concat_bytes [v; c; a; u]).
