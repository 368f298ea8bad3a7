(** The primitive TurboSHAKE128 (RFC 9861, Keccak-p[1600,12] of FIPS 202), which
    xof.py:10, 140-143 and 213-215 take from the library PyCryptodome.  It is not code
    of /repo; the theorems hold for every function of this type, and this
    definition is used only to check the model against /repo/test_vec. *)
From Verif Require Export Xof.
Open Scope N_scope.

(** A lane is a number below 2^64. *)
Definition ones64 : N := 18446744073709551615.
Definition rotl64 (x n : N) : N :=
  N.lor (N.land (N.shiftl x n) ones64) (N.shiftr x (64 - n)).

(** The constants of rho, pi and iota.  The state is the list of the lanes
    A[x,y] at index x + 5*y; [rho_pi] lists, for each target index, the source
    index and the rotation. *)
Definition rho_pi : list (nat * N) :=
  [(0%nat, 0); (6%nat, 44); (12%nat, 43); (18%nat, 21); (24%nat, 14);
   (3%nat, 28); (9%nat, 20); (10%nat, 3); (16%nat, 45); (22%nat, 61);
   (1%nat, 1); (7%nat, 6); (13%nat, 25); (19%nat, 8); (20%nat, 18);
   (4%nat, 27); (5%nat, 36); (11%nat, 10); (17%nat, 15); (23%nat, 56);
   (2%nat, 62); (8%nat, 55); (14%nat, 39); (15%nat, 41); (21%nat, 2)].
Definition round_constants : list N :=
  [0x000000008000808B; 0x800000000000008B; 0x8000000000008089; 0x8000000000008003;
   0x8000000000008002; 0x8000000000000080; 0x000000000000800A; 0x800000008000000A;
   0x8000000080008081; 0x8000000000008080; 0x0000000080000001; 0x8000000080008008].

Definition theta (a : list N) : list N :=
  match a with
  | [a0; a1; a2; a3; a4; b0; b1; b2; b3; b4; c0; c1; c2; c3; c4;
     d0; d1; d2; d3; d4; e0; e1; e2; e3; e4] =>
    let x5 p q r s t := N.lxor p (N.lxor q (N.lxor r (N.lxor s t))) in
    let p0 := x5 a0 b0 c0 d0 e0 in
    let p1 := x5 a1 b1 c1 d1 e1 in
    let p2 := x5 a2 b2 c2 d2 e2 in
    let p3 := x5 a3 b3 c3 d3 e3 in
    let p4 := x5 a4 b4 c4 d4 e4 in
    let q0 := N.lxor p4 (rotl64 p1 1) in
    let q1 := N.lxor p0 (rotl64 p2 1) in
    let q2 := N.lxor p1 (rotl64 p3 1) in
    let q3 := N.lxor p2 (rotl64 p4 1) in
    let q4 := N.lxor p3 (rotl64 p0 1) in
    [N.lxor a0 q0; N.lxor a1 q1; N.lxor a2 q2; N.lxor a3 q3; N.lxor a4 q4;
     N.lxor b0 q0; N.lxor b1 q1; N.lxor b2 q2; N.lxor b3 q3; N.lxor b4 q4;
     N.lxor c0 q0; N.lxor c1 q1; N.lxor c2 q2; N.lxor c3 q3; N.lxor c4 q4;
     N.lxor d0 q0; N.lxor d1 q1; N.lxor d2 q2; N.lxor d3 q3; N.lxor d4 q4;
     N.lxor e0 q0; N.lxor e1 q1; N.lxor e2 q2; N.lxor e3 q3; N.lxor e4 q4]
  | _ => a
  end.
Definition rho_and_pi (a : list N) : list N := map (fun '(i, r) => rotl64 (nth i a 0) r) rho_pi.
Fixpoint chi (a : list N) : list N :=
  match a with
  | a0 :: a1 :: a2 :: a3 :: a4 :: rest =>
    let f x y z := N.lxor x (N.ldiff z y) in
    f a0 a1 a2 :: f a1 a2 a3 :: f a2 a3 a4 :: f a3 a4 a0 :: f a4 a0 a1 :: chi rest
  | _ => []
  end.
Definition iota (rc : N) (a : list N) : list N :=
  match a with x :: t => N.lxor x rc :: t | [] => [] end.
Definition keccak_p12 (a : list N) : list N :=
  fold_left (fun a rc => iota rc (chi (rho_and_pi (theta a)))) round_constants a.

(** Lanes and bytes (little-endian). *)
Fixpoint lane_of_bytes (b : bytes) : N :=
  match b with [] => 0 | x :: t => Byte.to_N x + 256 * lane_of_bytes t end.
Fixpoint bytes_of_lane (len : nat) (x : N) : bytes :=
  match len with O => [] | S n => z2b (Z.of_N (N.land x 255)) :: bytes_of_lane n (N.shiftr x 8) end.
Fixpoint absorb_block (n : nat) (block : bytes) (a : list N) : list N :=
  match n, a with
  | S n', x :: t => N.lxor x (lane_of_bytes (firstn 8 block)) :: absorb_block n' (skipn 8 block) t
  | _, _ => a
  end.

(** The rate is 168 bytes = 21 lanes.  Absorb all full blocks, then the last one
    with the domain byte and the final bit. *)
Fixpoint absorb (fuel : nat) (m : bytes) (domain : Z) (a : list N) : list N :=
  if (length m <? 168)%nat then
    let block := m ++ [z2b domain] ++ repeat x00 (168 - 1 - length m) in
    let lst := nth 167 block x00 in
    let block := firstn 167 block ++ [byte_xor lst x80] in
    keccak_p12 (absorb_block 21 block a)
  else
    match fuel with
    | O => a
    | S fuel' => absorb fuel' (skipn 168 m) domain (keccak_p12 (absorb_block 21 (firstn 168 m) a))
    end.
Definition squeeze_block (a : list N) : bytes := concat (map (bytes_of_lane 8) (firstn 21 a)).

(** Output byte [i]; the first block is computed once. *)
Definition turboshake128 (m : bytes) (domain : Z) : nat -> byte :=
  let a := absorb (length m) m domain (repeat 0 25) in
  let block0 := squeeze_block a in
  fun i =>
    if (i <? 168)%nat then nth i block0 x00
    else nth (i mod 168) (squeeze_block (Nat.iter (i / 168) keccak_p12 a)) x00.
