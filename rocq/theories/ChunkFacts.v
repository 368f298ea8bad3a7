(** Proofs for C92: the chunk length of [ParallelSum] and the length of proofs. *)
From Verif Require Import GadgetFacts FlpBBCGGI19 Circuits.
From Coq Require Import Lia.
Open Scope nat_scope.

(** The length of a proof for [n] inputs in chunks of [c]. *)
Definition chunked (n c : nat) : nat := 2 * c + gadget_poly_len 2 (wire_poly_len ((n + c - 1) / c)).

Lemma calls_spec n c : 1 <= n -> 1 <= c ->
  1 <= (n + c - 1) / c /\ n <= c * ((n + c - 1) / c) < n + c.
Proof.
  intros Hn Hc. pose proof (Nat.div_mod (n + c - 1) c ltac:(lia)). pose proof (Nat.mod_upper_bound (n + c - 1) c ltac:(lia)).
  set (q := (n + c - 1) / c) in *. set (r := (n + c - 1) mod c) in *. split; nia.
Qed.

Lemma chunked_spec n c : 1 <= n -> 1 <= c -> exists q k,
  1 <= q /\ n <= c * q < n + c /\ q < 2 ^ k <= 2 * q /\ 1 <= k /\ chunked n c + 1 = 2 * c + 2 * 2 ^ k.
Proof.
  intros Hn Hc. destruct (calls_spec n c Hn Hc) as (Hq & Hb). exists ((n + c - 1) / c).
  unfold chunked, gadget_poly_len, wire_poly_len. set (q := (n + c - 1) / c) in *.
  pose proof (np2_spec (1 + q) ltac:(lia)) as H. unfold np2 in *. set (k := bit_length (Z.of_nat (1 + q) - 1)) in *.
  exists k. assert (Hk : 1 <= k) by (destruct k; cbn in H; lia).
  destruct k as [|k]; [lia|]. cbn [Nat.pow] in *. lia.
Qed.

Lemma pow_cases a b : (2 * 2 ^ a <= 2 ^ b) \/ 2 ^ a = 2 ^ b \/ 2 ^ a = 2 * 2 ^ b \/ 4 * 2 ^ b <= 2 ^ a.
Proof.
  destruct (lt_eq_lt_dec a b) as [[H|H]|H].
  - left. change (2 ^ S a <= 2 ^ b). apply Nat.pow_le_mono_r; lia.
  - right. left. now subst.
  - right. right. destruct (Nat.eq_dec a (S b)) as [->|]; [left; reflexivity|].
    right. replace (4 * 2 ^ b) with (2 ^ (2 + b)) by (rewrite Nat.pow_add_r; reflexivity). apply Nat.pow_le_mono_r; lia.
Qed.

Lemma chunked_sqrt n c c' : 1 <= c -> 1 <= c' -> (c - 1) * (c - 1) < n < (c + 1) * (c + 1) ->
  2 * chunked n c <= 3 * chunked n c'.
Proof.
  intros Hc Hc' Hn. assert (1 <= n) by nia.
  destruct (chunked_spec n c) as (q & a & Hq & Hqn & Ha & Ha1 & E); trivial.
  destruct (chunked_spec n c') as (q' & b & Hq' & Hqn' & Hb & Hb1 & E'); trivial.
  enough (4 * c + 4 * 2 ^ a + 1 <= 6 * c' + 6 * 2 ^ b) by lia.
  assert (Q1 : q <= c + 2) by nia. assert (Q2 : c <= q + 1) by nia.
  assert (T : 2 <= 2 ^ b) by (destruct b; [lia|]; pose proof (Nat.pow_nonzero 2 b); cbn; lia).
  assert (N1 : c * (q - 1) < n) by nia. assert (N2 : n <= c' * (2 ^ b - 1)) by nia.
  pose proof (pow_cases a b) as HC. set (A := 2 ^ a) in *. set (B := 2 ^ b) in *. clearbody A B. clear E E' Ha1 Hb1.
  destruct HC as [HC | [HC | [HC | HC]]].
  - lia.
  - subst B. enough (2 * c + 1 <= 6 * c') by lia.
    destruct (Nat.le_gt_cases q 3) as [H3|H3].
    + assert (q = 1 \/ q = 2 \/ q = 3) as [-> | [-> | ->]] by lia; [lia | |].
      * assert (A <= 4) by lia. assert (n <= c' * 3) by nia. nia.
      * assert (A <= 6) by lia. assert (n <= c' * 5) by nia. nia.
    + assert (n <= c' * (2 * q - 1)) by nia. nia.
  - subst A. assert (c < c') by nia. lia.
  - assert (2 * c < c') by nia. lia.
Qed.

Lemma chunked_lower n c : 1 <= n -> 1 <= c -> 16 * n <= (chunked n c - 1) * (chunked n c - 1).
Proof.
  intros Hn Hc. destruct (chunked_spec n c) as (q & a & Hq & Hqn & Ha & Ha1 & E); trivial.
  set (A := 2 ^ a) in *. clearbody A. assert (2 * c + 2 * q <= chunked n c - 1) by lia.
  assert (S : 4 * (c * q) <= (c + q) * (c + q)) by (destruct (Nat.le_ge_cases c q) as [X|X]; apply Nat.le_exists_sub in X; destruct X as (d & -> & _); nia).
  set (L := chunked n c - 1) in *. clearbody L.
  assert ((2 * c + 2 * q) * (2 * c + 2 * q) <= L * L) by (apply Nat.mul_le_mono; lia). lia.
Qed.

Lemma chunked_square k : 1 <= k ->
  chunked (2 ^ k * 2 ^ k) (2 ^ k) + 1 = 6 * 2 ^ k /\ chunked (2 ^ k * 2 ^ k) (2 ^ k + 2) = 4 * 2 ^ k + 3.
Proof.
  intros Hk. assert (T : 2 <= 2 ^ k) by (destruct k; [lia|]; pose proof (Nat.pow_nonzero 2 k); cbn; lia).
  split.
  - destruct (chunked_spec (2 ^ k * 2 ^ k) (2 ^ k)) as (q & a & Hq & Hqn & Ha & Ha1 & ->); [nia | lia |].
    assert (q = 2 ^ k) by nia. subst q. pose proof (pow_cases a k). lia.
  - destruct (chunked_spec (2 ^ k * 2 ^ k) (2 ^ k + 2)) as (q & a & Hq & Hqn & Ha & Ha1 & E); [nia | lia |].
    assert (Q : q = 2 ^ k - 1) by nia. subst q.
    enough (2 ^ a = 2 ^ k) by lia. pose proof (pow_cases a k). lia.
Qed.
