(** C100: query() refuses exactly the test points at which the verifier shares
    would carry the inputs of a gadget call (flp_bbcggi19.py:454-478). *)
From Verif Require Import GuardSpec GuardFacts Circuits MeasSpec FlpProofs FlpInstances BaseFacts.
Open Scope nat_scope.

(** C100 (refused).  query() raises ValueError exactly when the test point of
    some gadget is a power of the root of unity for its wire polynomials; on
    every other input it computes what it would without the check. *)
Theorem C100_refused : forall (P : NttFieldClass) (v : Valid P) meas proof query_rand joint_rand n,
  NttOk P -> std_circuit P v ->
  length meas = vMEAS_LEN v -> length proof = proof_len v -> length query_rand = query_rand_len v ->
  length joint_rand = vJOINT_RAND_LEN v -> 1 <= n -> (Z.of_nat n < MODULUS P)%Z ->
  ((exists i k, i < length (GADGETS v) /\ at_root v query_rand i k) /\
     bbcggi19_query v meas proof query_rand joint_rand n = Raise (ValueError "test point is a root of unity")) \/
  ((forall i k, i < length (GADGETS v) -> ~ at_root v query_rand i k) /\
     exists ver, bbcggi19_query v meas proof query_rand joint_rand n = Ok ver /\
       query_unguarded v meas proof query_rand joint_rand n = Ok ver).
Proof.
  intros P v meas proof q jr n HP Hv H1 H2 H3 H4 H5 H6. pose proof (proj1 (std_ok HP v Hv)) as HV.
  destruct (query_guard HP v HV meas proof q jr n H1 H2 H3 H4 H5 H6) as [Hg Hb].
  destruct (existsb (FlpFacts.bad_point v q) (seq 0 (length (GADGETS v)))) eqn:E.
  - assert (N : ~ test_points_ok v q). { intros C. apply (bad_points_iff v) in C. congruence. }
    left. split; [now apply (not_ok_bad HP v HV) | now apply Hb].
  - apply (bad_points_iff v) in E. right. split.
    + intros i k Hi A. apply (proj2 (not_ok_bad HP v HV q)); [now exists i, k | exact E].
    + destruct (Hg E) as (ver & Eq & _). exists ver. split; [exact Eq|].
      now rewrite <- (guard_only HP v HV meas proof q jr n H1 H2 H3 H4 H5 H6 E).
Qed.
Print Assumptions C100_refused.

(** C100 (reveals).  Element [i] of the encoded measurement is read by gadget
    call [i / elements_per_call v].  Without the check, the test point that is
    one power above would let the sum of the verifier shares show this element,
    up to a constant, at a fixed position: whatever the shares, the proof and
    the joint randomness are. *)
Theorem C100_reveals : forall (P : NttFieldClass) (v : Valid P) i,
  NttOk P -> std_circuit P v -> i < vMEAS_LEN v -> exists j c, forall n ms ps query_rand joint_rand,
  1 <= n -> (Z.of_nat n < MODULUS P)%Z -> vecs n (vMEAS_LEN v) ms -> vecs n (proof_len v) ps ->
  length query_rand = query_rand_len v -> length joint_rand = vJOINT_RAND_LEN v ->
  at_root v query_rand 0 (S (i / elements_per_call v)) ->
  exists total, exchange_unguarded v n ms ps query_rand joint_rand total /\
    nth i (vsum (vMEAS_LEN v) ms) f0 = fadd (nth j total f0) c.
Proof. intros P v i HP Hv Hi. now apply reveals. Qed.
Print Assumptions C100_reveals.

(** C100 (harmless).  The other refused test points show no input: at the root's
    power 0 the wire entries are the wire seeds at the front of the proof, and
    at the powers beyond the last call they are zero. *)
Theorem C100_harmless : forall (P : NttFieldClass) (v : Valid P) k n ms ps query_rand joint_rand,
  NttOk P -> std_circuit P v -> k = 0 \/ nth 0 (GADGET_CALLS v) 0 < k ->
  1 <= n -> (Z.of_nat n < MODULUS P)%Z -> vecs n (vMEAS_LEN v) ms -> vecs n (proof_len v) ps ->
  length query_rand = query_rand_len v -> length joint_rand = vJOINT_RAND_LEN v ->
  at_root v query_rand 0 k ->
  exists total, exchange_unguarded v n ms ps query_rand joint_rand total /\
    forall j, j < ARITY (nth 0 (GADGETS v) Mul) ->
      nth (S j) total f0 = if k =? 0 then nth j (vsum (proof_len v) ps) f0 else f0.
Proof. intros P v k n ms ps q jr HP Hv Hk. now apply harmless. Qed.
Print Assumptions C100_harmless.

(** The hypotheses are met: Histogram with four buckets and chunks of two over
    Field128, every refused power. *)
Definition toy_histogram : Valid Field128 := Histogram Field128 4 2.
Example C100_std : std_circuit Field128 toy_histogram.
Proof. apply (std_Histogram Field128 4 2); [reflexivity|]. vm_compute. intuition congruence. Qed.
Definition toy_query_rand (k : nat) : list (F Field128) := [fof 5; fof 6; npow (nth_root Field128 2) k].
Example C100_at_root : forall k, k < 4 -> at_root toy_histogram (toy_query_rand k) 0 k.
Proof. intros k Hk. exists 2. split; [reflexivity|]. split; [exact Hk | reflexivity]. Qed.
Example C100_elements : elements_per_call toy_histogram = 2.
Proof. reflexivity. Qed.

(** Bucket 3 in two shares, with an arbitrary proof: the sum of the verifier
    shares at power 2 shows the elements 2 and 3 (0 and 1) minus one. *)
Definition toy_shares (l : list Z) : list (list (F Field128)) := [map (fun x => fof (x + 77)) l; map (fun x => fof (- 77)) l].
Definition toy_total (k : nat) : res (list Z) :=
  let* vs := mapM (fun '(m, p) => query_unguarded toy_histogram m p (toy_query_rand k) [fof 3; fof 4] 2)
    (combine (toy_shares [0; 0; 0; 1]%Z) (toy_shares (map Z.of_nat (seq 100 (proof_len toy_histogram))))) in
  Ok (map fint (vsum (verifier_len toy_histogram) vs)).
Definition toy_wires : list (res (list Z)) := Eval vm_compute in
  map (fun k => let* l := toy_total k in Ok (map (fun x => (if x =? MODULUS Field128 - 1 then -1 else x)%Z) (firstn 4 (skipn 1 l)))) (seq 0 4).
Example C100_example : toy_wires = [Ok [100; 101; 102; 103]; Ok [0; -1; 0; -1]; Ok [0; -1; 16; 0]; Ok [0; 0; 0; 0]]%Z.
Proof. reflexivity. Qed.
