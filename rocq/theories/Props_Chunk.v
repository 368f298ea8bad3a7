(** Property C92: the chunk length of [ParallelSum] and the length of proofs
    (draft-irtf-cfrg-vdaf.md:4438-4457). *)
From Verif Require Import ChunkFacts FlpBBCGGI19 Flp Circuits Field.
Open Scope nat_scope.

(** The circuits with a chunk length: the measurement length and the circuit
    as a function of the chunk length. *)
Definition chunk_circuit (P : NttFieldClass) (v : nat -> Valid P) : Prop :=
  (exists len max, v = SumVec P len max) \/ (exists len, v = Histogram P len) \/
  (exists len w, v = MultihotCountVec P len w).

Lemma chunk_len P v : chunk_circuit P v -> forall c, PROOF_LEN (FlpBBCGGI19 (v c)) = chunked (vMEAS_LEN (v c)) c.
Proof.
  intros H c. destruct H as [(len & max & ->) | [(len & ->) | (len & w & ->)]];
  cbv [PROOF_LEN FlpBBCGGI19 proof_len SumVec Histogram MultihotCountVec GADGETS GADGET_CALLS combine map sum_nat fold_left fold_right ARITY DEGREE vMEAS_LEN chunked];
  unfold SumVec_calls, Histogram_calls, Multihot_calls; lia.
Qed.
Lemma chunk_meas P v : chunk_circuit P v -> forall c c', vMEAS_LEN (v c) = vMEAS_LEN (v c').
Proof. intros H c c'. destruct H as [(len & max & ->) | [(len & ->) | (len & w & ->)]]; reflexivity. Qed.

(** C92.  The two forms of rounding: a proof has the gadget's 2 c wire seeds
    and 2 * 2^k - 1 further elements, where the gadget is called once per chunk
    of the padded measurement and 2^k is the least power of two exceeding the
    number of calls. *)
Theorem C92_length : forall P v, chunk_circuit P v -> forall c, 1 <= c -> 1 <= vMEAS_LEN (v c) ->
  exists calls k, vMEAS_LEN (v c) <= c * calls < vMEAS_LEN (v c) + c /\ calls < 2 ^ k <= 2 * calls /\
    PROOF_LEN (FlpBBCGGI19 (v c)) = 2 * c + (2 * 2 ^ k - 1).
Proof.
  intros P v Hv c Hc Hn. rewrite (chunk_len P v Hv c). destruct (chunked_spec _ c Hn Hc) as (q & k & _ & H1 & H2 & _ & E).
  exists q, k. split; [exact H1|]. split; [exact H2|]. lia.
Qed.
Print Assumptions C92_length.

(** C92.  Whatever the chunk length, a proof has at least 4 sqrt(n) + 1
    elements. *)
Theorem C92_lower : forall P v, chunk_circuit P v -> forall c, 1 <= c -> 1 <= vMEAS_LEN (v c) ->
  let l := PROOF_LEN (FlpBBCGGI19 (v c)) in 16 * vMEAS_LEN (v c) <= (l - 1) * (l - 1).
Proof. intros P v Hv c Hc Hn. cbv zeta. rewrite (chunk_len P v Hv c). now apply chunked_lower. Qed.
Print Assumptions C92_lower.

(** C92.  With a chunk length less than 1 away from the square root of the
    length of the measurement, proofs are at most 50% longer than with any other
    chunk length. *)
Theorem C92_sqrt : forall P v, chunk_circuit P v -> forall c c', 1 <= c -> 1 <= c' ->
  (c - 1) * (c - 1) < vMEAS_LEN (v c) < (c + 1) * (c + 1) ->
  2 * PROOF_LEN (FlpBBCGGI19 (v c)) <= 3 * PROOF_LEN (FlpBBCGGI19 (v c')).
Proof.
  intros P v Hv c c' Hc Hc' Hn. rewrite !(chunk_len P v Hv), (chunk_meas P v Hv c' c). now apply chunked_sqrt.
Qed.
Print Assumptions C92_sqrt.

(** C92.  No smaller percentage would do: for 4^k inputs, the square root gives
    6 * 2^k - 1 elements, another chunk length 4 * 2^k + 3. *)
Theorem C92_tight : forall P k, 1 <= k ->
  let n := 2 ^ k * 2 ^ k in
  PROOF_LEN (FlpBBCGGI19 (Histogram P n (2 ^ k))) + 1 = 6 * 2 ^ k /\
  PROOF_LEN (FlpBBCGGI19 (Histogram P n (2 ^ k + 2))) = 4 * 2 ^ k + 3.
Proof.
  intros P k Hk n. rewrite !(chunk_len P (Histogram P n)) by (right; left; now exists n). exact (chunked_square k Hk).
Qed.
Print Assumptions C92_tight.

(** 1000 inputs: the square root is 31.6; 32 gives 32 calls and 191 elements,
    33 gives 31 calls and 129. *)
Example C92_example :
  PROOF_LEN (FlpBBCGGI19 (Histogram Field128 1000 32)) = 191 /\
  PROOF_LEN (FlpBBCGGI19 (Histogram Field128 1000 33)) = 129.
Proof. split; vm_compute; reflexivity. Qed.
