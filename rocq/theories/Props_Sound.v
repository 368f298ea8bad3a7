(** Property C67: soundness of Prio3's verification over joint and query randomness
    and several proofs. *)
From Verif Require Import Base Field FlpBBCGGI19 Circuits Spec CircuitSpec FlpSpec MeasSpec Roots FlpInstances Primes Prio3 Prio3Spec
  SoundSpec SoundTotal Plot PlotSpec SoundPlot.
Open Scope nat_scope.

(** C67.  Any circuit.  If at most [A] joint randomness vectors make the circuit
    accept the measurement that is shared and no gadget polynomial has a degree above
    [d], then a prover who chooses the proof shares after seeing the joint randomness
    is successful for at most the given number of pairs. *)
Theorem C67_total : forall P : NttFieldClass, NttOk P -> forall v : Valid P, ValidOk v ->
  forall (X : XofClass) (ID : Z) (vks n m : nat), 1 <= n -> (Z.of_nat n < MODULUS P)%Z ->
  forall ctx (ms : list (list (F P))) prover A d S,
  vecs n (vMEAS_LEN v) ms -> joint_bound v (vsum (vMEAS_LEN v) ms) A -> 1 <= d -> query_bound v d ->
  successes v X ID vks n m ctx ms prover S ->
  (Z.of_nat (length S) <=
    (A * MODULUS P ^ Z.of_nat (query_rand_len v)
     + MODULUS P ^ Z.of_nat (vJOINT_RAND_LEN v) * (Z.of_nat d * MODULUS P ^ (Z.of_nat (query_rand_len v) - 1))) ^ Z.of_nat m)%Z.
Proof.
  intros P HP v HV X ID vks n m Hn HnM ctx ms prover A d S Hms HA Hd Hq (Hp & HN & HS).
  exact (total_sound P HP v HV X ID vks n m Hn HnM ctx ms prover A d S Hms Hp HA Hd Hq HN HS).
Qed.
Print Assumptions C67_total.

Section Std.
Context (P : NttFieldClass) (HP : NttOk P) (X : XofClass) (ID : Z) (vks n m : nat) (Hn : 1 <= n) (HnM : (Z.of_nat n < MODULUS P)%Z).
Notation M := (MODULUS P).

(** C67.  The circuits: the fraction of the successes is at most
    ((chunk_length + d) / MODULUS)^m, respectively (d / MODULUS)^m for the circuits
    without joint randomness, for d twice the padded number of gadget calls. *)
Theorem C67_Count : forall ctx (ms : list (list (F P))) prover S, fits P Mul 1 ->
  vecs n 1 ms -> ~ Forall is_bit (vsum 1 ms) -> successes (Count P) X ID vks n m ctx ms prover S ->
  (Z.of_nat (length S) * M ^ Z.of_nat m <= 2 ^ Z.of_nat m * all_rand (Count P) m)%Z.
Proof. exact (Count_total P HP X ID vks n m Hn HnM). Qed.

Theorem C67_Sum : forall max ctx (ms : list (list (F P))) prover S,
  (0 < max)%Z -> (2 ^ Z.of_nat (bit_length max) < M)%Z -> fits P (Sum_gadget (bit_length max)) (bit_length max) ->
  vecs n (bit_length max) ms -> ~ Forall is_bit (vsum (bit_length max) ms) -> successes (Sum P max) X ID vks n m ctx ms prover S ->
  (Z.of_nat (length S) * M ^ Z.of_nat m <= Z.of_nat (2 * (wire_poly_len (bit_length max) - 1)) ^ Z.of_nat m * all_rand (Sum P max) m)%Z.
Proof. exact (Sum_total P HP X ID vks n m Hn HnM). Qed.

Theorem C67_Histogram : forall len chunk ctx (ms : list (list (F P))) prover S,
  1 <= len -> 1 <= chunk -> (Z.of_nat len < M)%Z -> fits P (ParallelSum Mul chunk) (Histogram_calls len chunk) ->
  vecs n len ms -> (forall i, i < len -> vsum len ms <> onehot len i) ->
  successes (Histogram P len chunk) X ID vks n m ctx ms prover S ->
  (Z.of_nat (length S) * M ^ Z.of_nat m
   <= Z.of_nat (chunk + 2 * (wire_poly_len (Histogram_calls len chunk) - 1)) ^ Z.of_nat m * all_rand (Histogram P len chunk) m)%Z.
Proof. exact (Histogram_total P HP X ID vks n m Hn HnM). Qed.

Theorem C67_SumVec : forall len max chunk ctx (ms : list (list (F P))) prover S,
  1 <= len -> 1 <= chunk -> (0 < max)%Z -> (2 ^ Z.of_nat (bit_length max) < M)%Z ->
  fits P (ParallelSum Mul chunk) (SumVec_calls len (bit_length max) chunk) ->
  vecs n (len * bit_length max) ms -> ~ Forall is_bit (vsum (len * bit_length max) ms) ->
  successes (SumVec P len max chunk) X ID vks n m ctx ms prover S ->
  (Z.of_nat (length S) * M ^ Z.of_nat m
   <= Z.of_nat (chunk + 2 * (wire_poly_len (SumVec_calls len (bit_length max) chunk) - 1)) ^ Z.of_nat m
      * all_rand (SumVec P len max chunk) m)%Z.
Proof. exact (SumVec_total P HP X ID vks n m Hn HnM). Qed.

Theorem C67_MultihotCountVec : forall len max_weight chunk ctx (ms : list (list (F P))) prover S,
  1 <= len -> 1 <= max_weight <= len -> (Z.of_nat len < M)%Z -> 1 <= chunk ->
  fits P (ParallelSum Mul chunk) (Multihot_calls len max_weight chunk) ->
  let v := MultihotCountVec P len max_weight chunk in
  vecs n (vMEAS_LEN v) ms -> ~ multihot_valid len max_weight (vsum (vMEAS_LEN v) ms) ->
  successes v X ID vks n m ctx ms prover S ->
  (Z.of_nat (length S) * M ^ Z.of_nat m
   <= Z.of_nat (chunk + 2 * (wire_poly_len (Multihot_calls len max_weight chunk) - 1)) ^ Z.of_nat m * all_rand v m)%Z.
Proof. exact (MultihotCountVec_total P HP X ID vks n m Hn HnM). Qed.

(** C67.  The plotting script's bound for SumVec, with the joint randomness and
    several proofs, holds if the number of gadget calls needs no padding. *)
Theorem C67_script : forall len max chunk ctx (ms : list (list (F P))) prover S,
  1 <= len -> 1 <= chunk -> (0 < max)%Z -> (2 ^ Z.of_nat (bit_length max) < M)%Z ->
  fits P (ParallelSum Mul chunk) (SumVec_calls len (bit_length max) chunk) ->
  let v := SumVec P len max chunk in
  plottable v -> Forall (fun c => exists k, c + 1 = 2 ^ k) (GADGET_CALLS v) ->
  vecs n (vMEAS_LEN v) ms -> ~ Forall is_bit (vsum (vMEAS_LEN v) ms) ->
  successes v X ID vks n m ctx ms prover S ->
  (inject_Z (Z.of_nat (length S)) <= robustness (sum_vec_soundness v chunk) 0 1 m * inject_Z (all_rand v m))%Q.
Proof. exact (SumVec_script HP X ID vks n m Hn HnM). Qed.

End Std.
Print Assumptions C67_Count.
Print Assumptions C67_Sum.
Print Assumptions C67_Histogram.
Print Assumptions C67_SumVec.
Print Assumptions C67_MultihotCountVec.
Print Assumptions C67_script.

(** A prover with a proof that is accepted for an invalid measurement. *)
Definition toy_ts : TurboShake := fun m _ i => nth (i * i mod 97) (m ++ zeros 97) x07.
Definition cheat_circuit : Valid Field64 := SumVec Field64 2 1 1.
Definition cheat_joint_rand : list (F Field64) := map fof [3; 5]%Z.
Definition cheat_proof : list (F Field64) :=
  map fof [0; 0; 7759539220024965665; 3374422265606455184; 4093830672275973202; 17296969882547980939;
           14352913397138611119; 14008085502583708034; 15723529885323947793]%Z.
Definition cheat_shares : list (list (F Field64)) := [map fof [1; -4]%Z; map fof [1; 7]%Z].
Definition cheat_prover (jr : list (F Field64)) : list (list (F Field64)) := [cheat_proof; fzeros 9].

Example C67_example :
  ValidOk cheat_circuit /\ vecs 2 (vMEAS_LEN cheat_circuit) cheat_shares /\
  ~ Forall is_bit (vsum (vMEAS_LEN cheat_circuit) cheat_shares) /\
  successes cheat_circuit (XofTurboShake128 toy_ts 50) 3 32 2 1 [] cheat_shares cheat_prover
    [(cheat_joint_rand, [fof 2%Z]); (cheat_joint_rand, [fof 3%Z])].
Proof.
  assert (HV : std_circuit Field64 cheat_circuit) by (apply (std_SumVec _ 2 1 1); [reflexivity | vm_compute; discriminate]).
  split; [apply (std_ok NttOk_Field64 _ HV)|]. split; [split; [reflexivity | repeat constructor]|].
  split; [intros H; inversion_clear H as [|? ? [H1|H1] _]; apply (f_equal val) in H1; vm_compute in H1; discriminate|].
  split; [intros jr _; split; [reflexivity | repeat constructor]|].
  split.
  - constructor; [|constructor; [intros []|constructor]]. intros [H|[]]. injection H as H.
    assert (N : val (fof 3 : F Field64) <> val (fof 2 : F Field64)) by (vm_compute; discriminate). apply N. now rewrite H.
  - set (p := prio3_of cheat_circuit (XofTurboShake128 toy_ts 50) 3 32 2 1).
    assert (A : forall qr,
      is_ok (let* a := proof_verifiers p (nth 0 cheat_shares []) cheat_proof qr cheat_joint_rand in
             let* b := proof_verifiers p (nth 1 cheat_shares []) (fzeros 9) qr cheat_joint_rand in
             p3_verifier_shares_to_message p [] tt [(concat a, Some []); (concat b, Some [])]) = true ->
      accepted cheat_circuit (XofTurboShake128 toy_ts 50) 3 32 2 1 [] cheat_shares (cheat_prover cheat_joint_rand) cheat_joint_rand qr).
    { intros qr H. unfold accepted. fold p.
      destruct (proof_verifiers p (nth 0 cheat_shares []) cheat_proof qr cheat_joint_rand) as [a|] eqn:E1; [|discriminate].
      destruct (proof_verifiers p (nth 1 cheat_shares []) (fzeros 9) qr cheat_joint_rand) as [b|] eqn:E2; [|discriminate].
      cbn [bind] in H. destruct (p3_verifier_shares_to_message p [] tt [(concat a, Some []); (concat b, Some [])]) as [msg|] eqn:E3; [|discriminate].
      exists [a; b], (fun _ => Some []), msg. split; [reflexivity|]. split; [|exact E3].
      intros [|[|j]] Hj; [exact E1 | exact E2 | lia]. }
    intros jr qr [E|[E|[]]]; injection E as <- <-; (split; [reflexivity|]; split; [reflexivity|]; apply A; vm_compute; reflexivity).
Qed.
