(** Soundness over joint and query randomness, against the plotting script. *)
From Coq Require Import Znumtheory Lqa Qpower.
From Verif Require Import Base Common Field FlpBBCGGI19 Spec BaseFacts FieldFacts CircuitSpec FlpSpec Roots
  Circuits MeasFacts CircuitInstances FlpInstances RangeInt Prio3 Prio3Spec Prio3Sound SoundSpec SoundTotal Plot PlotSpec PlotFacts.
Open Scope Q_scope.

Section T.
Context {P : NttFieldClass} (HP : NttOk P) (X : XofClass) (ID : Z) (vks n m : nat) (Hn : (1 <= n)%nat) (HnM : (Z.of_nat n < MODULUS P)%Z).
Notation F := (F P).
Notation M := (MODULUS P).

Theorem total_padded (v : Valid P) (HV : ValidOk v) ctx (ms : list (list F)) prover c S : plottable v ->
  vecs n (vMEAS_LEN v) ms -> joint_bound v (vsum (vMEAS_LEN v) ms) (Z.of_nat c * M ^ (Z.of_nat (vJOINT_RAND_LEN v) - 1)) ->
  (vJOINT_RAND_LEN v = 0 -> c = 0)%nat ->
  successes v X ID vks n m ctx ms prover S ->
  inject_Z (Z.of_nat (length S)) <=
  robustness (inject_Z (Z.of_nat c) / inject_Z M + padded_soundness v) 0 1 m * inject_Z (all_rand v m).
Proof.
  intros (NE & FD & FM) Hms HA HJ HS. pose proof (ntt_odd P HP) as Hodd.
  set (d := list_max (degs v)).
  pose proof (total_sound_frac P HP v HV X ID vks n m Hn HnM ctx ms prover c d S Hms HA HJ (qrl_pos v NE) (one_deg v NE FD HV) (degs_nth v HV) HS) as HT.
  pose proof (padded_bound HP v HV NE FM) as HB. fold d in HB.
  set (R := all_rand v m) in *. assert (HR : (0 <= R)%Z) by (apply Z.pow_nonneg; lia).
  unfold robustness. cbn [Nat.add Z.of_nat Pos.of_succ_nat]. change (inject_Z 1) with 1. rewrite Qmult_1_l.
  assert (PM : 0 < inject_Z M) by (change 0 with (inject_Z 0); rewrite <- Zlt_Qlt; lia).
  set (y := inject_Z (Z.of_nat (c + d)) / inject_Z M).
  assert (Hy : y <= inject_Z (Z.of_nat c) / inject_Z M + padded_soundness v).
  { unfold y. rewrite Nat2Z.inj_add, inject_Z_plus. unfold Qdiv in *. rewrite Qmult_plus_distr_l. lra. }
  assert (Hy0 : 0 <= y).
  { unfold y. apply Qle_shift_div_l; [exact PM|]. rewrite Qmult_0_l. change 0 with (inject_Z 0). rewrite <- Zle_Qle. lia. }
  pose proof (Qpow_mono _ _ m Hy0 Hy) as HP1.
  assert (PR : 0 <= inject_Z R) by (change 0 with (inject_Z 0); now rewrite <- Zle_Qle).
  apply Qle_trans with (y ^ Z.of_nat m * inject_Z R); [|nra].
  rewrite Zle_Qle, !inject_Z_mult, !inject_pow in HT.
  assert (EY : inject_Z (Z.of_nat (c + d)) == y * inject_Z M) by (unfold y; field; lra).
  rewrite EY, Qmult_power in HT.
  assert (PMm : 0 < inject_Z M ^ Z.of_nat m) by (apply Qpower_0_lt; exact PM).
  apply Qmult_lt_0_le_reg_r with (z := inject_Z M ^ Z.of_nat m); [exact PMm|]. lra.
Qed.

Theorem SumVec_script len max chunk ctx (ms : list (list F)) prover S :
  (1 <= len)%nat -> (1 <= chunk)%nat -> (0 < max)%Z -> (2 ^ Z.of_nat (bit_length max) < M)%Z ->
  fits P (ParallelSum Mul chunk) (SumVec_calls len (bit_length max) chunk) ->
  let v := SumVec P len max chunk in
  plottable v -> Forall (fun c => exists k, c + 1 = 2 ^ k)%nat (GADGET_CALLS v) ->
  vecs n (vMEAS_LEN v) ms -> ~ Forall is_bit (vsum (vMEAS_LEN v) ms) ->
  successes v X ID vks n m ctx ms prover S ->
  inject_Z (Z.of_nat (length S)) <= robustness (sum_vec_soundness v chunk) 0 1 m * inject_Z (all_rand v m).
Proof.
  intros H1 H2 H3 H4 Hf v HV Hpow Hms Hbad HS. unfold sum_vec_soundness. rewrite (base_padded_pow v Hpow).
  destruct (bits_pos max) as (b & Hb & Hb2); [lia|].
  assert (HO : ValidOk (SumVec P len max chunk)).
  { apply (SumVec_ok HP len max chunk H1); [|exact H2 | exact Hf]. rewrite Hb, Nat2Z.inj_succ, Z.pow_succ_r in H4 by lia. lia. }
  apply (total_padded v HO ctx ms prover chunk S HV Hms); [| |exact HS].
  - intros Q NQ HQ. now apply (SumVec_reject HP len max chunk H1 H2 H3 (vsum _ ms) Q (vsum_length _ _)).
  - intros E. exfalso. change (SumVec_calls len (bit_length max) chunk = 0)%nat in E. unfold SumVec_calls in E.
    pose proof (calls_bounds (len * bit_length max) chunk ltac:(nia) H2). lia.
Qed.
End T.
