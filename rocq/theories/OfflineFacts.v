(** Proofs for C99: when the circuit is lucky. *)
From Verif Require Import OfflineSpec OfflineRun ForgeSpec SoundSpec SoundTotal FlpTestsFacts FlpProofs FlpFacts CircuitProofs CircuitInstances
  MeasFacts RangeInt FieldFacts BaseFacts.
Open Scope nat_scope.

Section Lucky.
Context {P : NttFieldClass} (HP : NttOk P) (v : Valid P) (HV : ValidOk v).
Notation F := (F P).
Add Ring FringLucky : (@F_ring P).

Lemma output_zero vec jr : circuit_zero v vec jr -> allzero (output v vec jr).
Proof. intros (out & E & Z). unfold output. now rewrite E. Qed.

Lemma lucky_passes proofs vec jr qr : lucky v proofs vec jr -> passes v proofs vec jr qr = true.
Proof.
  intros H. unfold passes. apply forallb_forall. intros k I. apply in_seq in I. apply feqb_eq, reduced_zero, output_zero, H. lia.
Qed.

Lemma passes_lucky proofs vec jr qr : EVAL_OUTPUT_LEN v = 1 -> length vec = vMEAS_LEN v -> length jr = vJOINT_RAND_LEN v * proofs ->
  passes v proofs vec jr qr = true <-> lucky v proofs vec jr.
Proof.
  intros E1 Lv Lj. split; [|apply lucky_passes]. intros H k Hk. unfold passes in H. rewrite forallb_forall in H.
  specialize (H k ltac:(apply in_seq; lia)). apply feqb_eq in H.
  destruct (complete_single HP v HV vec (repeat f0 (prove_rand_len v)) (piece (vJOINT_RAND_LEN v) k jr) Lv (repeat_length _ _))
    as (out & log & proof & Eo & Ho & _); [now apply piece_length with proofs|].
  unfold reduced, output in H. rewrite E1, Eo in H. change (1 <? 1) with false in H. cbv iota in H.
  exists out. split; [exact Eo|]. rewrite E1 in Ho. destruct out as [|x [|]]; try discriminate Ho. cbn in H. subst x. now constructor.
Qed.

(** Few joint randomness vectors are lucky. *)
Lemma lucky_rare proofs vec A Q : joint_bound v vec A -> NoDup Q ->
  (forall jr, In jr Q -> length jr = vJOINT_RAND_LEN v * proofs /\ lucky v proofs vec jr) ->
  (Z.of_nat (length Q) <= A ^ Z.of_nat proofs)%Z.
Proof.
  intros HB NQ HQ.
  assert (HA : (0 <= A)%Z) by (exact (HB [] (NoDup_nil _) ltac:(easy))).
  assert (L : length Q <= prodn (fun _ => Z.to_nat A) proofs).
  { apply (prod_boundv feq_dec (vJOINT_RAND_LEN v)).
    - exact NQ.
    - apply Forall_forall. intros x I. now apply HQ.
    - intros k Qk Hk Nk Hin. apply Nat2Z.inj_le. rewrite Z2Nat.id by exact HA. apply HB; [exact Nk|].
      intros y Iy. destruct (Hin y Iy) as (x & Ix & ->). destruct (HQ x Ix) as [Lx HL]. split; [now apply piece_length with proofs|].
      exact (HL k Hk). }
  assert (E : prodn (fun _ => Z.to_nat A) proofs = Z.to_nat A ^ proofs).
  { clear. unfold prodn. cut (forall a, fold_right Nat.mul 1 (map (fun _ : nat => Z.to_nat A) (seq a proofs)) = Z.to_nat A ^ proofs); [easy|]. induction proofs as [|n IH]; intros a; [reflexivity|]. cbn [seq map fold_right Nat.pow]. now rewrite IH. }
  rewrite E in L. apply Nat2Z.inj_le in L. rewrite Nat2Z.inj_pow, Z2Nat.id in L by exact HA. exact L.
Qed.
End Lucky.

Section SumVec.
Context {P : NttFieldClass} (HP : NttOk P) (len chunk : nat) (max : Z) (Hlen : 1 <= len) (Hchunk : 1 <= chunk) (Hmax : (0 < max)%Z).
Notation F := (F P).
Notation bits := (bit_length max).
Notation V := (SumVec P len max chunk).
Add Ring FringSV : (@F_ring P).

Lemma SumVec_zero_iff vec jr : length vec = len * bits -> length jr = vJOINT_RAND_LEN V ->
  circuit_zero V vec jr <-> range_spec vec jr f1 chunk (vJOINT_RAND_LEN V) = f0.
Proof.
  intros Lv Lj. split.
  - intros (out & E & Z). rewrite (SumVec_eval HP) in E by easy. injection E as <-. now apply (proj1 (allzero1 _)) in Z.
  - intros E. exists [range_spec vec jr f1 chunk (vJOINT_RAND_LEN V)]. split; [now apply (SumVec_eval HP)|]. now apply allzero1.
Qed.
Lemma npow_0S n : npow (f0 : F) (S n) = f0.
Proof. rewrite npow_S. ring. Qed.

Lemma SumVec_zero_lucky vec : length vec = len * bits -> circuit_zero V vec (repeat f0 (vJOINT_RAND_LEN V)).
Proof.
  intros Lv. apply SumVec_zero_iff; [exact Lv | apply repeat_length |]. unfold range_spec.
  apply fsum_zero. intros i Hi. apply fsum_zero. intros j Hj. rewrite nth_repeat, npow_0S. ring.
Qed.

(** Exactly one element is not a bit. *)
Lemma SumVec_one_bad vec jr k : length vec = len * bits -> length jr = vJOINT_RAND_LEN V -> k < len * bits ->
  (forall i, i < len * bits -> i <> k -> is_bit (nth i vec f0)) -> ~ is_bit (nth k vec f0) ->
  circuit_zero V vec jr <-> nth (k / chunk) jr f0 = f0.
Proof.
  intros Lv Lj Hk Hb Hn. rewrite SumVec_zero_iff by assumption. set (c := vJOINT_RAND_LEN V) in *.
  assert (Hbits : 1 <= bits) by (destruct (bits_pos max Hmax) as (b & -> & _); lia).
  assert (Hc : len * bits <= c * chunk) by (apply (calls_bounds (len * bits) chunk); [nia | exact Hchunk]).
  set (i := k / chunk). set (j := k mod chunk).
  assert (Ek : k = i * chunk + j) by (unfold i, j; rewrite Nat.mul_comm; apply Nat.div_mod; lia).
  assert (Hj : j < chunk) by (apply Nat.mod_upper_bound; lia).
  assert (Hi : i < c) by (apply Nat.div_lt_upper_bound; lia).
  assert (HT : forall a b, a < c -> b < chunk -> a * chunk + b <> k -> rterm vec f1 (a * chunk + b) = f0).
  { intros a b Ha Hb' Hne. unfold rterm. destruct (Nat.lt_ge_cases (a * chunk + b) (len * bits)) as [L|G].
    - destruct (Hb _ L Hne) as [-> | ->]; ring.
    - rewrite nth_overflow by (rewrite Lv; exact G). ring. }
  assert (E : range_spec vec jr f1 chunk c = fmul (npow (nth i jr f0) (S j)) (rterm vec f1 k)).
  { unfold range_spec. rewrite (fsum_single c i); [|exact Hi|].
    - rewrite (fsum_single chunk j); [now rewrite <- Ek | exact Hj |].
      intros b Hb' Hne. rewrite HT; [ring | exact Hi | exact Hb' | lia].
    - intros a Ha Hne. apply fsum_zero. intros b Hb'. rewrite HT; [ring | exact Ha | exact Hb' |].
      intros C. apply Hne. rewrite Ek in C. nia. }
  rewrite E. split.
  - intros Z. apply (fmul_0 (ntt_prime P HP)) in Z. destruct Z as [Z|Z].
    + revert Z. clear -HP. generalize (nth i jr f0 : F). intros x. induction (S j) as [|n IH]; intros Z.
      * exfalso. apply (f1_neq_f0 (ntt_prime P HP)). exact Z.
      * rewrite npow_S in Z. apply (fmul_0 (ntt_prime P HP)) in Z. destruct Z as [Z|Z]; [exact Z | now apply IH].
    + exfalso. apply Hn. unfold rterm in Z. apply (fmul_0 (ntt_prime P HP)) in Z. destruct Z as [Z|Z]; [now left|].
      right. transitivity (fadd (fsub (nth k vec f0) f1) f1); [ring|]. rewrite Z. ring.
  - intros ->. rewrite npow_0S. ring.
Qed.
End SumVec.
