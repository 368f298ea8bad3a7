(** Proofs for C93: forged proofs. *)
From Verif Require Import FlpProofs FlpFacts CircuitFacts InterpFacts PolyAlg PolyFacts Roots NttFacts GadgetFacts FieldFacts BaseFacts.
From Verif Require Import Prio3ViewFacts Prio3ViewSpec VecFacts.
From Verif Require Import ForgeSpec CircuitSpec FlpSpec FlpBBCGGI19 Circuits Field Spec.
Open Scope nat_scope.

Section Forge.
Context {P : NttFieldClass} (HP : NttOk P).
Notation F := (F P).
Notation root := (nth_root P).
Let Hp : prime (MODULUS P) := ntt_prime P HP.
Add Ring FringFG : (@F_ring P).

(** A polynomial with prescribed values at all roots of unity but 1, and at one
    further point. *)
Lemma through L (y : nat -> F) (t tau : F) : L <= gen_log P -> npow t (2 ^ L) <> f1 ->
  exists c, length c <= 2 ^ L /\ (forall k, 1 <= k < 2 ^ L -> peval c (npow (root L) k) = y k) /\ peval c t = tau.
Proof.
  intros HL Ht. pose proof (pow2_pos L) as HP2.
  assert (EX : forall f : nat -> F, exists c, length c <= 2 ^ L /\ forall k, k < 2 ^ L -> peval c (npow (root L) k) = f k).
  { intros f. exists (ipoly L (map f (seq 0 (2 ^ L)))).
    destruct (ipoly_spec HP L (map f (seq 0 (2 ^ L))) HL) as [H1 H2]; [now rewrite map_length, seq_length|].
    rewrite map_length, seq_length in H1, H2. split; [exact H1|]. intros k Hk. rewrite H2 by exact Hk. now apply nth_map_seq. }
  destruct (EX (fun k => if k =? 0 then f0 else y k)) as (a & La & Ha).
  destruct (EX (fun k => if k =? 0 then f1 else f0)) as (b & Lb & Hb).
  assert (Bt : peval b t <> f0).
  { intros C. assert (Z : allzero b).
    { apply (poly_roots_zero Hp (t :: map (fun k => npow (root L) k) (seq 1 (2 ^ L - 1)))).
      - assert (ND := NoDup_roots HP L HL). unfold roots in ND. replace (2 ^ L) with (S (2 ^ L - 1)) in ND by lia.
        cbn [seq map] in ND. apply NoDup_cons_iff in ND. constructor; [|exact (proj2 ND)].
        intros I. apply in_map_iff in I. destruct I as (k & <- & _). apply Ht.
        rewrite npow_comm, (root_pow HP) by exact HL. apply npow_1_l.
      - cbn [length]. rewrite map_length, seq_length. lia.
      - intros x [<-|I]; [exact C|]. apply in_map_iff in I. destruct I as (k & <- & I). apply in_seq in I.
        rewrite Hb by lia. now destruct k; [lia|]. }
    pose proof (Hb 0 ltac:(lia)) as E. cbn [Nat.eqb] in E. rewrite (peval_allzero b _ Z) in E. now apply (f1_neq_f0 Hp). }
  exists (padd a (map (fmul (fmul (fsub tau (peval a t)) (finv (peval b t)))) b)).
  split; [rewrite padd_length, map_length; lia|]. split.
  - intros k Hk. rewrite peval_padd, peval_map_scale, Ha, Hb by lia. destruct k; [lia|]. cbn [Nat.eqb]. ring.
  - rewrite peval_padd, peval_map_scale.
    assert (E : fmul (finv (peval b t)) (peval b t) = f1) by now apply (finv_l Hp).
    replace (fmul (fmul (fsub tau (peval a t)) (finv (peval b t))) (peval b t))
      with (fmul (fsub tau (peval a t)) (fmul (finv (peval b t)) (peval b t))) by ring.
    rewrite E. ring.
Qed.

Lemma answered_trun {A} calls g (y : nat -> F) (m : prog P A) l post a log' :
  pok [g] calls (map (@length _) [l]) post m ->
  trun (fun _ k _ => y k) m [l] = Some (a, log') -> answered y (S (length l)) m = Some a.
Proof.
  revert l. induction m as [b|e|i inp k IH]; intros l Hk E.
  - cbn in *. congruence.
  - discriminate.
  - destruct Hk as (Hi & Ha & Hb & Hk). cbn in Hi. assert (i = 0) by lia. subst i. cbn [trun nth upd] in E. cbn [answered].
    specialize (IH (y (S (length l))) (l ++ [inp])). rewrite app_length in IH. cbn [length] in IH.
    rewrite Nat.add_1_r in IH. apply IH; [|exact E].
    cbn [map nth upd] in Hk |- *. rewrite app_length. cbn [length]. rewrite Nat.add_1_r. apply Hk.
Qed.

Context (v : Valid P) (HV : ValidOk v) (g : gadget) (HG : GADGETS v = [g]).

Theorem forge meas joint_rand query_rand :
  length meas = vMEAS_LEN v -> length joint_rand = vJOINT_RAND_LEN v -> length query_rand = query_rand_len v ->
  test_points_ok v query_rand -> answerable v meas joint_rand ->
  exists proof ver, length proof = proof_len v /\
    bbcggi19_query v meas proof query_rand joint_rand 1 = Ok ver /\ bbcggi19_decide v ver = Ok true.
Proof.
  intros Hm Hj Hq Ht (y & out & Ey & Ez).
  assert (G1 : length (GADGETS v) = 1) by now rewrite HG. assert (I0 : 0 < length (GADGETS v)) by lia.
  pose proof (one_lt_modulus HP) as HM1.
  pose proof (pok_start v HV meas joint_rand 1 Hm Hj ltac:(lia) HM1) as Hpok. rewrite G1 in Hpok. cbn [repeat] in Hpok.
  destruct (trun_total (GADGETS v) (GADGET_CALLS v) (fun _ k _ => y k) (valid_eval v meas joint_rand 1) [[]] _ ltac:(now rewrite G1) Hpok)
    as (out' & log & Etr & _ & Hext).
  assert (out' = out).
  { rewrite HG in Hpok. pose proof (answered_trun _ _ _ _ _ _ _ _ Hpok Etr) as E. cbn [length] in E. congruence. }
  subst out'.
  set (L := wlog (nth 0 (GADGET_CALLS v) 0)). set (gd := nth 0 (GADGETS v) Mul).
  set (M := glog gd L). set (n := glen gd L).
  set (seeds := repeat (f0 : F) (ARITY gd)).
  set (t := tp v query_rand 0).
  assert (Bt : npow t (2 ^ L) <> f1).
  { assert (B := proj2 (bad_points_iff v query_rand) Ht). rewrite G1 in B. cbn [seq existsb] in B. rewrite orb_false_r in B.
    unfold bad_point in B. apply feqb_neq in B. exact B. }
  assert (HL : L <= gen_log P) by (apply (g_L HP v HV); lia).
  assert (HM : M <= gen_log P) by (apply (g_M HP v HV); lia).
  destruct (through L y t (peval (gcomp gd (wpolys v 0 seeds (nth 0 log []))) t) HL Bt) as (q & Lq & Hqy & Hqt).
  pose proof (glog_bound gd L) as [Gb1 Gb2]. pose proof (pow2_pos L) as P2. pose proof (gwf_degree _ _ (g_wf v HV 0 I0)) as Hd.
  assert (Hln : n = DEGREE gd * (2 ^ L - 1) + 1) by reflexivity. fold gd L in Hd.
  assert (Hn : 2 ^ L <= n) by (rewrite Hln; nia).
  set (vals := firstn n (evals M q)).
  assert (Lv : length vals = n) by (unfold vals; rewrite firstn_length, evals_length; fold M n in Gb1; lia).
  set (proof := seeds ++ vals).
  assert (Lp : length proof = proof_len v).
  { rewrite proof_len_eq by exact HV. rewrite G1. cbn [nsum]. unfold proof, qf. rewrite app_length, Lv. unfold seeds. rewrite repeat_length. reflexivity. }
  assert (Qs : qseeds v proof 0 = seeds).
  { unfold qseeds, seeds_at. cbn [nsum skipn]. unfold proof. fold gd. apply firstn_app_exact. unfold seeds. now rewrite repeat_length. }
  assert (Gv : gvals v proof 0 = vals).
  { unfold gvals. cbn [nsum]. fold gd L n. unfold proof. rewrite Nat.add_0_l, skipn_app_exact by (unfold seeds; now rewrite repeat_length).
    rewrite <- Lv. apply firstn_all. }
  assert (Gp : forall x, peval (gpoly v proof 0) x = peval q x).
  { intros x. unfold gpoly. rewrite Gv. fold gd L M.
    apply (ipoly_unique HP M vals q HM); [fold M n in Gb1; lia|lia|].
    intros i Hi. unfold vals. rewrite nth_firstn'. destruct (Nat.ltb_spec i n); [|lia].
    symmetry. apply nth_evals. fold M n in Gb1. lia. }
  destruct (query_ok HP v HV meas proof query_rand joint_rand 1 Hm Lp Hq Hj ltac:(lia) HM1) as (out2 & log2 & Lo & Et2 & Hx2 & EQ).
  rewrite G1 in Et2. cbn [repeat] in Et2.
  pose proof (ext_log _ _ log 0 1 Hext I0) as [Lg _].
  assert (E2 : trun (query_oracle v proof) (valid_eval v meas joint_rand 1) [[]] = Some (out, log)).
  { apply (trun_ext (GADGETS v) (GADGET_CALLS v) (fun _ k _ => y k) _ _ [[]] _ out log ltac:(now rewrite G1) Hpok Etr).
    intros i k Hi Hk. assert (i = 0) by lia. subst i. unfold query_oracle. rewrite Gp. fold L. apply Hqy.
    pose proof (g_room v 0) as R. fold L in R. cbn [nth length] in Hk. lia. }
  rewrite E2 in Et2. injection Et2 as <- <-.
  exists proof, (verifier_of v proof query_rand out log). split; [exact Lp|].
  rewrite (proj2 (bad_points_iff v query_rand) Ht) in EQ. split; [exact EQ|].
  rewrite (decide_ok v HV) by exact Lp. rewrite allzero_red by assumption. rewrite feqb_refl. rewrite G1. cbn [seq forallb].
  unfold gcheck. rewrite Qs, Gp. fold gd t. rewrite Hqt. now rewrite feqb_refl.
Qed.

(** The Leader completes the proof whatever the shares of the Helpers. *)
Theorem forge_shares n meas_shares helper_proofs joint_rand query_rand :
  1 <= n -> (Z.of_nat n < MODULUS P)%Z ->
  vecs n (vMEAS_LEN v) meas_shares -> vecs (n - 1) (proof_len v) helper_proofs ->
  length query_rand = query_rand_len v -> length joint_rand = vJOINT_RAND_LEN v ->
  test_points_ok v query_rand -> answerable v (vsum (vMEAS_LEN v) meas_shares) joint_rand ->
  exists leader_proof vs, length leader_proof = proof_len v /\
    mapM (fun '(m, p) => bbcggi19_query v m p query_rand joint_rand n) (combine meas_shares (leader_proof :: helper_proofs)) = Ok vs /\
    bbcggi19_decide v (vsum (verifier_len v) vs) = Ok true.
Proof.
  intros Hn HnM Vm Vh Hq Hj Ht Ha.
  destruct (forge (vsum (vMEAS_LEN v) meas_shares) joint_rand query_rand) as (pr & ver & Lp & E1 & E2); try assumption.
  { apply vsum_length. }
  set (p0 := zip_with fsub pr (vsum (proof_len v) helper_proofs)).
  assert (L0 : length p0 = proof_len v) by (unfold p0; rewrite zip_with_length, vsum_length; lia).
  assert (Vp : vecs n (proof_len v) (p0 :: helper_proofs)).
  { destruct Vh as [V1 V2]. split; [cbn [length]; lia|]. constructor; assumption. }
  assert (Sp : vsum (proof_len v) (p0 :: helper_proofs) = pr).
  { exact (leader_sum (proof_len v) pr helper_proofs Lp). }
  destruct (query_linear_mapM HP v HV n meas_shares (p0 :: helper_proofs) query_rand joint_rand Hn HnM Vm Vp Hq Hj Ht) as (vs & Vv & E3 & E4).
  exists p0, vs. split; [exact L0|]. split; [exact E3|]. rewrite Sp in E4. congruence.
Qed.
End Forge.
