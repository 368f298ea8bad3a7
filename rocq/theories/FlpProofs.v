(** Completeness, linearity, soundness and guards of FlpBBCGGI19, in terms of
    lists of shares. *)
From Verif Require Import Base Common Field Poly FlpBBCGGI19 Circuits Spec CircuitSpec BaseFacts CommonFacts
  FieldFacts PolyAlg Roots PolyFacts GadgetFacts CircuitFacts InterpFacts VecFacts FlpFacts FlpSpec.
Open Scope nat_scope.

Lemma mapM_seq {A B} (f : A -> res B) (g : nat -> B) (l : list A) n d :
  length l = n -> (forall i, i < n -> f (nth i l d) = Ok (g i)) -> mapM f l = Ok (map g (seq 0 n)).
Proof.
  intros <-. revert g. induction l as [|a l IH]; intros g H; [easy|]. cbn [mapM length seq map].
  pose proof (H 0 ltac:(cbn; lia)) as H0. cbn in H0. rewrite H0. cbn [bind]. rewrite <- seq_shift, map_map.
  rewrite (IH (fun i => g (S i))); [easy|]. intros i Hi. apply (H (S i)). cbn. lia.
Qed.

Section Lists.
Context {P : FieldClass}.
Notation F := (F P).
Add Ring FringFP0 : (@F_ring P).

Lemma fsuml_map_fsum (l : list (list F)) j : fsuml (map (fun x => nth j x f0) l)
  = fsum (length l) (fun s => nth j (nth s l []) f0).
Proof.
  assert (H : forall n (f : nat -> F), fsum (S n) f = fadd (f 0) (fsum n (fun i => f (S i)))).
  { induction n; intros f; [cbn; ring|]. change (fsum (S (S n)) f) with (fadd (fsum (S n) f) (f (S n))).
    rewrite IHn. cbn [fsum]. ring. }
  induction l as [|x l IH]; [easy|]. cbn [map length]. rewrite H. cbn [nth fsuml fold_right].
  fold (fsuml (map (fun x => nth j x f0) l)). now rewrite IH.
Qed.

Lemma vecs_shares n len (l : list (list F)) : vecs n len l ->
  shares_of n len (fun s => nth s l []) (vsum len l).
Proof.
  intros [Hn Hf]. split; [apply vsum_length|]. split.
  - intros s Hs. rewrite Forall_forall in Hf. apply Hf, nth_In. lia.
  - intros j. destruct (Nat.lt_ge_cases j len) as [Hj|Hj].
    + rewrite nth_vsum by easy. rewrite fsuml_map_fsum. now rewrite Hn.
    + rewrite nth_overflow by (now rewrite vsum_length). rewrite <- Hn.
      assert (E : forall s, s < length l -> nth j (nth s l []) f0 = f0 :> F).
      { intros s Hs. apply nth_overflow. rewrite Forall_forall in Hf. rewrite (Hf (nth s l [])); [easy|]. now apply nth_In. }
      revert E. generalize (length l). intros m E. induction m; [easy|]. cbn [fsum].
      rewrite <- IHm by (intros; apply E; lia). rewrite E by lia. ring.
Qed.

Lemma shares_vecs n len (vs : nat -> list F) v : shares_of n len vs v ->
  vecs n len (map vs (seq 0 n)) /\ v = vsum len (map vs (seq 0 n)).
Proof.
  intros (Hl & Hs & Hv). split.
  - split; [now rewrite map_length, seq_length|]. apply Forall_map, Forall_forall. intros s Hin.
    apply in_seq in Hin. apply Hs. lia.
  - apply (vec_eq len); [easy | apply vsum_length |]. intros i Hi. rewrite nth_vsum, fsuml_map_fsum by easy.
    rewrite Hv, map_length, seq_length. clear - P.
    assert (E : forall s, s < n -> nth s (map vs (seq 0 n)) [] = vs s) by (intros; now rewrite nth_map_seq).
    revert E. generalize (map vs (seq 0 n)). intros l. induction n; intros E; [easy|]. cbn [fsum].
    rewrite IHn by (intros; apply E; lia). now rewrite E by lia.
Qed.

Lemma share_vecs (vec : list F) rands s : Forall (fun r => length r = length vec) rands ->
  additive_secret_share vec rands = Ok s -> vecs (S (length rands)) (length vec) s /\ vsum (length vec) s = vec.
Proof.
  intros Hf E. apply (share_iff vec rands s Hf) in E as (l & -> & Hl & Hs). split; [|easy]. split.
  - rewrite app_length. cbn. lia.
  - apply Forall_app. split; [easy|]. now constructor.
Qed.
End Lists.

Section FlpP.
Context {P : NttFieldClass} (HP : NttOk P) (v : Valid P) (HV : ValidOk v).
Notation F := (F P).
Notation G := (length (GADGETS v)).
Let Hp : prime (MODULUS P) := ntt_prime P HP.
Add Ring FringFP : (@F_ring P).

Lemma bad_points_iff (q : list F) : existsb (bad_point v q) (seq 0 G) = false <-> test_points_ok v q.
Proof.
  assert (Eq : forall i, i < G -> bad_point v q i = feqb (npow (test_point v q i) (wire_poly_len (nth i (GADGET_CALLS v) 0))) f1).
  { intros i Hi. unfold bad_point, tp, test_point. rewrite query_rand_len_eq.
    replace (roff v + G - G) with (roff v) by lia. reflexivity. }
  split.
  - intros H i Hi E. apply (f_equal negb) in H. cbn in H. apply negb_true_iff in H.
    assert (C : existsb (bad_point v q) (seq 0 G) = true); [|congruence].
    apply existsb_exists. exists i. split; [apply in_seq; lia|]. rewrite Eq by easy. now apply feqb_eq.
  - intros H. destruct (existsb _ _) eqn:E; [|easy]. exfalso. apply existsb_exists in E as (i & Hi & E).
    apply in_seq in Hi. rewrite Eq in E by lia. apply feqb_eq in E. apply (H i); [lia|easy].
Qed.

Theorem query_guard meas proof query_rand joint_rand n :
  length meas = vMEAS_LEN v -> length proof = proof_len v -> length query_rand = query_rand_len v ->
  length joint_rand = vJOINT_RAND_LEN v -> 1 <= n -> (Z.of_nat n < MODULUS P)%Z ->
  (test_points_ok v query_rand ->
     exists ver, bbcggi19_query v meas proof query_rand joint_rand n = Ok ver /\ length ver = verifier_len v) /\
  (~ test_points_ok v query_rand ->
     bbcggi19_query v meas proof query_rand joint_rand n = Raise (ValueError "test point is a root of unity")).
Proof.
  intros H1 H2 H3 H4 H5 H6.
  destruct (query_ok HP v HV meas proof query_rand joint_rand n H1 H2 H3 H4 H5 H6) as (out & log & _ & _ & _ & ->).
  split; intros Hg.
  - apply bad_points_iff in Hg. rewrite Hg. eexists; split; [reflexivity|]. now apply (verifier_of_length v).
  - destruct (existsb _ _) eqn:E; [easy|]. now apply bad_points_iff in E.
Qed.

Lemma prove_total meas prove_rand joint_rand :
  length meas = vMEAS_LEN v -> length prove_rand = prove_rand_len v -> length joint_rand = vJOINT_RAND_LEN v ->
  exists proof, bbcggi19_prove v meas prove_rand joint_rand = Ok proof /\ length proof = proof_len v.
Proof.
  intros H1 H2 H3. destruct (complete_single HP v HV _ _ _ H1 H2 H3) as (out & log & proof & _ & _ & E & Hl & _).
  now exists proof.
Qed.

Theorem query_linear_list n meas_shares proof_shares query_rand joint_rand :
  1 <= n -> (Z.of_nat n < MODULUS P)%Z ->
  vecs n (vMEAS_LEN v) meas_shares -> vecs n (proof_len v) proof_shares ->
  length query_rand = query_rand_len v -> length joint_rand = vJOINT_RAND_LEN v ->
  test_points_ok v query_rand ->
  exists verifier_shares, vecs n (verifier_len v) verifier_shares /\
    (forall i, i < n -> bbcggi19_query v (nth i meas_shares []) (nth i proof_shares []) query_rand joint_rand n
                        = Ok (nth i verifier_shares [])) /\
    bbcggi19_query v (vsum (vMEAS_LEN v) meas_shares) (vsum (proof_len v) proof_shares) query_rand joint_rand 1
    = Ok (vsum (verifier_len v) verifier_shares).
Proof.
  intros H1 H2 H3 H4 H5 H6 H7. apply bad_points_iff in H7.
  destruct (query_linear HP v HV n _ _ _ _ query_rand joint_rand H1 H2 (vecs_shares _ _ _ H3) (vecs_shares _ _ _ H4) H5 H6 H7)
    as (vers & ver & E & Es & Hs).
  destruct (shares_vecs _ _ _ _ Hs) as [Hv Ev]. exists (map vers (seq 0 n)). split; [easy|]. split.
  - intros i Hi. rewrite nth_map_seq by easy. now apply Es.
  - now rewrite E, <- Ev.
Qed.

Lemma query_linear_mapM n meas_shares proof_shares query_rand joint_rand :
  1 <= n -> (Z.of_nat n < MODULUS P)%Z ->
  vecs n (vMEAS_LEN v) meas_shares -> vecs n (proof_len v) proof_shares ->
  length query_rand = query_rand_len v -> length joint_rand = vJOINT_RAND_LEN v ->
  test_points_ok v query_rand ->
  exists verifier_shares, vecs n (verifier_len v) verifier_shares /\
    mapM (fun '(m, p) => bbcggi19_query v m p query_rand joint_rand n) (combine meas_shares proof_shares)
      = Ok verifier_shares /\
    bbcggi19_query v (vsum (vMEAS_LEN v) meas_shares) (vsum (proof_len v) proof_shares) query_rand joint_rand 1
    = Ok (vsum (verifier_len v) verifier_shares).
Proof.
  intros H1 H2 H3 H4 H5 H6 H7. destruct (query_linear_list n _ _ _ _ H1 H2 H3 H4 H5 H6 H7) as (vs & Hv & Es & E).
  exists vs. split; [easy|]. split; [|easy].
  destruct H3 as [Hm _], H4 as [Hq _].
  rewrite (mapM_seq _ (fun i => nth i vs []) _ n ([], [])).
  - f_equal. apply (nth_ext' []); [now rewrite map_length, seq_length; symmetry; apply Hv|].
    intros i Hi. rewrite map_length, seq_length in Hi. now rewrite nth_map_seq.
  - rewrite combine_length. lia.
  - intros i Hi. rewrite combine_nth by lia. now apply Es.
Qed.

Lemma allzero_red (out q : list F) : allzero out -> red v out q = f0.
Proof.
  intros Hz. assert (Hn : forall i, nth i out f0 = f0).
  { intros i. destruct (Nat.lt_ge_cases i (length out)); [|now apply nth_overflow]. unfold allzero in Hz.
    rewrite Forall_forall in Hz. now apply Hz, nth_In. }
  unfold red. destruct (1 <? EVAL_OUTPUT_LEN v); [|apply Hn].
  generalize (EVAL_OUTPUT_LEN v). induction n; [easy|]. cbn [fsum]. rewrite IHn, Hn. ring.
Qed.

Theorem complete_decide meas prove_rand joint_rand query_rand proof ver :
  length meas = vMEAS_LEN v -> length prove_rand = prove_rand_len v -> length joint_rand = vJOINT_RAND_LEN v ->
  length query_rand = query_rand_len v -> circuit_zero v meas joint_rand ->
  bbcggi19_prove v meas prove_rand joint_rand = Ok proof ->
  bbcggi19_query v meas proof query_rand joint_rand 1 = Ok ver -> bbcggi19_decide v ver = Ok true.
Proof.
  intros H1 H2 H3 H4 (out0 & E0 & Hz) Ep Eq.
  destruct (complete_single HP v HV _ _ _ H1 H2 H3) as (out & log & proof' & Eo & Ho & Ep' & Hl & Hx & Hg & Ht).
  rewrite Ep in Ep'. injection Ep' as <-. rewrite Eo in E0. injection E0 as ->.
  destruct (query_ok HP v HV meas proof query_rand joint_rand 1 H1 Hl H4 H3 ltac:(lia) (one_lt_modulus HP))
    as (out2 & log2 & _ & Ht2 & _ & Eq2).
  rewrite Ht in Ht2. injection Ht2 as <- <-. rewrite Eq2 in Eq. destruct (existsb _ _); [discriminate|]. injection Eq as <-.
  rewrite (decide_ok v HV) by easy. rewrite good_gcheck by easy. rewrite allzero_red by easy.
  now rewrite feqb_refl.
Qed.

Lemma decide_total verifier : length verifier = verifier_len v -> exists b, bbcggi19_decide v verifier = Ok b.
Proof.
  intros Hl. unfold bbcggi19_decide. rewrite (proj2 (Nat.eqb_eq _ _) Hl). cbn [check bind].
  unfold verifier_len in Hl. rewrite front_ok by lia. cbn [bind].
  destruct (negb _); [now eexists|].
  assert (Hs : length (skipn 1 verifier) = sum_nat (map (fun g => ARITY g + 1) (GADGETS v))).
  { rewrite skipn_length. lia. }
  revert Hs. generalize (skipn 1 verifier). clear verifier Hl.
  assert (Hwf : forall g, In g (GADGETS v) -> exists L, gwf P L g).
  { intros g Hg. apply (In_nth _ _ Mul) in Hg as (i & Hi & <-). eexists. apply (g_wf v HV i Hi). }
  revert Hwf. induction (GADGETS v) as [|g gs IH]; intros Hwf ver Hl.
  - cbn [map sum_nat fold_right] in Hl. cbn [decide_gadgets]. rewrite (proj2 (Nat.eqb_eq _ _) Hl). now eexists.
  - cbn [map sum_nat fold_right] in Hl. fold (sum_nat (map (fun g => ARITY g + 1) gs)) in Hl.
    cbn [decide_gadgets]. rewrite front_ok by lia. cbn [bind].
    rewrite front_ok by (rewrite skipn_length; lia). cbn [bind].
    destruct (Hwf g ltac:(now left)) as [L HL].
    rewrite (gadget_eval_gval L) by (try easy; rewrite firstn_length; lia). cbn [bind].
    destruct (negb _); [now eexists|]. apply IH.
    + intros g' Hg'. apply Hwf. now right.
    + rewrite !skipn_length. lia.
Qed.

Theorem run_flp_complete meas joint_rand prove_rand query_rand meas_rands proof_rands :
  length meas = vMEAS_LEN v -> length prove_rand = prove_rand_len v -> length joint_rand = vJOINT_RAND_LEN v ->
  length query_rand = query_rand_len v -> circuit_zero v meas joint_rand ->
  length meas_rands = length proof_rands ->
  Forall (fun r => length r = vMEAS_LEN v) meas_rands -> Forall (fun r => length r = proof_len v) proof_rands ->
  (Z.of_nat (S (length meas_rands)) < MODULUS P)%Z -> 
  (test_points_ok v query_rand ->
   run_flp (FlpBBCGGI19 v) meas joint_rand prove_rand query_rand (S (length meas_rands)) meas_rands proof_rands = Ok true) /\
  (~ test_points_ok v query_rand ->
   run_flp (FlpBBCGGI19 v) meas joint_rand prove_rand query_rand (S (length meas_rands)) meas_rands proof_rands
   = Raise (ValueError "test point is a root of unity")).
Proof.
  intros H1 H2 H3 H4 Hc Hr Hfm Hfp Hn. unfold run_flp. cbn [flp_prove flp_query flp_decide FlpBBCGGI19].
  destruct (prove_total meas prove_rand joint_rand H1 H2 H3) as (proof & Ep & Hpl). rewrite Ep. cbn [bind].
  rewrite <- H1 in Hfm. rewrite <- Hpl in Hfp.
  pose proof (share_ok meas meas_rands Hfm) as Esm. pose proof (share_ok proof proof_rands Hfp) as Esp.
  destruct (share_vecs _ _ _ Hfm Esm) as [Vm Sm]. destruct (share_vecs _ _ _ Hfp Esp) as [Vp Sp].
  rewrite Esm, Esp. cbn [bind]. set (ms := meas_rands ++ _) in *. set (ps := proof_rands ++ _) in *.
  rewrite H1 in *. rewrite Hpl in *. rewrite <- Hr in Vp. split; intros Hg.
  - destruct (query_linear_mapM (S (length meas_rands)) ms ps query_rand joint_rand ltac:(lia) Hn Vm Vp H4 H3 Hg)
      as (vs & [Hvl Hvf] & -> & Eq). cbn [bind].
    destruct vs as [|v0 vs]; [discriminate|]. cbn [get]. 
    pose proof Hvf as Hvf'. inversion_clear Hvf' as [|? ? Hv0 _].
    unfold get. cbn [nth_error bind]. rewrite Hv0.
    rewrite fold_vec_add_0 by easy. cbn [bind].
    rewrite Sm, Sp in Eq. now apply (complete_decide meas prove_rand joint_rand query_rand proof).
  - destruct ms as [|m0 ms]; [now destruct Vm|]. destruct ps as [|p0 ps]; [now destruct Vp|].
    cbn [combine mapM]. destruct Vm as [_ Vm], Vp as [_ Vp]. inversion_clear Vm. inversion_clear Vp.
    destruct (query_guard m0 p0 query_rand joint_rand (S (length meas_rands))) as [_ Hb]; try easy; try lia.
    now rewrite Hb.
Qed.

(** Soundness with shares: the same bound holds when the verifier is the sum of
    the verifier shares of any sharing of the measurement and the proof. *)
Theorem sound_shares n meas_shares proof_shares joint_rand out d (Q : list (list F)) :
  1 <= n -> (Z.of_nat n < MODULUS P)%Z ->
  vecs n (vMEAS_LEN v) meas_shares -> vecs n (proof_len v) proof_shares -> length joint_rand = vJOINT_RAND_LEN v ->
  valid_eval_plain v (vsum (vMEAS_LEN v) meas_shares) joint_rand 1 = Ok out -> Exists (fun x => x <> f0) out ->
  1 <= d -> (forall i, i < G -> DEGREE (nth i (GADGETS v) Mul) * (wire_poly_len (nth i (GADGET_CALLS v) 0) - 1) <= d) ->
  NoDup Q ->
  (forall q, In q Q -> length q = query_rand_len v /\ exists vs,
     mapM (fun '(m, p) => bbcggi19_query v m p q joint_rand n) (combine meas_shares proof_shares) = Ok vs /\
     bbcggi19_decide v (vsum (verifier_len v) vs) = Ok true) ->
  (Z.of_nat (length Q) <= Z.of_nat d * MODULUS P ^ (Z.of_nat (query_rand_len v) - 1))%Z.
Proof.
  intros H1 H2 H3 H4 H5 H6 H7 H8 H9 HQ Hacc.
  apply (sound HP v HV (vsum (vMEAS_LEN v) meas_shares) (vsum (proof_len v) proof_shares) joint_rand out d Q);
    try easy; try apply vsum_length.
  intros q Hq. destruct (Hacc q Hq) as (Hl & vs & Em & Ed). split; [easy|].
  destruct (existsb (bad_point v q) (seq 0 G)) eqn:Eb.
  - exfalso. destruct meas_shares as [|m0 ms]; [destruct H3; cbn in *; lia|].
    destruct proof_shares as [|p0 ps]; [destruct H4; cbn in *; lia|].
    cbn [combine mapM] in Em. destruct H3 as [_ H3], H4 as [_ H4]. inversion_clear H3. inversion_clear H4.
    destruct (query_ok HP v HV m0 p0 q joint_rand n) as (? & ? & _ & _ & _ & E); try easy. rewrite Eb in E.
    now rewrite E in Em.
  - apply bad_points_iff in Eb.
    destruct (query_linear_mapM n meas_shares proof_shares q joint_rand H1 H2 H3 H4 Hl H5 Eb) as (vs' & _ & Em' & Eq).
    rewrite Em in Em'. injection Em' as <-. now exists (vsum (verifier_len v) vs).
Qed.

Theorem flp_ok : truncate_linear v -> FlpOk (FlpBBCGGI19 v) (test_points_ok v) (circuit_zero v).
Proof.
  intros Ht. split; cbn [flp_prove flp_query flp_decide flp_truncate FlpBBCGGI19 MEAS_LEN PROOF_LEN PROVE_RAND_LEN
    QUERY_RAND_LEN JOINT_RAND_LEN VERIFIER_LEN OUTPUT_LEN].
  - apply prove_total.
  - intros q _. destruct (existsb (bad_point v q) (seq 0 G)) eqn:E.
    + right. intros C. apply bad_points_iff in C. congruence.
    + left. now apply bad_points_iff.
  - apply query_linear_list.
  - intros n meas proof q jr H1 H2 H3 H4 H5 H6 H7. eexists. now apply query_guard.
  - apply decide_total.
  - intros meas pr jr q proof ver H1 H2 H3 H4 H5 H6 H7. now apply (complete_decide meas pr jr q proof).
  - intros n ms Hms. destruct (Ht n _ _ (vecs_shares _ _ _ Hms)) as (outs & out & Es & E & Hs).
    destruct (shares_vecs _ _ _ _ Hs) as [Hv Ev]. exists (map outs (seq 0 n)). split; [easy|]. split.
    + apply (mapM_seq _ _ _ _ []); [apply Hms | exact Es].
    + now rewrite E, <- Ev.
Qed.
End FlpP.
