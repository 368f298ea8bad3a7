(** Proofs for C100: the check of the test points. *)
From Verif Require Import GuardSpec Circuits MeasSpec FlpFacts FlpProofs CircuitFacts CircuitProofs InterpFacts GadgetFacts CircuitInstances FlpInstances ReuseFacts FieldFacts PolyAlg Roots PolyFacts LagrangeFacts VecFacts BaseFacts CommonFacts.
Open Scope nat_scope.

Section G.
Context {P : NttFieldClass} (HP : NttOk P) (v : Valid P) (HV : ValidOk v).
Notation F := (F P).
Notation G := (length (GADGETS v)).
Notation gd i := (nth i (GADGETS v) Mul).
Notation cl i := (nth i (GADGET_CALLS v) 0).
Notation Lw i := (wlog (cl i)).
Notation Mg i := (glog (gd i) (Lw i)).
Notation EO := (EVAL_OUTPUT_LEN v).

Lemma unguarded_gadget_ok ver proof query_rand log i : i < G -> length proof = proof_len v ->
  length (nth i log []) <= cl i ->
  query_gadget_unguarded ver (mkQG (ARITY (gd i)) (fill (2 ^ Lw i) ((FlpFacts.qseeds v) proof i) (nth i log []))
       (length (nth i log [])) (evals (Mg i) ((FlpFacts.gpoly v) proof i)) (2 ^ (Mg i - Lw i))) ((FlpFacts.tp v) query_rand i) =
  Ok (ver ++ (FlpFacts.vblock v) proof query_rand log i).
Proof.
  intros Hi Hpl Hll. unfold query_gadget_unguarded. cbn [qg_arity qg_wires qg_k qg_poly qg_step].
  pose proof (FlpFacts.g_arity v HV i Hi) as Har. pose proof (FlpFacts.qseeds_length v HV proof i Hi Hpl) as Hs.
  pose proof (FlpFacts.g_room v i) as Hroom.
  rewrite firstn_all2 by (rewrite fill_length; lia). rewrite <- (FlpFacts.evals_wpolys HP v HV i) by easy.
  rewrite (lag_poly_eval_batched_spec HP).
  - cbn [bind]. rewrite (lag_poly_eval_spec HP).
    + cbn [bind]. reflexivity.
    + now apply (FlpFacts.g_M HP v HV).
    + pose proof (glog_bound (gd i) (Lw i)). pose proof (FlpFacts.gvals_length v HV proof i Hi Hpl) as Hg.
      unfold FlpFacts.gpoly. eapply Nat.le_trans; [apply (ipoly_spec HP); [now apply (FlpFacts.g_M HP v HV) | lia] | lia].
  - now apply (FlpFacts.g_L HP v HV).
  - intros C. apply (f_equal (@length _)) in C. rewrite wpolys_length in C. cbn in C. lia.
  - intros c Hc. apply (FlpFacts.wpolys_lengths HP v HV i) in Hc; try easy. lia.
Qed.

Theorem unguarded_ok meas proof query_rand joint_rand n :
  length meas = vMEAS_LEN v -> length proof = proof_len v -> length query_rand = query_rand_len v ->
  length joint_rand = vJOINT_RAND_LEN v -> 1 <= n -> (Z.of_nat n < MODULUS P)%Z ->
  exists out log, length out = EO /\
    trun ((FlpFacts.query_oracle v) proof) (valid_eval v meas joint_rand n) (repeat [] G) = Some (out, log) /\
    extends (GADGETS v) (GADGET_CALLS v) (repeat [] G) log /\
    query_unguarded v meas proof query_rand joint_rand n = Ok ((FlpFacts.verifier_of v) proof query_rand out log).
Proof.
  intros Hm Hpl Hq Hj Hn Hn'.
  pose proof (vo_calls v HV meas joint_rand n Hm Hj Hn Hn') as Hpok.
  assert (El : map (@length (list F)) (repeat [] G) = repeat 0 G).
  { clear. generalize G. intros m. induction m; cbn; congruence. }
  rewrite <- El in Hpok.
  destruct (@run_sim P (list F) _ (GADGETS v) (GADGET_CALLS v) query_handler ((FlpFacts.qstate v) proof) ((FlpFacts.query_oracle v) proof)) with
    (m := valid_eval v meas joint_rand n) (log := repeat (@nil (list F)) G)
    (post := fun out : list F => length out = EO) as (out & log & R1 & R2 & Ho & He).
  - intros log0 i inp Hl Hi Ha Hb. now apply (FlpFacts.query_handler_ok HP v HV).
  - now rewrite repeat_length.
  - exact Hpok.
  - exists out, log. split; [easy|]. split; [easy|]. split; [easy|].
    unfold query_unguarded. rewrite Hm, Hpl, Hq, Hj, !Nat.eqb_refl. cbn [check bind].
    rewrite (FlpFacts.query_wrap_ok HP v HV) by easy. cbn [bind]. rewrite R1. cbn [bind].
    rewrite Ho, Nat.eqb_refl. cbn [check bind]. rewrite (FlpFacts.reduce_output_ok v HV) by easy. cbn [bind].
    assert (Hql : length ((FlpFacts.qstate v) proof log) = G) by (unfold FlpFacts.qstate; now rewrite map_length, seq_length).
    assert (Hsk : length (skipn (FlpFacts.roff v) query_rand) = G) by (rewrite skipn_length, Hq, query_rand_len_eq; lia).
    replace (combine ((FlpFacts.qstate v) proof log) (skipn (FlpFacts.roff v) query_rand)) with
      (map (fun i => (mkQG (ARITY (gd i)) (fill (2 ^ Lw i) ((FlpFacts.qseeds v) proof i) (nth i log []))
       (length (nth i log [])) (evals (Mg i) ((FlpFacts.gpoly v) proof i)) (2 ^ (Mg i - Lw i)), (FlpFacts.tp v) query_rand i)) (seq 0 G)).
    2: { apply (nth_ext' (@mkQG P 0 [] 0 [] 0, f0)).
         - rewrite combine_length, map_length, seq_length. lia.
         - rewrite map_length, seq_length. intros i Hi. rewrite combine_nth by lia.
           unfold FlpFacts.qstate. rewrite !nth_map_seq by easy. rewrite nth_skipn'. easy. }
    unfold FlpFacts.verifier_of.
    enough (Hgen : forall m, m <= G -> forall ver,
      foldM (fun verifier '(g, t) => query_gadget_unguarded verifier g t)
        (map (fun i => (mkQG (ARITY (gd i)) (fill (2 ^ Lw i) ((FlpFacts.qseeds v) proof i) (nth i log []))
          (length (nth i log [])) (evals (Mg i) ((FlpFacts.gpoly v) proof i)) (2 ^ (Mg i - Lw i)), (FlpFacts.tp v) query_rand i)) (seq 0 m)) ver
      = Ok (ver ++ concat (map ((FlpFacts.vblock v) proof query_rand log) (seq 0 m)))) by (now apply Hgen).
    induction m as [|m IH]; intros Hle ver.
    + cbn. now rewrite app_nil_r.
    + rewrite seq_S, map_app, foldM_app, IH by lia. cbn [bind map Nat.add].
      cbn [foldM]. rewrite unguarded_gadget_ok; try easy; [|apply (ext_log _ _ _ _ _ He); lia].
      cbn [bind].
      rewrite map_app, concat_app. cbn. now rewrite app_nil_r, app_assoc.
Qed.

Theorem unguarded_linear n meass meas proofs proof query_rand joint_rand :
  1 <= n -> (Z.of_nat n < MODULUS P)%Z ->
  shares_of n (vMEAS_LEN v) meass meas -> shares_of n (proof_len v) proofs proof ->
  length query_rand = query_rand_len v -> length joint_rand = vJOINT_RAND_LEN v ->
  exists vers ver, query_unguarded v meas proof query_rand joint_rand 1 = Ok ver /\
    (forall s, s < n -> query_unguarded v (meass s) (proofs s) query_rand joint_rand n = Ok (vers s)) /\
    shares_of n (verifier_len v) vers ver.
Proof.
  intros Hn Hn' Hm Hpf Hq Hj.
  destruct (unguarded_ok meas proof query_rand joint_rand 1 (proj1 Hm) (proj1 Hpf) Hq Hj (le_n 1) (one_lt_modulus HP))
    as (out & log & Ho & Et & Hext & Eq).
  pose proof (vo_lin v HV meass meas joint_rand n Hj Hn Hn' Hm) as Hlin.
  destruct (lin_trun n _ (fun i k => (FlpFacts.query_oracle v) proof i k []) (fun s i k => (FlpFacts.query_oracle v) (proofs s) i k [])
    ltac:(intros i k; apply (FlpFacts.gpoly_sum HP v HV); exact Hpf) _ _ (repeat [] G) (fun _ => repeat [] G) out log Hlin)
    as (al & logs & Es & Hrel & HR).
  - split.
    + intros s Hs. split; [easy|]. intros i. now rewrite nth_nils.
    + intros i k j. rewrite nth_nils. symmetry.
      rewrite fsum_zero; [now destruct k, j|]. intros s Hs. now destruct k, j.
  - exact Et.
  - exists (fun s => (FlpFacts.verifier_of v) (proofs s) query_rand (al s) (logs s)), ((FlpFacts.verifier_of v) proof query_rand out log).
    split; [exact Eq|]. split.
    + intros s Hs. destruct Hm as (_ & Hm & _). destruct Hpf as (_ & Hpf & _).
      destruct (unguarded_ok (meass s) (proofs s) query_rand joint_rand n (Hm s Hs) (Hpf s Hs) Hq Hj Hn Hn')
        as (out' & log' & _ & Et' & _ & Eq'). rewrite Eq'.
      specialize (Es s Hs). cbv beta in Es.
      change (fun (i k : nat) (_ : list F) => (FlpFacts.query_oracle v) (proofs s) i k []) with ((FlpFacts.query_oracle v) (proofs s)) in Es.
      rewrite Es in Et'. injection Et' as <- <-. reflexivity.
    + rewrite verifier_len_eq. unfold FlpFacts.verifier_of.
      apply (shares_app n 1 _ (fun s => [(FlpFacts.red v) (al s) query_rand])
        (fun s => concat (map ((FlpFacts.vblock v) (proofs s) query_rand (logs s)) (seq 0 G)))
        [(FlpFacts.red v) out query_rand] (concat (map ((FlpFacts.vblock v) proof query_rand log) (seq 0 G)))).
      * apply shares_one. now apply (FlpFacts.red_sum v).
      * apply (shares_concat n G _ (fun s => (FlpFacts.vblock v) (proofs s) query_rand (logs s))).
        intros i Hi. unfold FlpFacts.vblock. destruct (ext_log _ _ _ _ _ Hext Hi) as [Hll _].
        apply shares_app with (vs := fun s => map (fun c => peval c ((FlpFacts.tp v) query_rand i))
           ((FlpFacts.wpolys v) i ((FlpFacts.qseeds v) (proofs s) i) (nth i (logs s) []))) (ws := fun s => [peval ((FlpFacts.gpoly v) (proofs s) i) ((FlpFacts.tp v) query_rand i)]).
        -- split; [|split].
           ++ rewrite map_length, wpolys_length. apply (FlpFacts.qseeds_length v HV); [easy | apply Hpf].
           ++ intros s Hs. rewrite map_length, wpolys_length. apply (FlpFacts.qseeds_length v HV); [easy | now apply Hpf].
           ++ intros j. destruct (le_lt_dec (ARITY (gd i)) j) as [Hge|Hlt].
              ** rewrite nth_overflow by (rewrite map_length, wpolys_length, (FlpFacts.qseeds_length v HV); easy || apply Hpf).
                 symmetry. apply fsum_zero. intros s Hs. apply nth_overflow.
                 rewrite map_length, wpolys_length, (FlpFacts.qseeds_length v HV); try easy. now apply Hpf.
              ** unfold FlpFacts.wpolys. rewrite map_map.
                 rewrite (nth_map' _ _ _ []) by (rewrite fill_length, (FlpFacts.qseeds_length v HV); easy || apply Hpf).
                 rewrite (FlpFacts.wires_sum HP v HV n proofs proof logs log i j) by easy.
                 apply fsum_ext. intros s Hs. rewrite map_map.
                 rewrite (nth_map' _ _ _ []); [easy|]. rewrite fill_length, (FlpFacts.qseeds_length v HV); try easy. now apply Hpf.
        -- apply shares_one. apply (FlpFacts.gpoly_sum HP v HV). exact Hpf.
Qed.

Lemma tp_test_point (q : list F) i : FlpFacts.tp v q i = test_point v q i.
Proof. unfold tp, test_point. rewrite query_rand_len_eq. f_equal. lia. Qed.

Lemma at_root_bad (q : list F) i : i < G -> (exists k, at_root v q i k) <-> npow (test_point v q i) (wire_poly_len (cl i)) = f1.
Proof.
  intros Hi. rewrite wire_poly_len_pow. rewrite <- (in_roots HP (Lw i)) by now apply (FlpFacts.g_L HP v HV). unfold at_root, roots. split.
  - intros (k & L & EL & Hk & E). rewrite wire_poly_len_pow in EL. apply Nat.pow_inj_r in EL; [|lia]. subst L.
    rewrite E. apply in_map, in_seq. lia.
  - intros H. apply in_map_iff in H. destruct H as (k & E & Hk). apply in_seq in Hk. exists k, (Lw i).
    split; [symmetry; apply wire_poly_len_pow|]. split; [lia | now symmetry].
Qed.

Lemma not_ok_bad (q : list F) : ~ test_points_ok v q <-> exists i k, i < G /\ at_root v q i k.
Proof.
  split.
  - intros H. destruct (existsb (bad_point v q) (seq 0 G)) eqn:E.
    + apply existsb_exists in E. destruct E as (i & Hi & E). apply in_seq in Hi. unfold bad_point in E. apply feqb_eq in E.
      rewrite tp_test_point, <- wire_poly_len_pow in E. apply at_root_bad in E; [|lia]. destruct E as [k E]. exists i, k. split; [lia | easy].
    + exfalso. apply H. now apply bad_points_iff.
  - intros (i & k & Hi & H) C. apply (C i Hi). apply (at_root_bad q i Hi). now exists k.
Qed.

Lemma guard_only meas proof query_rand joint_rand n :
  length meas = vMEAS_LEN v -> length proof = proof_len v -> length query_rand = query_rand_len v ->
  length joint_rand = vJOINT_RAND_LEN v -> 1 <= n -> (Z.of_nat n < MODULUS P)%Z ->
  test_points_ok v query_rand ->
  bbcggi19_query v meas proof query_rand joint_rand n = query_unguarded v meas proof query_rand joint_rand n.
Proof.
  intros H1 H2 H3 H4 H5 H6 H7. apply bad_points_iff in H7.
  destruct (query_ok HP v HV meas proof query_rand joint_rand n H1 H2 H3 H4 H5 H6) as (out & log & _ & E & _ & Q).
  destruct (unguarded_ok meas proof query_rand joint_rand n H1 H2 H3 H4 H5 H6) as (out' & log' & _ & E' & _ & Q').
  rewrite Q, Q', H7. rewrite E in E'. now injection E' as <- <-.
Qed.

(** The entries of the sum of the unguarded verifier shares at a root. *)
Theorem unguarded_entries reads n ms ps query_rand joint_rand k : G = 1 ->
  (forall o meas jr out log, length meas = vMEAS_LEN v -> length jr = vJOINT_RAND_LEN v ->
     trun o (valid_eval v meas jr 1) [[]] = Some (out, log) -> log = [reads meas jr]) ->
  (forall meas jr, length (reads meas jr) = cl 0) ->
  1 <= n -> (Z.of_nat n < MODULUS P)%Z -> vecs n (vMEAS_LEN v) ms -> vecs n (proof_len v) ps ->
  length query_rand = query_rand_len v -> length joint_rand = vJOINT_RAND_LEN v ->
  at_root v query_rand 0 k ->
  exists total, exchange_unguarded v n ms ps query_rand joint_rand total /\ length total = verifier_len v /\
    forall j, j < ARITY (gd 0) -> nth (S j) total f0 =
      match k with
      | 0 => nth j (vsum (proof_len v) ps) f0
      | S k => nth j (nth k (reads (vsum (vMEAS_LEN v) ms) joint_rand) []) f0
      end.
Proof.
  intros HG Hr Hrl Hn Hn' Hm Hp Hq Hj (L & EL & Hk & Ht).
  destruct (unguarded_linear n _ _ _ _ query_rand joint_rand Hn Hn' (vecs_shares _ _ _ Hm) (vecs_shares _ _ _ Hp) Hq Hj)
    as (vers & ver & E & Es & Hs).
  destruct (shares_vecs _ _ _ _ Hs) as [Hv Ev]. exists ver. split; [|split].
  - exists (map vers (seq 0 n)). split; [apply Hv|]. split.
    + intros s Hl. rewrite nth_map_seq by easy. now apply Es.
    + now symmetry.
  - rewrite Ev. apply vsum_length.
  - intros j Hja. set (meas := vsum _ ms) in *. set (proof := vsum _ ps) in *.
    assert (Lm : length meas = vMEAS_LEN v) by apply vsum_length.
    assert (Lp : length proof = proof_len v) by apply vsum_length.
    destruct (unguarded_ok meas proof query_rand joint_rand 1 Lm Lp Hq Hj (le_n 1) (one_lt_modulus HP)) as (out & log & _ & Et & _ & Q).
    rewrite Q in E. assert (ver = verifier_of v proof query_rand out log) as -> by congruence. clear E Q Ev.
    assert (H0 : 0 < G) by (rewrite HG; lia).
    assert (Ls : length (qseeds v proof 0) = ARITY (gd 0)) by now apply (FlpFacts.qseeds_length v HV).
    unfold verifier_of. rewrite HG. cbn [nth seq map concat]. rewrite app_nil_r. rewrite HG in Et. cbn [repeat] in Et.
    apply (Hr _ _ _ _ _ Lm Hj) in Et. subst log. unfold vblock.
    rewrite app_nth1 by (rewrite map_length, wpolys_length; lia).
    rewrite (nth_map' _ _ _ []) by (rewrite wpolys_length; lia).
    rewrite tp_test_point, Ht. rewrite wire_poly_len_pow in EL. apply Nat.pow_inj_r in EL; [|lia]. subst L.
    change (nth 0 [reads meas joint_rand] []) with (reads meas joint_rand).
    assert (Ee : nth j (map (evals (Lw 0)) (wpolys v 0 (qseeds v proof 0) (reads meas joint_rand))) []
      = nth j (fill (2 ^ Lw 0) (qseeds v proof 0) (reads meas joint_rand)) []).
    { f_equal. apply (FlpFacts.evals_wpolys HP v HV); [exact H0 | rewrite Hrl; lia]. }
    rewrite (nth_map' _ _ _ []) in Ee by (rewrite wpolys_length; lia). apply (f_equal (fun l => nth k l f0)) in Ee.
    unfold evals in Ee. rewrite nth_map_seq in Ee by exact Hk. rewrite Ee. destruct k as [|k].
    + rewrite fill_0 by lia. unfold qseeds, seeds_at. cbn [nsum skipn].
      rewrite nth_firstn'. destruct (Nat.ltb_spec j (ARITY (gd 0))); [reflexivity | lia].
    + destruct (Nat.lt_ge_cases k (length (reads meas joint_rand))) as [Hlt|Hge].
      * rewrite fill_call by lia. reflexivity.
      * rewrite fill_pad by lia. rewrite (nth_overflow (reads meas joint_rand) []) by exact Hge. now destruct j.
Qed.
End G.

Section S.
Context {P : NttFieldClass} (HP : NttOk P).
Notation F := (F P).
Add Ring FringGU : (@F_ring P).

Definition readable (v : Valid P) (reads : list F -> list F -> list (list F)) : Prop :=
  forall i, i < vMEAS_LEN v -> exists j c, j < ARITY (nth 0 (GADGETS v) Mul) /\
    i / elements_per_call v < nth 0 (GADGET_CALLS v) 0 /\
    forall meas jr, length meas = vMEAS_LEN v -> nth i meas f0 = fadd (nth j (nth (i / elements_per_call v) (reads meas jr) []) f0) c.

Lemma loop_readable (v : Valid P) chunk calls : 0 < chunk ->
  GADGETS v = [ParallelSum Mul chunk] -> GADGET_CALLS v = [calls] -> vMEAS_LEN v <= calls * chunk ->
  readable v (loop_reads chunk calls).
Proof.
  intros Hc EG EC EM i Hi. unfold elements_per_call. rewrite EG, EC. cbn [nth ARITY].
  assert (D := Nat.div_mod i chunk ltac:(lia)). assert (Mo := Nat.mod_upper_bound i chunk ltac:(lia)).
  assert (Hk : i / chunk < calls) by (apply Nat.div_lt_upper_bound; nia).
  exists (2 * (i mod chunk) + 1), f1. split; [lia|]. split; [exact Hk|]. intros meas jr Lm. unfold loop_reads.
  rewrite (nth_map' _ _ _ 0) by (rewrite length_range; lia). rewrite nth_range by lia.
  rewrite !chunk_inputs_eq. rewrite (proj2 (nth_chunk_spec _ _ _ _ _ _ _ Mo)). cbn [Nat.add].
  replace (i / chunk * chunk + i mod chunk) with i by lia. ring.
Qed.

Lemma std_readable v : std_circuit P v -> length (GADGETS v) = 1 /\ exists reads, telling v reads /\ readable v reads.
Proof.
  intros H. destruct H as [Hf | l c v E Hf | l w c v E Hf | l mx c v E Hf | mx v E Hm Hf].
  - split; [reflexivity|]. eexists. split; [apply telling_Count|]. intros i Hi. cbn in Hi. assert (i = 0) as -> by lia. exists 0, f0. cbn.
    split; [lia|]. split; [lia|]. intros meas _ _. ring.
  - unfold Histogram_init in E. destruct (0 <? l)%Z eqn:E1; [|discriminate]. destruct (0 <? c)%Z eqn:E2; [|discriminate].
    cbn [check bind] in E. assert (v = Histogram P (Z.to_nat l) (Z.to_nat c)) as -> by congruence. clear E.
    apply Z.ltb_lt in E2. split; [reflexivity|]. exists (loop_reads (Z.to_nat c) (Histogram_calls (Z.to_nat l) (Z.to_nat c))). split.
    + apply (loop_telling HP _ _ _ (fun meas y => Ret [y; fold_left fadd meas (fneg f1)])); try reflexivity; [lia | |  | ].
      * apply ceil_mul. lia.
      * intros meas jr. unfold valid_eval, Histogram. rewrite (sinv_1 HP). reflexivity.
      * intros meas y o log out log'. cbn. congruence.
    + apply loop_readable; try reflexivity; [lia | apply ceil_mul; lia].
  - unfold MultihotCountVec_init in E. repeat (match type of E with context [check ?b _] => destruct b eqn:?; [|discriminate E]; cbn [check bind] in E end).
    assert (v = MultihotCountVec P (Z.to_nat l) (Z.to_nat w) (Z.to_nat c)) as -> by congruence. clear E.
    match goal with H : (0 <? c)%Z = true |- _ => apply Z.ltb_lt in H end. split; [reflexivity|].
    exists (loop_reads (Z.to_nat c) (Multihot_calls (Z.to_nat l) (Z.to_nat w) (Z.to_nat c))). split.
    + apply (loop_telling HP _ _ _ (fun meas y =>
        let+ wr := plift (decode_range_checked_int (skipn (Z.to_nat l) meas) (Z.of_nat (Z.to_nat w))) in
        Ret [y; fsub (fold_left fadd (firstn (Z.to_nat l) meas) f0) wr])); try reflexivity; [lia | |].
      * apply ceil_mul. lia.
      * intros meas y o log out log'. destruct (decode_range_checked_int _ _); cbn; congruence.
    + apply loop_readable; try reflexivity; [lia | apply ceil_mul; lia].
  - unfold SumVec_init in E. repeat (match type of E with context [check ?b _] => destruct b eqn:?; [|discriminate E]; cbn [check bind] in E end).
    assert (v = SumVec P (Z.to_nat l) mx (Z.to_nat c)) as -> by congruence. clear E.
    match goal with H : (0 <? c)%Z = true |- _ => apply Z.ltb_lt in H end. split; [reflexivity|].
    exists (loop_reads (Z.to_nat c) (SumVec_calls (Z.to_nat l) (bit_length mx) (Z.to_nat c))). split.
    + apply (loop_telling HP _ _ _ (fun meas y => Ret [y])); try reflexivity; [lia | |].
      * apply ceil_mul. lia.
      * intros meas y o log out log'. cbn. congruence.
    + apply loop_readable; try reflexivity; [lia | apply ceil_mul; lia].
  - unfold Sum_init in E. assert (v = Sum P mx) as ->.
    { repeat (match type of E with context [check ?b _] => destruct b eqn:?; [|discriminate E]; cbn [check bind] in E end).
      destruct (PolyEval_init _ _); [|discriminate E]. cbn [bind] in E. congruence. }
    split; [reflexivity|]. eexists. split; [apply telling_Sum|]. intros i Hi. cbn [vMEAS_LEN Sum] in Hi.
    assert (Ee : elements_per_call (Sum P mx) = 1) by reflexivity. rewrite Ee, Nat.div_1_r. exists 0, f0. cbn [nth GADGETS GADGET_CALLS Sum ARITY].
    split; [cbn; lia|]. split; [exact Hi|]. intros meas jr _. rewrite nth_map_seq by exact Hi. cbn [nth]. ring.
Qed.

Theorem reveals v i : std_circuit P v -> i < vMEAS_LEN v -> exists j c, forall n ms ps query_rand joint_rand,
  1 <= n -> (Z.of_nat n < MODULUS P)%Z -> vecs n (vMEAS_LEN v) ms -> vecs n (proof_len v) ps ->
  length query_rand = query_rand_len v -> length joint_rand = vJOINT_RAND_LEN v ->
  at_root v query_rand 0 (S (i / elements_per_call v)) ->
  exists total, exchange_unguarded v n ms ps query_rand joint_rand total /\
    nth i (vsum (vMEAS_LEN v) ms) f0 = fadd (nth j total f0) c.
Proof.
  intros Hv Hi. destruct (std_readable v Hv) as (HG & reads & (T1 & T2 & _) & R).
  rewrite HG in T1 || idtac. destruct (R i Hi) as (j & c & Hj & Hk & Hr). exists (S j), c.
  intros n ms ps q jr H1 H2 H3 H4 H5 H6 H7.
  destruct (unguarded_entries HP v (proj1 (std_ok HP v Hv)) reads n ms ps q jr _ HG T1 T2 H1 H2 H3 H4 H5 H6 H7) as (total & E & _ & En).
  exists total. split; [exact E|]. rewrite (En j Hj). apply Hr. apply vsum_length.
Qed.

Theorem harmless v k : std_circuit P v -> k = 0 \/ nth 0 (GADGET_CALLS v) 0 < k -> forall n ms ps query_rand joint_rand,
  1 <= n -> (Z.of_nat n < MODULUS P)%Z -> vecs n (vMEAS_LEN v) ms -> vecs n (proof_len v) ps ->
  length query_rand = query_rand_len v -> length joint_rand = vJOINT_RAND_LEN v ->
  at_root v query_rand 0 k ->
  exists total, exchange_unguarded v n ms ps query_rand joint_rand total /\
    forall j, j < ARITY (nth 0 (GADGETS v) Mul) ->
      nth (S j) total f0 = if k =? 0 then nth j (vsum (proof_len v) ps) f0 else f0.
Proof.
  intros Hv Hk. destruct (std_readable v Hv) as (HG & reads & (T1 & T2 & _) & _).
  intros n ms ps q jr H1 H2 H3 H4 H5 H6 H7.
  destruct (unguarded_entries HP v (proj1 (std_ok HP v Hv)) reads n ms ps q jr _ HG T1 T2 H1 H2 H3 H4 H5 H6 H7) as (total & E & _ & En).
  exists total. split; [exact E|]. intros j Hj. rewrite (En j Hj). destruct k as [|k]; [reflexivity|]. cbn [Nat.eqb].
  rewrite (nth_overflow (reads _ _) []) by (rewrite T2; destruct Hk; [discriminate | lia]). now destruct j.
Qed.
End S.
