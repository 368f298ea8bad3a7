(** Count, Histogram, MultihotCountVec, SumVec and Sum. *)
From Verif Require Import Base Common Field Poly FlpBBCGGI19 Circuits Spec CircuitSpec BaseFacts CommonFacts
  FieldFacts PolyAlg Roots PolyFacts GadgetFacts CircuitFacts InterpFacts VecFacts Counting RangeInt CircuitProofs.
Open Scope nat_scope.

Section Instances.
Context {P : NttFieldClass} (HP : NttOk P).
Notation F := (F P).
Let Hp : prime (MODULUS P) := ntt_prime P HP.
Add Ring FringCI : (@F_ring P).

Lemma fits_le g c : fits P g c -> (2 ^ Z.of_nat (glog g (wlog c)) <= GEN_ORDER P)%Z.
Proof.
  unfold fits. rewrite wire_poly_len_pow, glog_pow, pow2_nat_Z. easy.
Qed.

Lemma single_gadgets g c : 1 <= c -> gwf P (wlog c) g -> fits P g c ->
  forall i, i < length [g] -> let g0 := nth i [g] Mul in let calls := nth i [c] 0 in
  1 <= calls /\ gwf P (wlog calls) g0 /\ (2 ^ Z.of_nat (glog g0 (wlog calls)) <= GEN_ORDER P)%Z.
Proof.
  intros Hc Hg Hf [|i] Hi; [|cbn in Hi; lia]. cbn [nth]. split; [easy|]. split; [easy|]. now apply fits_le.
Qed.

Lemma cve (meas jr : list F) a b : length meas = a -> length jr = b -> check_valid_eval a b meas jr = Ok tt.
Proof. intros Ha Hb. unfold check_valid_eval. now rewrite Ha, Hb, !Nat.eqb_refl. Qed.

Lemma fold_fadd_fsum (l : list F) acc : fold_left fadd l acc = fadd acc (fsum (length l) (fun i => nth i l f0)).
Proof. now rewrite fold_left_fadd, fsuml_nth. Qed.

Lemma shares_fsum n len (vs : nat -> list F) x m : shares_of n len vs x ->
  fsum m (fun i => nth i x f0) = fsum n (fun s => fsum m (fun i => nth i (vs s) f0)).
Proof. intros (_ & _ & H). rewrite fsum_exchange. apply fsum_ext. intros i _. apply H. Qed.

Lemma shares_two n (as_ bs : nat -> F) a b : a = fsum n as_ -> b = fsum n bs ->
  shares_of n 2 (fun s => [as_ s; bs s]) [a; b].
Proof.
  intros -> ->. split; [easy|]. split; [easy|]. intros [|[|j]]; cbn; try easy. rewrite fsum_zero; [now destruct j|].
  intros; now destruct j.
Qed.
Lemma shares_single n (as_ : nat -> F) a : a = fsum n as_ -> shares_of n 1 (fun s => [as_ s]) [a].
Proof.
  intros ->. split; [easy|]. split; [easy|]. intros [|j]; cbn; try easy. rewrite fsum_zero; [now destruct j|].
  intros; now destruct j.
Qed.

(** ** Count *)
Lemma Count_ok : fits P Mul 1 -> ValidOk (Count P).
Proof.
  intros Hf. split.
  - reflexivity.
  - now apply single_gadgets.
  - cbn. lia.
  - intros meas jr n Hm Hj _ _. cbn [vMEAS_LEN vJOINT_RAND_LEN Count] in Hm, Hj. cbn [valid_eval Count].
    rewrite cve by easy. cbn [plift pbind]. rewrite (get_nth _ _ f0) by lia. cbn. repeat split; lia.
  - intros meass meas jr n Hj Hn Hn' Hsh. cbn [vMEAS_LEN vJOINT_RAND_LEN EVAL_OUTPUT_LEN Count] in *.
    destruct Hsh as (H1 & H2 & H3). cbn [valid_eval Count].
    rewrite cve by easy. cbn [plift pbind]. rewrite (get_nth _ _ f0) by lia. cbn [plift pbind pcall lin].
    exists (fun s => [nth 0 (meass s) f0; nth 0 (meass s) f0]), (fun s y => Ret [fsub y (nth 0 (meass s) f0)]).
    split; [|split].
    + intros s Hs. rewrite cve by (try apply H2; easy). cbn [plift pbind].
      rewrite (get_nth _ _ f0) by (rewrite H2; lia). cbn. now split.
    + intros [|[|j]]; cbn; try apply H3. symmetry. rewrite fsum_zero; [now destruct j|]. intros; now destruct j.
    + intros ys. cbn [lin]. exists (fun s => [fsub (ys s) (nth 0 (meass s) f0)]). split; [easy|].
      apply shares_single. rewrite fsum_sub. f_equal. apply H3.
Qed.

Lemma Count_eval (meas : list F) n : length meas = 1 ->
  valid_eval_plain (Count P) meas [] n = Ok [fsub (fmul (nth 0 meas f0) (nth 0 meas f0)) (nth 0 meas f0)].
Proof.
  intros Hm. unfold valid_eval_plain. cbn [valid_eval Count GADGETS].
  rewrite cve by easy. cbn [plift pbind]. rewrite (get_nth _ _ f0) by lia. cbn [plift pbind pcall run].
  unfold plain_handler. cbn [get nth_error bind]. rewrite (gadget_eval_gval 0) by easy. reflexivity.
Qed.

(** ** Circuits with a range check *)
Lemma calls_bounds n chunk : 1 <= n -> 1 <= chunk ->
  1 <= (n + chunk - 1) / chunk /\ n <= (n + chunk - 1) / chunk * chunk.
Proof.
  intros Hn Hc. pose proof (Nat.div_mod_eq (n + chunk - 1) chunk).
  pose proof (Nat.mod_upper_bound (n + chunk - 1) chunk). split.
  - apply Nat.div_le_lower_bound; lia.
  - lia.
Qed.

Lemma one_inv : shares_inv 1 = Ok (finv (fof (Z.of_nat 1)) : F).
Proof. apply shares_inv_ok; [easy|]. apply (mod_gt_1 HP). Qed.

(** ** Histogram *)
Section Hist.
Context (len chunk : nat) (Hlen : 1 <= len) (Hchunk : 1 <= chunk).
Notation calls := (Histogram_calls len chunk).

Lemma Histogram_ok : fits P (ParallelSum Mul chunk) calls -> ValidOk (Histogram P len chunk).
Proof.
  intros Hf. pose proof (calls_bounds len chunk Hlen Hchunk) as [Hc1 Hc2]. split.
  - reflexivity.
  - apply single_gadgets; [easy | now apply gwf_psum | easy].
  - cbn. lia.
  - intros meas jr n Hm Hj Hn Hn'. cbn [vMEAS_LEN vJOINT_RAND_LEN Histogram] in Hm, Hj. cbn [valid_eval Histogram].
    rewrite cve by easy. rewrite (shares_inv_ok n Hn Hn'). cbn [plift pbind].
    cbn [GADGETS GADGET_CALLS Histogram length repeat]. apply range_loop_pok; [easy | cbn; lia | easy].
  - intros meass meas jr n Hj Hn Hn' Hsh. cbn [vMEAS_LEN vJOINT_RAND_LEN EVAL_OUTPUT_LEN Histogram] in *.
    pose proof Hsh as (H1 & H2 & H3). cbn [valid_eval Histogram].
    rewrite cve by easy. rewrite one_inv. cbn [plift pbind].
    eapply lin_ext.
    2: apply (range_loop_lin n _ len meass meas jr (finv (fof (Z.of_nat n))) (finv (fof (Z.of_nat 1))) chunk calls
      (fun s range_check => Ret [range_check; fold_left fadd (meass s) (fneg (finv (fof (Z.of_nat n))))]));
      [easy | exact Hsh | now apply (sinv_sum HP) |].
    + intros s Hs. rewrite cve by (try apply H2; easy). rewrite (shares_inv_ok n Hn Hn'). reflexivity.
    + intros accs acc Hacc. cbn [lin].
      exists (fun s => [accs s; fold_left fadd (meass s) (fneg (finv (fof (Z.of_nat n))))]).
      split; [easy|]. apply shares_two; [easy|]. rewrite fold_fadd_fsum, H1, (shares_fsum n len meass) by easy.
      rewrite (fsum_ext n (fun s => fold_left fadd (meass s) (fneg (finv (fof (Z.of_nat n)))))
         (fun s => fsub (fsum len (fun i => nth i (meass s) f0)) (finv (fof (Z.of_nat n))))).
      2: { intros s Hs. rewrite fold_fadd_fsum, H2 by easy. ring. }
      rewrite fsum_sub, <- (sinv_sum HP n Hn Hn'). ring.
Qed.

Lemma Histogram_eval (meas jr : list F) : length meas = len -> length jr = calls ->
  valid_eval_plain (Histogram P len chunk) meas jr 1 =
  Ok [range_spec meas jr f1 chunk calls; fsub (fsuml meas) f1].
Proof.
  intros Hm Hj. unfold valid_eval_plain. cbn [valid_eval Histogram GADGETS].
  rewrite cve by easy. rewrite one_inv. cbn [plift pbind]. rewrite range_loop_run by easy.
  cbn [run bind]. rewrite (finv_1 HP), fold_left_fadd. do 3 f_equal. ring.
Qed.
End Hist.

(** ** SumVec *)
Section SumV.
Context (len : nat) (max : Z) (chunk : nat) (Hlen : 1 <= len) (Hmax : (0 < max < MODULUS P)%Z) (Hchunk : 1 <= chunk).
Notation bits := (bit_length max).
Notation calls := (SumVec_calls len bits chunk).

Lemma SumVec_bits : 1 <= bits.
Proof. destruct (bits_pos max) as (b & -> & _); lia. Qed.

Lemma SumVec_ok : fits P (ParallelSum Mul chunk) calls -> ValidOk (SumVec P len max chunk).
Proof.
  intros Hf. pose proof SumVec_bits as Hb.
  pose proof (calls_bounds (len * bits) chunk ltac:(nia) Hchunk) as [Hc1 Hc2]. split.
  - reflexivity.
  - apply single_gadgets; [easy | now apply gwf_psum | easy].
  - cbn. lia.
  - intros meas jr n Hm Hj Hn Hn'. cbn [vMEAS_LEN vJOINT_RAND_LEN SumVec] in Hm, Hj. cbn [valid_eval SumVec].
    rewrite cve by easy. rewrite (shares_inv_ok n Hn Hn'). cbn [plift pbind].
    cbn [GADGETS GADGET_CALLS SumVec length repeat]. apply range_loop_pok; [easy | cbn; lia | easy].
  - intros meass meas jr n Hj Hn Hn' Hsh. cbn [vMEAS_LEN vJOINT_RAND_LEN EVAL_OUTPUT_LEN SumVec] in *.
    pose proof Hsh as (H1 & H2 & H3). cbn [valid_eval SumVec].
    rewrite cve by easy. rewrite one_inv. cbn [plift pbind].
    eapply lin_ext.
    2: apply (range_loop_lin n _ (len * bits) meass meas jr (finv (fof (Z.of_nat n))) (finv (fof (Z.of_nat 1))) chunk calls
      (fun s out => Ret [out])); [easy | exact Hsh | now apply (sinv_sum HP) |].
    + intros s Hs. rewrite cve by (try apply H2; easy). rewrite (shares_inv_ok n Hn Hn'). reflexivity.
    + intros accs acc Hacc. cbn [lin]. exists (fun s => [accs s]). split; [easy|]. now apply shares_single.
Qed.

Lemma SumVec_eval (meas jr : list F) : length meas = len * bits -> length jr = calls ->
  valid_eval_plain (SumVec P len max chunk) meas jr 1 = Ok [range_spec meas jr f1 chunk calls].
Proof.
  intros Hm Hj. unfold valid_eval_plain. cbn [valid_eval SumVec GADGETS].
  rewrite cve by easy. rewrite one_inv. cbn [plift pbind]. rewrite range_loop_run by easy.
  cbn [run bind]. now rewrite (finv_1 HP).
Qed.
End SumV.

(** ** MultihotCountVec *)
Section Multihot.
Context (len mw chunk : nat) (Hlen : 1 <= len) (Hmw : 1 <= mw) (Hmw' : (Z.of_nat mw < MODULUS P)%Z) (Hchunk : 1 <= chunk).
Notation bits := (Multihot_bits mw).
Notation calls := (Multihot_calls len mw chunk).

Lemma rc_value_shares n (vs : nat -> list F) x : (forall j, nth j x f0 = fsum n (fun s => nth j (vs s) f0)) ->
  rc_value (Z.of_nat mw) x = fsum n (fun s => rc_value (Z.of_nat mw) (vs s)).
Proof.
  intros H. unfold rc_value. rewrite fsum_exchange. apply fsum_ext. intros i _. now rewrite fsum_scale, <- H.
Qed.

Lemma MultihotCountVec_ok : fits P (ParallelSum Mul chunk) calls -> ValidOk (MultihotCountVec P len mw chunk).
Proof.
  intros Hf. pose proof (calls_bounds (len + bits) chunk ltac:(lia) Hchunk) as [Hc1 Hc2]. split.
  - reflexivity.
  - apply single_gadgets; [easy | now apply gwf_psum | easy].
  - cbn. lia.
  - intros meas jr n Hm Hj Hn Hn'. cbn [vMEAS_LEN vJOINT_RAND_LEN MultihotCountVec] in Hm, Hj.
    cbn [valid_eval MultihotCountVec].
    rewrite cve by easy. rewrite (shares_inv_ok n Hn Hn'). cbn [plift pbind].
    cbn [GADGETS GADGET_CALLS MultihotCountVec length repeat]. apply range_loop_pok; [easy | cbn; lia |].
    intros acc cnt _. rewrite decode_rc.
    + reflexivity.
    + lia.
    + rewrite skipn_length, Hm. unfold Multihot_bits. lia.
  - intros meass meas jr n Hj Hn Hn' Hsh. cbn [vMEAS_LEN vJOINT_RAND_LEN EVAL_OUTPUT_LEN MultihotCountVec] in *.
    pose proof Hsh as (H1 & H2 & H3). cbn [valid_eval MultihotCountVec].
    rewrite cve by easy. rewrite one_inv. cbn [plift pbind].
    eapply lin_ext.
    2: apply (range_loop_lin n _ (len + bits) meass meas jr (finv (fof (Z.of_nat n))) (finv (fof (Z.of_nat 1))) chunk calls
      (fun s range_check =>
         pbind (plift (decode_range_checked_int (skipn len (meass s)) (Z.of_nat mw))) (fun weight_reported =>
         Ret [range_check; fsub (fold_left fadd (firstn len (meass s)) f0) weight_reported])));
      [easy | exact Hsh | now apply (sinv_sum HP) |].
    + intros s Hs. rewrite cve by (try apply H2; easy). rewrite (shares_inv_ok n Hn Hn'). reflexivity.
    + intros accs acc Hacc. rewrite decode_rc by (rewrite ?skipn_length, ?H1; unfold Multihot_bits in *; lia).
      cbn [plift pbind lin].
      exists (fun s => [accs s; fsub (fold_left fadd (firstn len (meass s)) f0) (rc_value (Z.of_nat mw) (skipn len (meass s)))]).
      split.
      * intros s Hs. rewrite decode_rc; [easy | lia |]. rewrite skipn_length, H2 by easy. unfold Multihot_bits. lia.
      * apply shares_two; [easy|].
        rewrite (fsum_ext n (fun s => fsub (fold_left fadd (firstn len (meass s)) f0) (rc_value (Z.of_nat mw) (skipn len (meass s))))
           (fun s => fsub (fsum len (fun i => nth i (meass s) f0)) (rc_value (Z.of_nat mw) (skipn len (meass s))))).
        -- rewrite fsum_sub, <- (shares_fsum n (len + bits) meass meas len Hsh). f_equal.
           ++ rewrite fold_fadd_fsum, firstn_length, H1, Nat.min_l by lia.
              rewrite (fsum_ext len _ (fun i => nth i meas f0)); [ring|]. intros i Hi.
              now rewrite nth_firstn', (proj2 (Nat.ltb_lt _ _) Hi).
           ++ apply rc_value_shares. intros j. rewrite nth_skipn', H3. apply fsum_ext. intros s _. now rewrite nth_skipn'.
        -- intros s Hs. f_equal. rewrite fold_fadd_fsum, firstn_length, H2, Nat.min_l by (lia || easy).
           rewrite (fsum_ext len _ (fun i => nth i (meass s) f0)); [ring|]. intros i Hi.
           now rewrite nth_firstn', (proj2 (Nat.ltb_lt _ _) Hi).
Qed.

Lemma MultihotCountVec_eval (meas jr : list F) : length meas = len + bits -> length jr = calls ->
  valid_eval_plain (MultihotCountVec P len mw chunk) meas jr 1 =
  Ok [range_spec meas jr f1 chunk calls; fsub (fsuml (firstn len meas)) (rc_value (Z.of_nat mw) (skipn len meas))].
Proof.
  intros Hm Hj. unfold valid_eval_plain. cbn [valid_eval MultihotCountVec GADGETS].
  rewrite cve by easy. rewrite one_inv. cbn [plift pbind]. rewrite range_loop_run by easy.
  rewrite decode_rc by (rewrite ?skipn_length, ?Hm; unfold Multihot_bits in *; lia).
  cbn [plift pbind run bind]. rewrite (finv_1 HP), fold_left_fadd. do 3 f_equal. ring.
Qed.
End Multihot.

(** ** Sum *)
Section Sm.
Context (max : Z) (Hmax : (0 < max)%Z) (Hmax' : (2 ^ Z.of_nat (bit_length max) < MODULUS P)%Z).
Notation bits := (bit_length max).

Lemma Sum_bits : 1 <= bits.
Proof. destruct (bits_pos max) as (b & -> & _); lia. Qed.

Lemma Sum_gwf : gwf P (wlog bits) (Sum_gadget bits).
Proof.
  unfold Sum_gadget. cbn [gwf length]. rewrite wire_poly_len_pow. split; [reflexivity|]. split; [lia|]. split.
  - pose proof (mod_gt_1 HP). repeat constructor; lia.
  - intros C. inversion_clear C as [|? ? _ C']. inversion_clear C' as [|? ? _ C'']. inversion_clear C'' as [|? ? C _].
    now apply (f1_neq_f0 Hp) in C.
Qed.

Lemma Sum_ok : fits P (Sum_gadget bits) bits -> ValidOk (Sum P max).
Proof.
  intros Hf. pose proof Sum_bits as Hb. split.
  - reflexivity.
  - apply single_gadgets; [easy | apply Sum_gwf | easy].
  - exact Hb.
  - intros meas jr n Hm Hj Hn Hn'. cbn [vMEAS_LEN vJOINT_RAND_LEN Sum] in Hm, Hj. cbn [valid_eval Sum].
    rewrite cve by easy. cbn [plift pbind]. cbn [GADGETS GADGET_CALLS EVAL_OUTPUT_LEN Sum length repeat].
    pose proof (pok_loop f0 (fun out y => out ++ [y]) (Sum_gadget bits) bits
      (fun out b => pbind (pcall 0 [b]) (fun y => Ret (out ++ [y]))) (fun b => [b]) meas
      (fun out : list F => length out = bits) (fun out => Ret out)) as Hl.
    assert (Hret : forall m : prog P (list F), pok [Sum_gadget bits] [bits] [0] (fun out => length out = bits) (pbind m Ret) ->
      pok [Sum_gadget bits] [bits] [0] (fun out => length out = bits) m).
    { intros m. generalize [0]. induction m as [a|e|i inp k IH]; intros cnt; cbn; [easy|easy|].
      intros (A & B & C & D). repeat (split; [easy|]). intros y. apply IH, D. }
    apply Hret. apply Hl with (Inv := fun i out => length out = i).
    + easy.
    + lia.
    + easy.
    + intros i acc y Hi. rewrite app_length. cbn. lia.
    + intros acc cnt Hi _. cbn. congruence.
  - intros meass meas jr n Hj Hn Hn' Hsh. cbn [vMEAS_LEN vJOINT_RAND_LEN EVAL_OUTPUT_LEN Sum] in *.
    pose proof Hsh as (H1 & H2 & H3). cbn [valid_eval Sum].
    rewrite cve by easy. cbn [plift pbind].
    assert (Hret : forall R (m : prog P (list F)) (ms : nat -> prog P (list F)),
      lin n R (fun s => pbind (ms s) Ret) (pbind m Ret) -> lin n R ms m).
    { intros R m. induction m as [a|e|i inp k IH]; intros ms; cbn.
      - intros (al & A & B). exists al. split; [|easy]. intros s Hs. specialize (A s Hs).
        destruct (ms s); cbn in A; congruence.
      - easy.
      - intros (is & ks & A & B & C).
        exists is, (fun s => match ms s with Call _ _ k0 => k0 | _ => fun _ => Ret [] end).
        split; [|split; [easy|]].
        + intros s Hs. destruct (A s Hs) as [A1 A2]. split; [|easy]. destruct (ms s); cbn in A1; congruence.
        + intros ys. apply IH. specialize (C ys). eapply lin_ext; [|exact C]. intros s Hs. cbn.
          destruct (A s Hs) as [A1 _]. destruct (ms s); cbn in A1; try discriminate.
          injection A1 as _ _ <-. reflexivity. }
    eapply lin_ext; [intros s Hs; rewrite cve by (try apply H2; easy); reflexivity|].
    apply Hret.
    apply (lin_loop f0 (fun out y => out ++ [y]) n _
        (fun s out b => pbind (pcall 0 [b]) (fun y => Ret (out ++ [y])))
        (fun out b => pbind (pcall 0 [b]) (fun y => Ret (out ++ [y]))) (fun s b => [b]) (fun b => [b])
        (fun s => Ret) Ret) with (accs := fun _ => []) (ls := meass) (Racc := fun i accs acc => shares_of n i accs acc).
    + intros i accs acc ys (A & B & C). split; [rewrite app_length; cbn; lia|]. split.
      * intros s Hs. rewrite app_length, B by easy. cbn. lia.
      * intros j. destruct (lt_eq_lt_dec j i) as [[Hji|Hji]|Hji].
        -- rewrite app_nth1 by lia. rewrite C. apply fsum_ext. intros s Hs. rewrite app_nth1; [easy|]. now rewrite B.
        -- rewrite app_nth2 by lia. rewrite A, Hji, Nat.sub_diag. cbn [nth]. apply fsum_ext. intros s Hs.
           rewrite app_nth2 by (rewrite B by easy; lia). rewrite B, Nat.sub_diag by easy. easy.
        -- rewrite nth_overflow by (rewrite app_length; cbn; lia). symmetry. apply fsum_zero. intros s Hs.
           apply nth_overflow. rewrite app_length, B by easy. cbn. lia.
    + intros accs acc Hacc. cbn [lin]. exists accs. split; [easy|]. now rewrite H1 in Hacc.
    + intros s Hs. now rewrite H1, H2.
    + intros t acc Ht. split; [easy|]. split; [easy|]. intros [|j]; cbn [nth]; [apply H3|].
      symmetry. rewrite fsum_zero; [now destruct j|]. intros; now destruct j.
    + split; [easy|]. split; [easy|]. intros j. symmetry. rewrite fsum_zero; [now destruct j|]. intros; now destruct j.
Qed.

Lemma Sum_eval (meas : list F) n : length meas = bits ->
  valid_eval_plain (Sum P max) meas [] n = Ok (map (fun b => fmul b (fsub b f1)) meas).
Proof.
  intros Hm. unfold valid_eval_plain. cbn [valid_eval Sum GADGETS]. rewrite cve by easy. cbn [plift pbind].
  assert (Hret : forall (m : prog P (list F)) s, run plain_handler m s = run plain_handler (pbind m Ret) s).
  { intros m. induction m as [a|e|i inp k IH]; intros s; cbn; [easy|easy|].
    destruct (plain_handler s i inp) as [[y s']|e]; [|easy]. cbn. apply IH. }
  rewrite Hret.
  rewrite (run_loop f0 (fun out y => out ++ [y]) (wlog bits) (Sum_gadget bits) _ (fun b => [b]) Ret Sum_gwf).
  - cbn [run bind]. f_equal.
    assert (Hg : forall b, gval (Sum_gadget bits) [b] = fmul b (fsub b f1) :> F).
    { intros b. cbn [gval Sum_gadget map peval nth]. change (fof 0 : F) with (f0 : F). change (fof 1 : F) with (f1 : F).
      replace (fof (-1) : F) with (fneg f1 : F) by (symmetry; apply (fof_opp 1)). ring. }
    assert (Hfold : forall l (acc : list F), fold_left (fun acc x => acc ++ [gval (Sum_gadget bits) [x]]) l acc
       = acc ++ map (fun b => fmul b (fsub b f1)) l).
    { induction l as [|x l IH]; intros acc; cbn [fold_left map]; [now rewrite app_nil_r|].
      rewrite IH, Hg, <- app_assoc. easy. }
    now rewrite Hfold.
  - easy.
Qed.
End Sm.
End Instances.
