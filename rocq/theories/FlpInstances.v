(** The five circuits satisfy what the FLP and Prio3 theorems assume. *)
From Verif Require Export MeasSpec.
From Verif Require Import Base Common Field Poly FlpBBCGGI19 Circuits Spec CircuitSpec BaseFacts CommonFacts
  FieldFacts PolyAlg Roots PolyFacts GadgetFacts CircuitFacts InterpFacts VecFacts FlpFacts RangeInt CircuitProofs
  CircuitInstances MeasFacts FlpSpec FlpProofs.
Open Scope nat_scope.

Section Inst.
Context {P : NttFieldClass} (HP : NttOk P).
Notation F := (F P).
Let Hp : prime (MODULUS P) := ntt_prime P HP.
Add Ring FringFI : (@F_ring P).

Lemma Histogram_init_Ok len chunk v : Histogram_init P len chunk = Ok v <->
  (0 < len)%Z /\ (0 < chunk)%Z /\ v = Histogram P (Z.to_nat len) (Z.to_nat chunk).
Proof.
  unfold Histogram_init. destruct (Z.ltb_spec 0 len), (Z.ltb_spec 0 chunk); cbn [check bind]; split;
    try (intros [= <-]; easy); try (now intros (? & ? & ->)); try (intros (? & ? & _); lia); discriminate.
Qed.
Lemma MultihotCountVec_init_Ok len mw chunk v : MultihotCountVec_init P len mw chunk = Ok v <->
  ((0 < len < MODULUS P)%Z /\ (0 < mw <= len)%Z /\ (mw < MODULUS P)%Z /\ (0 < chunk)%Z /\
   v = MultihotCountVec P (Z.to_nat len) (Z.to_nat mw) (Z.to_nat chunk)).
Proof.
  unfold MultihotCountVec_init.
  destruct (Z.ltb_spec 0 len); cbn [check bind]; [|split; [discriminate|lia]].
  destruct (Z.ltb_spec 0 mw); cbn [check bind andb]; [|split; [discriminate|lia]].
  destruct (Z.leb_spec mw len); cbn [check bind]; [|split; [discriminate|lia]].
  destruct (Z.ltb_spec 0 chunk); cbn [check bind]; [|split; [discriminate|lia]].
  destruct (Z.ltb_spec len (MODULUS P)); cbn [check bind]; [|split; [discriminate|lia]].
  destruct (Z.ltb_spec mw (MODULUS P)); cbn [check bind]; [|split; [discriminate|lia]].
  split; [intros [= <-]; repeat split; easy | intros (_ & _ & _ & _ & ->); easy].
Qed.
Lemma SumVec_init_Ok len max chunk v : SumVec_init P len max chunk = Ok v <->
  (0 < len)%Z /\ (0 < chunk)%Z /\ (0 < max)%Z /\ (2 ^ Z.of_nat (bit_length max) < MODULUS P)%Z /\
  v = SumVec P (Z.to_nat len) max (Z.to_nat chunk).
Proof.
  unfold SumVec_init.
  destruct (Z.ltb_spec 0 len); cbn [check bind]; [|split; [discriminate|lia]].
  destruct (Z.ltb_spec 0 chunk); cbn [check bind]; [|split; [discriminate|lia]].
  destruct (Z.ltb_spec 0 max); cbn [check bind]; [|split; [discriminate|lia]].
  destruct (Z.ltb_spec (2 ^ Z.of_nat (bit_length max)) (MODULUS P)); cbn [check bind]; [|split; [discriminate|lia]].
  split; [intros [= <-]; repeat split; easy | intros (_ & _ & _ & _ & ->); easy].
Qed.
Lemma Sum_init_Ok max v : Sum_init P max = Ok v <->
  (2 ^ Z.of_nat (bit_length max) < MODULUS P)%Z /\ v = Sum P max.
Proof.
  unfold Sum_init. destruct (Z.ltb_spec (2 ^ Z.of_nat (bit_length max)) (MODULUS P)); cbn [check bind];
    [|split; [discriminate|lia]].
  change (PolyEval_init [0; -1; 1]%Z (bit_length max)) with (Ok (Sum_gadget (bit_length max))). cbn [bind].
  split; [intros [= <-]; easy | intros (_ & ->); easy].
Qed.

Lemma rc_shares max n (vs : nat -> list F) x : (forall j, nth j x f0 = fsum n (fun s => nth j (vs s) f0)) ->
  rc_value max x = fsum n (fun s => rc_value max (vs s)).
Proof.
  intros H. unfold rc_value. rewrite fsum_exchange. apply fsum_ext. intros i _. now rewrite fsum_scale, <- H.
Qed.

Lemma trunc_id n len (vs : nat -> list F) v : shares_of n len vs v ->
  exists outs out, (forall s, s < n -> Ok (vs s) = Ok (outs s)) /\ Ok v = Ok out /\ shares_of n len outs out.
Proof. intros H. now exists vs, v. Qed.

Lemma Count_truncate : truncate_linear (Count P).
Proof.
  intros n vs v H. exists vs, v. pose proof H as (H1 & H2 & _). cbn [vMEAS_LEN Count] in *.
  split; [|split; [|exact H]]; cbn [valid_truncate Count].
  - intros s Hs. now rewrite H2.
  - now rewrite H1.
Qed.
Lemma Histogram_truncate len chunk : truncate_linear (Histogram P len chunk).
Proof. intros n vs v H. now apply trunc_id. Qed.
Lemma MultihotCountVec_truncate len mw chunk : truncate_linear (MultihotCountVec P len mw chunk).
Proof.
  intros n vs v (H1 & H2 & H3). cbn [vMEAS_LEN MultihotCountVec] in *.
  exists (fun s => firstn len (vs s)), (firstn len v). split; [easy|]. split; [easy|]. split; [|split].
  - rewrite firstn_length. cbn [vOUTPUT_LEN MultihotCountVec]. lia.
  - intros s Hs. rewrite firstn_length, H2 by easy. cbn [vOUTPUT_LEN MultihotCountVec]. lia.
  - intros j. rewrite nth_firstn'. destruct (j <? len) eqn:E.
    + rewrite H3. apply fsum_ext. intros s _. now rewrite nth_firstn', E.
    + symmetry. apply fsum_zero. intros s _. now rewrite nth_firstn', E.
Qed.
Lemma Sum_truncate max : (0 < max < MODULUS P)%Z -> truncate_linear (Sum P max).
Proof.
  intros Hm n vs v (H1 & H2 & H3). cbn [vMEAS_LEN Sum] in *.
  exists (fun s => [rc_value max (vs s)]), [rc_value max v]. cbn [valid_truncate Sum]. split; [|split].
  - intros s Hs. rewrite decode_rc by (try easy; now rewrite H2). reflexivity.
  - rewrite decode_rc by (try easy; now rewrite H1). reflexivity.
  - apply shares_single. now apply rc_shares.
Qed.
Lemma nth_slice_full (l : list F) a b i :
  nth i (slice l a b) f0 = if i <? b - a then nth (a + i) l f0 else f0.
Proof. unfold slice. rewrite nth_firstn', nth_skipn'. reflexivity. Qed.
Lemma SumVec_truncate len max chunk : (0 < max < MODULUS P)%Z -> truncate_linear (SumVec P len max chunk).
Proof.
  intros Hm n vs v (H1 & H2 & H3). cbn [vMEAS_LEN SumVec] in *. set (bits := bit_length max) in *.
  exists (fun s => map (fun i => rc_value max (slice (vs s) (i * bits) ((i + 1) * bits))) (range 0 len)),
    (map (fun i => rc_value max (slice v (i * bits) ((i + 1) * bits))) (range 0 len)).
  cbn [valid_truncate SumVec]. fold bits. split; [|split; [|split; [|split]]].
  - intros s Hs. apply mapM_map. intros i Hi. apply in_range in Hi. apply decode_rc; [easy|].
    rewrite slice_length; fold bits; [lia|]. rewrite H2 by easy. nia.
  - apply mapM_map. intros i Hi. apply in_range in Hi. apply decode_rc; [easy|].
    rewrite slice_length; fold bits; [lia|]. rewrite H1. nia.
  - rewrite map_length, length_range. cbn. lia.
  - intros s Hs. rewrite map_length, length_range. cbn. lia.
  - intros j. destruct (Nat.lt_ge_cases j len) as [Hj|Hj].
    + rewrite (nth_map' _ _ _ 0) by (rewrite length_range; lia). rewrite nth_range by lia.
      rewrite (fsum_ext n _ (fun s => rc_value max (slice (vs s) ((0 + j) * bits) ((0 + j + 1) * bits)))).
      * apply rc_shares. intros i. rewrite nth_slice_full.
        rewrite (fsum_ext n _ (fun s => if i <? (0 + j + 1) * bits - (0 + j) * bits
            then nth ((0 + j) * bits + i) (vs s) f0 else f0)) by (intros; apply nth_slice_full).
        destruct (i <? _); [apply H3|]. symmetry. now apply fsum_zero.
      * intros s _. rewrite (nth_map' _ _ _ 0) by (rewrite length_range; lia). now rewrite nth_range by lia.
    + rewrite nth_overflow by (rewrite map_length, length_range; lia). symmetry. apply fsum_zero. intros s _.
      apply nth_overflow. rewrite map_length, length_range. lia.
Qed.

Lemma max_small max : (0 < max)%Z -> (2 ^ Z.of_nat (bit_length max) < MODULUS P)%Z -> (0 < max < MODULUS P)%Z.
Proof. intros H1 H2. now apply max_lt_modulus. Qed.

Theorem std_ok v : std_circuit P v -> ValidOk v /\ truncate_linear v.
Proof.
  intros [Hf | len chunk v' E Hf | len mw chunk v' E Hf | len max chunk v' E Hf | max v' E Hm Hf].
  - split; [now apply Count_ok | apply Count_truncate].
  - apply Histogram_init_Ok in E as (? & ? & ->). split; [apply Histogram_ok; (easy || lia) | apply Histogram_truncate].
  - apply MultihotCountVec_init_Ok in E as (? & ? & ? & ? & ->).
    split; [apply MultihotCountVec_ok; (easy || lia) | apply MultihotCountVec_truncate].
  - apply SumVec_init_Ok in E as (? & ? & ? & ? & ->). pose proof (max_small max ltac:(easy) ltac:(easy)).
    split; [apply SumVec_ok; (easy || lia) | now apply SumVec_truncate].
  - apply Sum_init_Ok in E as (? & ->). pose proof (max_small max ltac:(easy) ltac:(easy)).
    split; [now apply Sum_ok | now apply Sum_truncate].
Qed.
End Inst.
