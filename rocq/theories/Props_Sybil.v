(** Property C107: who knows all measurements of a batch but one learns that one
    from the result (draft-irtf-cfrg-vdaf.md:6012-6018). *)
From Verif Require Import Props_Prio3 Props_Poplar1 Poplar1Spec Poplar1 MeasFacts RangeInt CommonFacts VecFacts BaseFacts Prio3Spec Prio3 Vdaf Idpf
  CircuitSpec Circuits Flp FlpBBCGGI19 Field Spec Roots FieldProofs.
From Coq Require Import List ZArith Lia.
Import ListNotations.
Open Scope nat_scope.

Lemma zsum_pull {A} (f : A -> Z) a m b : zsuml (map f (a ++ m :: b)) = (f m + zsuml (map f (a ++ b)))%Z.
Proof. rewrite !map_app. cbn [map]. rewrite !zsuml_app. change (zsuml (f m :: map f b)) with (f m + zsuml (map f b))%Z. lia. Qed.
Lemma unmod x s q : (0 <= x < q)%Z -> (((x + s) mod q - s) mod q = x)%Z.
Proof. intros H. rewrite Zminus_mod_idemp_l. replace (x + s - s)%Z with x by lia. now apply Z.mod_small. Qed.
Lemma result_is (p : Prio3) good key ctx ms r r' : run_result p good key ctx ms r -> run_vdaf (Prio3Vdaf p) key tt ctx ms = Ok r' -> r' = r.
Proof. intros [E|[[E _]|(msg & E & _)]] H; rewrite E in H; [now injection H|discriminate|discriminate]. Qed.

(** C107.  Prio3Count and Prio3Sum: the difference. *)
Theorem C107_count : forall ts bound shares key ctx before m nonce rand after r,
  2 <= shares < 256 -> ctx_ok ctx -> length key = 32 ->
  let p := prio3_obj Field64 1 (Count Field64) ts bound shares 1 in
  sizes_ok p (before ++ (m, nonce, rand) :: after) ->
  Forall (fun m => m = 0 \/ m = 1)%Z (map meas_of (before ++ (m, nonce, rand) :: after)) ->
  run_vdaf (Prio3Vdaf p) key tt ctx (before ++ (m, nonce, rand) :: after) = Ok r ->
  m = ((r - zsuml (map meas_of (before ++ after))) mod MODULUS Field64)%Z.
Proof.
  intros ts bound shares key ctx before m nonce rand after r Hs Hc Hk p HS HM HR.
  rewrite (result_is _ _ _ _ _ _ _ (proj2 (C29_count ts bound shares key ctx _ Hs) Hc Hk HS HM) HR).
  rewrite zsum_pull, unmod; [reflexivity|]. rewrite map_app in HM. apply Forall_app in HM. destruct HM as [_ HM]. inversion HM; subst.
  cbn [meas_of fst] in *. change (MODULUS Field64) with 18446744069414584321%Z. lia.
Qed.
Print Assumptions C107_count.

Theorem C107_sum : forall ts bound shares max key ctx before m nonce rand after r,
  2 <= shares < 256 -> (0 < max)%Z -> (2 ^ Z.of_nat (bit_length max) < MODULUS Field64)%Z ->
  fits Field64 (Sum_gadget (bit_length max)) (bit_length max) -> ctx_ok ctx -> length key = 32 ->
  let p := prio3_obj Field64 2 (Sum Field64 max) ts bound shares 1 in
  sizes_ok p (before ++ (m, nonce, rand) :: after) ->
  Forall (fun m => 0 <= m <= max)%Z (map meas_of (before ++ (m, nonce, rand) :: after)) ->
  run_vdaf (Prio3Vdaf p) key tt ctx (before ++ (m, nonce, rand) :: after) = Ok r ->
  m = ((r - zsuml (map meas_of (before ++ after))) mod MODULUS Field64)%Z.
Proof.
  intros ts bound shares max key ctx before m nonce rand after r Hs H0 H1 Hf Hc Hk p HS HM HR.
  rewrite (result_is _ _ _ _ _ _ _ (proj2 (C29_sum ts bound shares max key ctx _ Hs H0 H1 Hf) Hc Hk HS HM) HR).
  rewrite zsum_pull, unmod; [reflexivity|]. rewrite map_app in HM. apply Forall_app in HM. destruct HM as [_ HM]. inversion HM; subst.
  cbn [meas_of fst] in *. pose proof (proj1 (bit_length_spec max ltac:(lia))). lia.
Qed.
Print Assumptions C107_sum.

(** C107.  Prio3SumVec: the difference in every entry. *)
Theorem C107_sumvec : forall ts bound shares len max chunk key ctx before m nonce rand after r,
  2 <= shares < 256 -> 1 <= len -> 1 <= chunk -> (0 < max)%Z -> (2 ^ Z.of_nat (bit_length max) < MODULUS Field128)%Z ->
  fits Field128 (ParallelSum Mul chunk) (SumVec_calls len (bit_length max) chunk) -> ctx_ok ctx -> length key = 32 ->
  let p := prio3_obj Field128 3 (SumVec Field128 len max chunk) ts bound shares 1 in
  sizes_ok p (before ++ (m, nonce, rand) :: after) ->
  Forall (fun m => length m = len /\ Forall (fun x => 0 <= x <= max)%Z m) (map meas_of (before ++ (m, nonce, rand) :: after)) ->
  run_vdaf (Prio3Vdaf p) key tt ctx (before ++ (m, nonce, rand) :: after) = Ok r ->
  forall i, i < len ->
    nth i m 0%Z = ((nth i r 0 - nth i (col_totals len (map meas_of (before ++ after))) 0) mod MODULUS Field128)%Z.
Proof.
  intros ts bound shares len max chunk key ctx before m nonce rand after r Hs Hl Hch H0 H1 Hf Hc Hk p HS HM HR i Hi.
  rewrite (result_is _ _ _ _ _ _ _ (proj2 (C29_sumvec ts bound shares len max chunk key ctx _ Hs Hl Hch H0 H1 Hf) Hc Hk HS HM) HR).
  unfold col_totals. rewrite map_map.
  rewrite !(nth_map' _ _ _ 0) by now rewrite seq_length. rewrite seq_nth by exact Hi. cbn [Nat.add].
  rewrite !map_map, (zsum_pull (fun x => nth i (meas_of x) 0%Z)), unmod; [reflexivity|].
  rewrite map_app in HM. apply Forall_app in HM. destruct HM as [_ HM]. inversion HM as [|? ? [Lm Fm] _]; subst.
  cbn [meas_of fst] in *. pose proof (proj1 (bit_length_spec max ltac:(lia))). rewrite Forall_forall in Fm. specialize (Fm (nth i m 0%Z) (nth_In _ _ Hi)). lia.
Qed.
Print Assumptions C107_sumvec.

(** C107.  Prio3Histogram: the only bucket with one report more. *)
Theorem C107_histogram : forall ts bound shares len chunk key ctx before m nonce rand after r,
  2 <= shares < 256 -> 1 <= len -> 1 <= chunk ->
  fits Field128 (ParallelSum Mul chunk) (Histogram_calls len chunk) -> ctx_ok ctx -> length key = 32 ->
  let p := prio3_obj Field128 4 (Histogram Field128 len chunk) ts bound shares 1 in
  sizes_ok p (before ++ (m, nonce, rand) :: after) ->
  Forall (fun m => 0 <= m < Z.of_nat len)%Z (map meas_of (before ++ (m, nonce, rand) :: after)) ->
  run_vdaf (Prio3Vdaf p) key tt ctx (before ++ (m, nonce, rand) :: after) = Ok r ->
  forall i, i < len -> (m = Z.of_nat i <->
    (nth i r 0 - Z.of_nat (count_occ Z.eq_dec (map meas_of (before ++ after)) (Z.of_nat i))) mod MODULUS Field128 = 1)%Z.
Proof.
  intros ts bound shares len chunk key ctx before m nonce rand after r Hs Hl Hch Hf Hc Hk p HS HM HR i Hi.
  rewrite (result_is _ _ _ _ _ _ _ (proj2 (C29_histogram ts bound shares len chunk key ctx _ Hs Hl Hch Hf) Hc Hk HS HM) HR).
  rewrite (nth_map' _ _ _ 0) by now rewrite seq_length. rewrite seq_nth by exact Hi. cbn [Nat.add].
  replace (Z.of_nat (count_occ Z.eq_dec (map meas_of (before ++ (m, nonce, rand) :: after)) (Z.of_nat i)))
    with ((if Z.eq_dec m (Z.of_nat i) then 1 else 0) + Z.of_nat (count_occ Z.eq_dec (map meas_of (before ++ after)) (Z.of_nat i)))%Z.
  - rewrite unmod; [destruct (Z.eq_dec m (Z.of_nat i)); split; (lia || easy)|].
    change (MODULUS Field128) with 340282366920938462946865773367900766209%Z. destruct (Z.eq_dec m (Z.of_nat i)); lia.
  - rewrite !map_app, !count_occ_app. cbn [map count_occ]. change (meas_of (m, nonce, rand)) with m. destruct (Z.eq_dec m (Z.of_nat i)); lia.
Qed.
Print Assumptions C107_histogram.

(** C107.  Prio3MultihotCountVec: the entries with one report more. *)
Theorem C107_multihot : forall ts bound shares len mw chunk key ctx before m nonce rand after r,
  2 <= shares < 256 -> 1 <= len -> 1 <= mw <= len -> (Z.of_nat len < MODULUS Field128)%Z -> 1 <= chunk ->
  fits Field128 (ParallelSum Mul chunk) (Multihot_calls len mw chunk) -> ctx_ok ctx -> length key = 32 ->
  let p := prio3_obj Field128 5 (MultihotCountVec Field128 len mw chunk) ts bound shares 1 in
  sizes_ok p (before ++ (m, nonce, rand) :: after) ->
  Forall (fun m => length m = len /\ (weight m <= Z.of_nat mw)%Z) (map meas_of (before ++ (m, nonce, rand) :: after)) ->
  run_vdaf (Prio3Vdaf p) key tt ctx (before ++ (m, nonce, rand) :: after) = Ok r ->
  forall i, i < len -> (nth i m false = true <->
    (nth i r 0 - Z.of_nat (length (filter (fun m => nth i m false) (map meas_of (before ++ after))))) mod MODULUS Field128 = 1)%Z.
Proof.
  intros ts bound shares len mw chunk key ctx before m nonce rand after r Hs Hl Hmw HlM Hch Hf Hc Hk p HS HM HR i Hi.
  rewrite (result_is _ _ _ _ _ _ _ (proj2 (C29_multihot ts bound shares len mw chunk key ctx _ Hs Hl Hmw HlM Hch Hf) Hc Hk HS HM) HR).
  rewrite (nth_map' _ _ _ 0) by now rewrite seq_length. rewrite seq_nth by exact Hi. cbn [Nat.add].
  replace (Z.of_nat (length (filter (fun m => nth i m false) (map meas_of (before ++ (m, nonce, rand) :: after)))))
    with ((if nth i m false then 1 else 0) + Z.of_nat (length (filter (fun m => nth i m false) (map meas_of (before ++ after)))))%Z.
  - rewrite unmod; [destruct (nth i m false); split; (lia || easy)|].
    change (MODULUS Field128) with 340282366920938462946865773367900766209%Z. destruct (nth i m false); lia.
  - rewrite !map_app, !filter_app, !app_length. cbn [map filter]. change (meas_of (m, nonce, rand)) with m. destruct (nth i m false); cbn [length]; lia.
Qed.
Print Assumptions C107_multihot.

(** C107.  Poplar1: the candidate prefix with one report more. *)
Theorem C107_poplar1 : forall (p : Poplar1) (lim : Z), Poplar1Ok p lim ->
  forall key ctx level prefixes before m nonce rand after r,
  NoDup prefixes -> Forall (fun x => length x = S level) prefixes ->
  ctx_ok ctx -> length key = p1_VERIFY_KEY_SIZE p -> level < id_BITS (p1_idpf p) -> (Z.of_nat level < 65536)%Z ->
  p1_sizes_ok p (before ++ (m, nonce, rand) :: after) ->
  Forall (fun r => length (fst (fst r)) = id_BITS (p1_idpf p)) (before ++ (m, nonce, rand) :: after) ->
  (1 < level_modulus p level)%Z ->
  run_vdaf (p1_vdaf p) key (Z.of_nat level, prefixes) ctx (before ++ (m, nonce, rand) :: after) = Ok r ->
  forall k, k < length prefixes -> (nth k prefixes [] = firstn (S level) m <->
    (nth k r 0 - Z.of_nat (count_prefix (nth k prefixes []) (map (fun r => fst (fst r)) (before ++ after)))) mod level_modulus p level = 1)%Z.
Proof.
  intros p lim HO key ctx level prefixes before m nonce rand after r ND FP Hc Hk HL HL' HS HM Hq HR k Hlt.
  destruct (C37_run p lim HO _ key ctx level prefixes _ eq_refl ND FP Hc Hk HL HL' HS HM) as [E|[E _]]; rewrite E in HR; [|discriminate].
  injection HR as <-. rewrite (nth_map' _ _ _ []) by exact Hlt.
  set (x := nth k prefixes []). assert (Lx : length x = S level) by (rewrite Forall_forall in FP; apply FP, nth_In; exact Hlt).
  replace (Z.of_nat (count_prefix x (map (fun r => fst (fst r)) (before ++ (m, nonce, rand) :: after))))
    with ((if list_eq_dec Bool.bool_dec x (firstn (S level) m) then 1 else 0) + Z.of_nat (count_prefix x (map (fun r => fst (fst r)) (before ++ after))))%Z.
  - rewrite unmod; [destruct (list_eq_dec Bool.bool_dec x (firstn (S level) m)); split; (lia || easy)|].
    destruct (list_eq_dec Bool.bool_dec x (firstn (S level) m)); lia.
  - unfold count_prefix. rewrite !map_app, !filter_app, !app_length. cbn [map filter fst]. rewrite Lx.
    destruct (list_eq_dec Bool.bool_dec x (firstn (S level) m)); cbn [length]; lia.
Qed.
Print Assumptions C107_poplar1.

(** With a toy XOF: from the result of three reports and two of the measurements. *)
Definition C107_reports (m : Z) : list (Z * bytes * bytes) :=
  [(1%Z, repeat x01 16, repeat x02 64); (m, repeat x03 16, repeat x04 64); (1%Z, repeat x05 16, repeat x06 64)].
Definition C107_outcomes : list (res Z) := Eval vm_compute in
  map (fun m => run_vdaf (Prio3Vdaf (prio3_obj Field64 1 (Count Field64) Props_Prio3.toy_ts 30 2 1)) (repeat x07 32) tt [x01] (C107_reports m)) [0; 1]%Z.
Example C107_example : C107_outcomes = [Ok 2%Z; Ok 3%Z] /\
  map (fun r => (r - 2) mod MODULUS Field64)%Z [2; 3]%Z = [0; 1]%Z /\
  sizes_ok (prio3_obj Field64 1 (Count Field64) Props_Prio3.toy_ts 30 2 1) (C107_reports 0) /\
  (1 < level_modulus toy_p1 0)%Z.
Proof. split; [reflexivity|]. split; [reflexivity|]. split; [repeat constructor|reflexivity]. Qed.
