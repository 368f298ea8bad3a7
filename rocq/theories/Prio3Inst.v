(** The Prio3 variants. *)
From Verif Require Export Prio3Run FlpInstances FlpProofs MeasFacts XofFacts.
Open Scope nat_scope.

Section Fof.
Context {P : FieldClass}.
Notation F := (F P).

Lemma fsum_fof (l : list Z) : fsuml (map (fun x => fof x : F) l) = fof (zsuml l).
Proof. induction l as [|x l IH]; [easy|]. simpl. now rewrite IH, <- fof_add. Qed.

Lemma vsum_fof len (vs : list (list Z)) : Forall (fun v => length v = len) vs ->
  vsum len (map (map (fun x => fof x : F)) vs) = map (fun x => fof x : F) (col_totals len vs).
Proof.
  intros H. apply (vec_eq len).
  - apply vsum_length.
  - unfold col_totals. now rewrite !map_length, seq_length.
  - intros i Hi. rewrite nth_vsum by easy. unfold col_totals.
    rewrite (nth_map' (fun x => fof x : F) _ i 0%Z) by now rewrite map_length, seq_length.
    rewrite (nth_map' _ _ i 0), seq_nth by (rewrite ?seq_length; easy). cbn [plus].
    rewrite <- fsum_fof, !map_map. f_equal. apply map_ext_in. intros v Hv.
    rewrite Forall_forall in H. apply (nth_map' (fun x => fof x : F)). now rewrite (H v Hv).
Qed.

Lemma map_val_fof (l : list Z) : map fint (map (fun x => fof x : F) l) = map (fun x => x mod MODULUS P)%Z l.
Proof. rewrite map_map. apply map_ext. intros x. reflexivity. Qed.
End Fof.

Lemma Forall2_maps {A B C D} (R : A -> B -> Prop) (Q : C -> D -> Prop) (f : C -> A) (g : B -> D) l l' :
  Forall2 R (map f l) l' -> (forall c b, R (f c) b -> Q c (g b)) -> Forall2 Q l (map g l').
Proof.
  revert l'. induction l as [|c l IH]; intros l' H HQ; inversion H; subst; simpl; constructor; auto.
Qed.

Section Std.
Context (P : NttFieldClass) (HP : NttOk P) (HW : wf_field P).
Notation F := (F P).
Context (ID : Z) (HID : (0 <= ID < 2 ^ 32)%Z) (ts : TurboShake) (bound shares proofs : nat).
Context (Hs : 2 <= shares < 256) (HsM : (Z.of_nat shares < MODULUS P)%Z) (Hpr : proofs < 256).
Notation obj v := (prio3_obj P ID v ts bound shares proofs).

Definition obj_lim : Z := (Z.of_nat (bound * ENCODED_SIZE P) + 33)%Z.

Lemma obj_ok v : Prio3Ok (obj v) obj_lim.
Proof.
  constructor; unfold obj_lim; try easy; cbn [p3_xof p3_field p3_SHARES p3_PROOFS p3_VERIFY_KEY_SIZE prio3_obj].
  - apply turboshake_ok.
  - simpl loop_bound. lia.
  - simpl SEED_SIZE. lia.
  - simpl. lia.
Qed.

Lemma std_flp v : std_circuit P v -> FlpOk (p3_flp (obj v)) (test_points_ok v) (circuit_zero v).
Proof. intros H. destruct (std_ok HP v H) as [H1 H2]. now apply flp_ok. Qed.

Context (key ctx : bytes) (Hc : ctx_ok ctx) (Hk : length key = 32).

Lemma std_run v (ms : list (vMeasurement v * bytes * bytes)) vs r :
  std_circuit P v -> sizes_ok (obj v) ms ->
  Forall2 (fun m x => exists enc, valid_encode v m = Ok enc /\ length enc = vMEAS_LEN v /\ accepts v enc /\
     valid_truncate v enc = Ok (map (fun x => fof x : F) x) /\ length x = vOUTPUT_LEN v) (map meas_of ms) vs ->
  valid_decode v (map (fun x => fof x : F) (col_totals (vOUTPUT_LEN v) vs)) (length ms) = Ok r ->
  run_result (obj v) (test_points_ok v) key ctx ms r.
Proof.
  intros Hv Hsz HF Hd.
  destruct (run_ok (obj v) obj_lim (obj_ok v) _ _ (std_flp v Hv) key ctx ms
     (map (map (fun x => fof x : F)) vs) Hc Hk Hsz) as [H|H].
  - apply Forall2_maps with (1 := HF). intros m x (enc & E1 & E2 & E3 & E4 & E5). exists enc.
    split; [exact E1|]. split; [exact E2|]. split; [exact E3|]. split; [exact E4|].
    rewrite map_length. exact E5.
  - left. rewrite H.
    assert (L : Forall (fun x => length x = vOUTPUT_LEN v) vs).
    { clear -HF. remember (map meas_of ms) as mm. clear Heqmm.
      induction HF as [|a b l l' (enc & _ & _ & _ & _ & Hl) _ IH]; constructor; easy. }
    cbn [p3_flp prio3_obj OUTPUT_LEN flp_decode FlpBBCGGI19].
    rewrite vsum_fof by easy. exact Hd.
  - right. exact H.
Qed.

Lemma Forall2_same {A B} (R : A -> B -> Prop) (f : A -> B) l : Forall (fun x => R x (f x)) l -> Forall2 R l (map f l).
Proof. induction 1; constructor; easy. Qed.

Lemma total1 (l : list Z) : col_totals 1 (map (fun m => [m]) l) = [zsuml l].
Proof. unfold col_totals. simpl. rewrite map_map. simpl. now rewrite map_id. Qed.

Theorem run_count ms : fits P Mul 1 -> sizes_ok (obj (Count P)) ms ->
  Forall (fun m => m = 0 \/ m = 1)%Z (map meas_of ms) ->
  run_result (obj (Count P)) (test_points_ok (Count P)) key ctx ms (zsuml (map meas_of ms) mod MODULUS P)%Z.
Proof.
  intros Hf Hsz Hm. apply (std_run (Count P) ms (map (fun m => [m]) (map meas_of ms))).
  - now apply std_Count.
  - exact Hsz.
  - apply Forall2_same. eapply Forall_impl; [|exact Hm]. intros m H. exists [fof m].
    destruct (Count_encode HP m H) as (A & B & C). repeat split; easy.
  - change (vOUTPUT_LEN (Count P)) with 1. rewrite total1. reflexivity.
Qed.

Theorem run_sum max ms : (0 < max)%Z -> (2 ^ Z.of_nat (bit_length max) < MODULUS P)%Z ->
  fits P (Sum_gadget (bit_length max)) (bit_length max) ->
  sizes_ok (obj (Sum P max)) ms ->
  Forall (fun m => 0 <= m <= max)%Z (map meas_of ms) ->
  run_result (obj (Sum P max)) (test_points_ok (Sum P max)) key ctx ms (zsuml (map meas_of ms) mod MODULUS P)%Z.
Proof.
  intros Hmax Hmax' Hf Hsz Hm. apply (std_run (Sum P max) ms (map (fun m => [m]) (map meas_of ms))).
  - eapply std_Sum; [apply Sum_init_Ok; split; [exact Hmax' | reflexivity] | easy | easy].
  - exact Hsz.
  - apply Forall2_same. eapply Forall_impl; [|exact Hm]. intros m H.
    destruct (Sum_encode HP max Hmax Hmax' m H) as (enc & A & B & C & D). exists enc. repeat split; easy.
  - change (vOUTPUT_LEN (Sum P max)) with 1. rewrite total1. reflexivity.
Qed.

Theorem run_sumvec len max chunk ms : 1 <= len -> 1 <= chunk ->
  (0 < max)%Z -> (2 ^ Z.of_nat (bit_length max) < MODULUS P)%Z ->
  fits P (ParallelSum Mul chunk) (SumVec_calls len (bit_length max) chunk) ->
  sizes_ok (obj (SumVec P len max chunk)) ms ->
  Forall (fun m => length m = len /\ Forall (fun x => 0 <= x <= max)%Z m) (map meas_of ms) ->
  run_result (obj (SumVec P len max chunk)) (test_points_ok (SumVec P len max chunk)) key ctx ms
    (map (fun x => x mod MODULUS P)%Z (col_totals len (map meas_of ms))).
Proof.
  intros Hl Hch Hmax Hmax' Hf Hsz Hm. apply (std_run (SumVec P len max chunk) ms (map meas_of ms)).
  - apply (std_SumVec P (Z.of_nat len) max (Z.of_nat chunk)).
    + apply SumVec_init_Ok. rewrite !Nat2Z.id. repeat split; try easy; lia.
    + now rewrite !Nat2Z.id.
  - exact Hsz.
  - replace (map meas_of ms : list (list Z)) with (map (fun m : list Z => m) (map meas_of ms)) by apply map_id.
    apply Forall2_same. eapply Forall_impl; [|exact Hm].
    intros m [H1 H2].
    destruct (SumVec_encode HP len max chunk Hl Hch Hmax Hmax' m H1 H2) as (enc & A & B & C & D). exists enc. repeat split; easy.
  - cbn [valid_decode SumVec vOUTPUT_LEN]. now rewrite map_val_fof.
Qed.

Definition onehotZ (len : nat) (m : Z) : list Z := map (fun i => if (Z.of_nat i =? m)%Z then 1%Z else 0%Z) (seq 0 len).
Lemma onehotZ_ok len m : (0 <= m)%Z -> onehot len (Z.to_nat m) = map (fun x => fof x : F) (onehotZ len m).
Proof.
  intros H. unfold onehot, onehotZ. rewrite map_map. apply map_ext. intros i.
  destruct (Nat.eqb_spec i (Z.to_nat m)), (Z.eqb_spec (Z.of_nat i) m); try lia; easy.
Qed.

Lemma onehotZ_totals len (ms : list Z) :
  col_totals len (map (onehotZ len) ms) = map (fun i => Z.of_nat (count_occ Z.eq_dec ms (Z.of_nat i))) (seq 0 len).
Proof.
  unfold col_totals. apply map_ext_in. intros i Hi. apply in_seq in Hi. rewrite map_map.
  induction ms as [|m ms IH]; [easy|]. cbn [map zsuml fold_right count_occ].
  change (fold_right Z.add 0%Z) with zsuml. rewrite IH. unfold onehotZ at 1.
  rewrite (nth_map' _ _ _ 0), seq_nth by (rewrite ?seq_length; lia). cbn [plus].
  destruct (Z.eq_dec m (Z.of_nat i)), (Z.eqb_spec (Z.of_nat i) m); lia.
Qed.

Theorem run_histogram len chunk ms : 1 <= len -> 1 <= chunk ->
  fits P (ParallelSum Mul chunk) (Histogram_calls len chunk) ->
  sizes_ok (obj (Histogram P len chunk)) ms ->
  Forall (fun m => 0 <= m < Z.of_nat len)%Z (map meas_of ms) ->
  run_result (obj (Histogram P len chunk)) (test_points_ok (Histogram P len chunk)) key ctx ms
    (map (fun i => Z.of_nat (count_occ Z.eq_dec (map meas_of ms) (Z.of_nat i)) mod MODULUS P)%Z (seq 0 len)).
Proof.
  intros Hl Hch Hf Hsz Hm. apply (std_run (Histogram P len chunk) ms (map (onehotZ len) (map meas_of ms))).
  - apply (std_Histogram P (Z.of_nat len) (Z.of_nat chunk)).
    + apply Histogram_init_Ok. rewrite !Nat2Z.id. repeat split; try easy; lia.
    + now rewrite !Nat2Z.id.
  - exact Hsz.
  - apply Forall2_same. eapply Forall_impl; [|exact Hm]. intros m H.
    destruct (Histogram_encode HP len chunk Hl Hch m H) as (A & B & C). eexists. split; [exact A|].
    split; [apply onehot_length|]. split; [exact B|]. rewrite C, onehotZ_ok by (cbv beta in H; lia). split; [easy|].
    unfold onehotZ. rewrite map_length. apply seq_length.
  - cbn [valid_decode Histogram vOUTPUT_LEN]. rewrite map_val_fof, onehotZ_totals, map_map. easy.
Qed.

Definition boolZ (b : bool) : Z := if b then 1%Z else 0%Z.
Lemma boolZ_totals len (ms : list (list bool)) : Forall (fun m => length m = len) ms ->
  col_totals len (map (map boolZ) ms) = map (fun i => Z.of_nat (length (filter (fun m => nth i m false) ms))) (seq 0 len).
Proof.
  intros HF. unfold col_totals. apply map_ext_in. intros i Hi. apply in_seq in Hi. rewrite map_map.
  induction HF as [|m ms Hm HF IH]; [easy|]. cbn [map zsuml fold_right filter].
  change (fold_right Z.add 0%Z) with zsuml. rewrite IH.
  rewrite (nth_map' _ _ _ false) by lia. unfold boolZ at 1. destruct (nth i m false); cbn [length]; lia.
Qed.

Theorem run_multihot len mw chunk ms : 1 <= len -> 1 <= mw <= len -> (Z.of_nat len < MODULUS P)%Z -> 1 <= chunk ->
  fits P (ParallelSum Mul chunk) (Multihot_calls len mw chunk) ->
  sizes_ok (obj (MultihotCountVec P len mw chunk)) ms ->
  Forall (fun m => length m = len /\ (weight m <= Z.of_nat mw)%Z) (map meas_of ms) ->
  run_result (obj (MultihotCountVec P len mw chunk)) (test_points_ok (MultihotCountVec P len mw chunk)) key ctx ms
    (map (fun i => Z.of_nat (length (filter (fun m => nth i m false) (map meas_of ms))) mod MODULUS P)%Z (seq 0 len)).
Proof.
  intros Hl Hmw HlM Hch Hf Hsz Hm.
  apply (std_run (MultihotCountVec P len mw chunk) ms (map (map boolZ) (map meas_of ms))).
  - apply (std_MultihotCountVec P (Z.of_nat len) (Z.of_nat mw) (Z.of_nat chunk)).
    + apply MultihotCountVec_init_Ok. rewrite !Nat2Z.id. repeat split; try easy; lia.
    + now rewrite !Nat2Z.id.
  - exact Hsz.
  - apply Forall2_same. eapply Forall_impl; [|exact Hm]. intros m [H1 H2].
    destruct (MultihotCountVec_encode HP len mw chunk Hl (proj1 Hmw) ltac:(lia) Hch m H1 H2) as (enc & A & B & C & D).
    exists enc. split; [exact A|]. split; [exact B|]. split; [exact C|]. rewrite D. split.
    + unfold bool_vec. rewrite map_map. f_equal. apply map_ext. now intros [].
    + now rewrite map_length.
  - cbn [valid_decode MultihotCountVec vOUTPUT_LEN]. rewrite map_val_fof, boolZ_totals, map_map; [easy|].
    eapply Forall_impl; [|exact Hm]. easy.
Qed.
End Std.
