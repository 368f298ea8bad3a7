(** Proofs for C93: which results can be forged. *)
From Verif Require Import Prio3Facts XofFacts CircuitProofs ForgeSpec CircuitFacts FlpFacts MeasFacts MeasSpec RangeInt FieldFacts BaseFacts CircuitSpec Circuits Field Spec VecFacts.
Open Scope nat_scope.

Section Inst.
Context {P : NttFieldClass} (HP : NttOk P).
Notation F := (F P).
Notation M := (MODULUS P).
Let Hp : prime (MODULUS P) := ntt_prime P HP.
Add Ring FringFI : (@F_ring P).

Lemma answered_bind {A B} (y : nat -> F) (m : prog P A) (f : A -> prog P B) b : forall k,
  answered y k (pbind m f) = Some b -> exists a k', answered y k m = Some a /\ answered y k' (f a) = Some b.
Proof.
  induction m as [a|e|i inp h IH]; intros k H.
  - now exists a, k.
  - discriminate.
  - cbn in H |- *. exact (IH _ _ H).
Qed.

(** All answers zero. *)
Notation y0 := (fun _ : nat => f0 : F).
Lemma zero_bind {A B} (m : prog P A) (f : A -> prog P B) a : forall k,
  answered y0 k m = Some a -> (forall k', answered y0 k' (f a) = answered y0 1 (f a)) ->
  answered y0 k (pbind m f) = answered y0 1 (f a).
Proof.
  induction m as [a'|e|i inp h IH]; intros k H HI.
  - cbn in H. injection H as ->. apply HI.
  - discriminate.
  - cbn in H |- *. exact (IH _ _ H HI).
Qed.
Lemma zero_k {A} (m : prog P A) : forall k k', answered y0 k m = answered y0 k' m.
Proof. induction m as [a|e|i inp h IH]; intros k k'; cbn; [easy|easy|apply IH]. Qed.

Lemma zero_bind' {A B} (m : prog P A) (f : A -> prog P B) a k :
  answered y0 k m = Some a -> answered y0 k (pbind m f) = answered y0 1 (f a).
Proof. intros H. apply zero_bind; [exact H|]. intros k'. apply zero_k. Qed.

Lemma loop_zero (meas jr : list F) sinv chunk calls : length jr = calls ->
  answered y0 1 (range_check_loop meas jr sinv chunk calls) = Some f0.
Proof.
  intros L. unfold range_check_loop. assert (forall x, In x (range 0 calls) -> x < length jr) as H.
  { intros x I. apply in_range in I. lia. }
  revert H. generalize (range 0 calls). intros l. induction l as [|i l IH]; intros H; [reflexivity|].
  cbn [pfold]. rewrite (zero_bind' _ _ f0).
  - apply IH. intros x I. apply H. now right.
  - rewrite (get_nth _ _ f0) by (apply H; now left). cbn [plift pbind pcall answered]. f_equal.
Qed.

Lemma lift_ok {A B} (a : A) (f : A -> prog P B) : pbind (plift (Ok a)) f = f a.
Proof. reflexivity. Qed.

Lemma check_ok a b (meas jr : list F) : length meas = a -> length jr = b -> check_valid_eval a b meas jr = Ok tt.
Proof. intros <- <-. unfold check_valid_eval. now rewrite !Nat.eqb_refl. Qed.

Lemma sinv_one : shares_inv (P := P) 1 = Ok f1.
Proof.
  unfold shares_inv. rewrite field_init_ok by (pose proof (mod_gt_1 HP); lia). cbn [bind]. f_equal.
  change (fof (Z.of_nat 1) : F) with (f1 : F).
  assert (E : fmul (finv f1) f1 = f1 :> F) by (apply (finv_l Hp), (f1_neq_f0 Hp)).
  rewrite <- E at 2. ring.
Qed.

Lemma residues_map (l : list Z) : residues M l -> map fint (map (fun x => fof x : F) l) = l.
Proof.
  intros H. rewrite map_map. rewrite <- (map_id l) at 2. apply map_ext_in. intros x I.
  unfold residues in H. rewrite Forall_forall in H. specialize (H x I). unfold fint. now apply val_fof_small.
Qed.

Lemma Count_answerable x (jr : list F) : length jr = 0 -> answerable (Count P) [x] jr.
Proof.
  intros L. exists (fun _ => x), [fsub x x]. split.
  - unfold valid_eval, Count. rewrite (check_ok 1 0) by easy. reflexivity.
  - constructor; [ring|constructor].
Qed.

Theorem Count_forgeable r : (0 <= r < M)%Z -> forgeable (Count P) r.
Proof.
  intros H. exists [fof r], [fof r]. split; [reflexivity|]. split; [intros jr L; now apply Count_answerable|].
  split; [reflexivity|]. cbn. f_equal. unfold fint. now apply val_fof_small.
Qed.

(** The number in the first place. *)
Definition first_only (n : nat) (x : F) : list F := x :: repeat f0 (n - 1).
Lemma first_only_value max x : (0 < max)%Z -> rc_value max (first_only (bit_length max) x) = x.
Proof.
  intros H. destruct (bits_pos max H) as (b & E & B). unfold rc_value. rewrite E.
  assert (W : rc_weight max 0 = 1%Z).
  { unfold rc_weight. rewrite E. destruct b as [|b]; [|reflexivity]. cbn in B |- *. lia. }
  unfold first_only. cbn [Nat.sub]. rewrite Nat.sub_0_r.
  rewrite fsum_S_l. cbn [nth]. rewrite W. change (fof 1 : F) with (f1 : F).
  rewrite fsum_zero.
  - ring.
  - intros i Hi. cbn [nth]. rewrite nth_repeat. ring.
Qed.
Lemma first_only_length n x : 1 <= n -> length (first_only n x) = n.
Proof. intros H. unfold first_only. cbn [length]. rewrite repeat_length. lia. Qed.

Lemma Sum_answerable max (meas jr : list F) : length meas = bit_length max -> length jr = 0 -> answerable (Sum P max) meas jr.
Proof.
  intros L Lj. exists y0, (repeat f0 (length meas)). split.
  - unfold valid_eval, Sum. rewrite (check_ok (bit_length max) 0) by easy. rewrite lift_ok. clear L.
    assert (H : forall l acc, answered y0 1 (pfold (fun out b => let+ y := pcall 0 [b] in Ret (out ++ [y])) l acc)
                       = Some (acc ++ repeat f0 (length l))).
    { induction l as [|x l IH]; intros acc; cbn [pfold length repeat]; [now rewrite app_nil_r|].
      rewrite (zero_bind' _ _ (acc ++ [f0])) by reflexivity. rewrite IH, <- app_assoc. reflexivity. }
    now rewrite H.
  - apply Forall_forall. intros x I. now apply repeat_spec in I.
Qed.

Theorem Sum_forgeable max r : (0 < max)%Z -> (2 ^ Z.of_nat (bit_length max) < M)%Z -> (0 <= r < M)%Z -> forgeable (Sum P max) r.
Proof.
  intros H H' Hr. destruct (bits_pos max H) as (b & E & B). assert (B1 : 1 <= bit_length max) by lia.
  exists (first_only (bit_length max) (fof r)), [fof r].
  split; [now apply first_only_length|]. split.
  { intros jr L. apply Sum_answerable; [now apply first_only_length|exact L]. }
  split.
  - unfold valid_truncate, Sum. rewrite decode_rc.
    + cbn [bind]. now rewrite first_only_value.
    + exact (max_lt_modulus max H H').
    + rewrite first_only_length by exact B1. lia.
  - cbn. f_equal. unfold fint. now apply val_fof_small.
Qed.

Lemma SumVec_answerable len max chunk (meas jr : list F) : length meas = len * bit_length max ->
  length jr = SumVec_calls len (bit_length max) chunk -> answerable (SumVec P len max chunk) meas jr.
Proof.
  intros L Lj. exists y0, [f0]. split; [|constructor; [reflexivity|constructor]].
  unfold valid_eval, SumVec. rewrite check_ok by assumption. rewrite lift_ok, sinv_one, lift_ok.
  rewrite (zero_bind' _ _ f0) by (now apply loop_zero). reflexivity.
Qed.

Theorem SumVec_forgeable len max chunk r : (0 < max)%Z -> (2 ^ Z.of_nat (bit_length max) < M)%Z ->
  length r = len -> residues M r -> forgeable (SumVec P len max chunk) r.
Proof.
  intros H H' Lr Hr. destruct (bits_pos max H) as (b & E & B). assert (B1 : 1 <= bit_length max) by lia.
  set (bl := map (fun x => first_only (bit_length max) (fof x)) r).
  assert (Fb : Forall (fun x => length x = bit_length max) bl).
  { apply Forall_map, Forall_forall. intros x _. now apply first_only_length. }
  assert (Lb : length bl = len) by (unfold bl; now rewrite map_length).
  exists (concat bl), (map (fun x => fof x) r).
  assert (Lc : length (concat bl) = len * bit_length max) by (rewrite (XofFacts.length_concat_const _ _ Fb); now rewrite Lb).
  split; [exact Lc|]. split; [intros jr L; now apply SumVec_answerable|]. split.
  - unfold valid_truncate, SumVec.
    assert (Em : map (fun x => fof x : F) r = map (fun i => fof (nth i r 0%Z)) (range 0 len)).
    { apply (nth_ext' f0); rewrite !map_length, ?length_range; [lia|]. intros i Hi.
      rewrite (nth_map' _ _ _ 0%Z), (nth_map' _ _ _ 0), nth_range by (rewrite ?length_range; lia). reflexivity. }
    rewrite Em. apply mapM_map. intros i I. apply in_range in I.
    replace (slice (concat bl) (i * bit_length max) ((i + 1) * bit_length max)) with (nth i bl []).
    + unfold bl. rewrite (nth_map' _ _ _ 0%Z) by lia. rewrite decode_rc.
      * now rewrite first_only_value.
      * exact (max_lt_modulus max H H').
      * rewrite first_only_length by exact B1. lia.
    + pose proof (Prio3Facts.piece_concat (bit_length max) i bl Fb ltac:(lia)) as E1. rewrite <- E1.
      unfold piece. f_equal. lia.
  - unfold valid_decode, SumVec. now rewrite residues_map.
Qed.

Lemma Histogram_answerable len chunk (meas jr : list F) : length meas = len -> length jr = Histogram_calls len chunk ->
  answerable (Histogram P len chunk) meas jr <-> fsuml meas = f1.
Proof.
  intros L Lj.
  assert (E0 : forall a, fold_left fadd meas (fneg f1) = fadd a (fneg f1) <-> fsuml meas = a).
  { assert (Z : forall l (acc : F), fold_left fadd l acc = fadd acc (fsuml l)).
    { induction l as [|x l IH]; intros acc; [change (fsuml (@nil F)) with (f0 : F); cbn [fold_left]; ring|].
      cbn [fold_left]. rewrite IH. change (fsuml (x :: l)) with (fadd x (fsuml l)). ring. }
    intros a. rewrite Z. split; [|intros ->; ring].
    intros H. replace (fsuml meas) with (fadd (fadd (fneg f1) (fsuml meas)) f1) by ring. rewrite H. ring. }
  split.
  - intros (y & out & E & Hz). unfold valid_eval, Histogram in E. rewrite check_ok in E by assumption.
    rewrite lift_ok, sinv_one, lift_ok in E. apply answered_bind in E. destruct E as (a & k' & _ & E).
    cbn in E. injection E as <-. inversion Hz as [|? ? _ Hz']; subst. inversion Hz' as [|? ? Hs _]; subst.
    apply E0. rewrite Hs. ring.
  - intros Hs. apply E0 in Hs. exists y0, [f0; fold_left fadd meas (fneg f1)]. split.
    + unfold valid_eval, Histogram. rewrite check_ok by assumption. rewrite lift_ok, sinv_one, lift_ok.
      rewrite (zero_bind' _ _ f0) by (now apply loop_zero). reflexivity.
    + constructor; [reflexivity|]. constructor; [|constructor]. rewrite Hs. ring.
Qed.

Theorem Histogram_forgeable len chunk r :
  forgeable (Histogram P len chunk) r <-> length r = len /\ residues M r /\ (zsuml r mod M = 1)%Z.
Proof.
  pose proof (mod_gt_1 HP) as M1.
  assert (V1 : forall z, fof z = f1 :> F <-> (z mod M = 1)%Z).
  { intros z. split; intros H.
    - apply (f_equal fint) in H. unfold fint in H. rewrite val_fof in H. unfold f1 in H. rewrite val_fof_small in H by lia. exact H.
    - apply F_eq. rewrite val_fof. unfold f1. rewrite val_fof_small by lia. exact H. }
  split.
  - intros (vec & out & L & Ha & Et & Ed). cbn in Et, Ed. injection Et as <-. injection Ed as <-.
    cbn in L, Ha. split; [now rewrite map_length|]. split.
    + apply Forall_map, Forall_forall. intros x _. apply val_range; lia.
    + apply V1. change (map fint vec) with (map (@val P) vec). rewrite <- (fsuml_val vec).
      apply (Histogram_answerable len chunk vec (repeat f0 (Histogram_calls len chunk)) L); [apply repeat_length|].
      apply Ha. apply repeat_length.
  - intros (L & Hr & Hs). exists (map (fun x => fof x) r), (map (fun x => fof x) r).
    split; [cbn; now rewrite map_length|]. split.
    + intros jr Lj. apply Histogram_answerable; [now rewrite map_length|exact Lj|].
      rewrite fsuml_val. apply V1. replace (map val (map (fun x => fof x : F) r)) with r by (symmetry; exact (residues_map r Hr)). exact Hs.
    + split; [reflexivity|]. cbn. now rewrite residues_map.
Qed.

Theorem MultihotCountVec_forgeable len mw chunk r : 1 <= mw -> (Z.of_nat mw < M)%Z -> length r = len -> residues M r ->
  forgeable (MultihotCountVec P len mw chunk) r.
Proof.
  intros Hm HmM Lr Hr. destruct (bits_pos (Z.of_nat mw) ltac:(lia)) as (b & E & B).
  set (bits := Multihot_bits mw). assert (B1 : 1 <= bits) by (unfold bits, Multihot_bits; lia).
  set (cv := map (fun x => fof x : F) r). set (w := fold_left fadd cv f0).
  assert (Lc : length cv = len) by (unfold cv; now rewrite map_length).
  exists (cv ++ first_only bits w), cv.
  assert (L : length (cv ++ first_only bits w) = len + bits) by (rewrite app_length, first_only_length by exact B1; lia).
  split; [exact L|]. split.
  - intros jr Lj. exists y0, [f0; fsub w w]. split.
    + unfold valid_eval, MultihotCountVec. rewrite check_ok by assumption. rewrite lift_ok, sinv_one, lift_ok.
      rewrite (zero_bind' _ _ f0) by (now apply loop_zero).
      rewrite firstn_app_exact, skipn_app_exact by exact Lc. rewrite decode_rc.
      * rewrite lift_ok. unfold bits, Multihot_bits. rewrite first_only_value by lia. reflexivity.
      * lia.
      * rewrite first_only_length by exact B1. unfold bits, Multihot_bits. lia.
    + constructor; [reflexivity|]. constructor; [ring|constructor].
  - split.
    + unfold valid_truncate, MultihotCountVec. now rewrite firstn_app_exact.
    + cbn. unfold cv. now rewrite residues_map.
Qed.
End Inst.
