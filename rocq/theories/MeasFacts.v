(** Encoding, acceptance, rejection and truncation for the five circuits. *)
From Verif Require Export MeasSpec.
From Verif Require Import Base Common Field Poly FlpBBCGGI19 Circuits Spec CircuitSpec BaseFacts CommonFacts
  FieldFacts PolyAlg Roots PolyFacts GadgetFacts CircuitFacts InterpFacts VecFacts Counting RangeInt CircuitProofs
  CircuitInstances.
Open Scope nat_scope.

Section Meas.
Context {P : NttFieldClass} (HP : NttOk P).
Notation F := (F P).
Let Hp : prime (MODULUS P) := ntt_prime P HP.
Add Ring FringMF : (@F_ring P).

Lemma M1 : (1 < MODULUS P)%Z. Proof. apply (mod_gt_1 HP). Qed.
Lemma val_0 : val (f0 : F) = 0%Z. Proof. unfold f0. rewrite val_fof_small; pose proof M1; lia. Qed.
Lemma val_1 : val (f1 : F) = 1%Z. Proof. unfold f1. rewrite val_fof_small; pose proof M1; lia. Qed.

Lemma fsuml_val (l : list F) : fsuml l = fof (zsuml (map val l)).
Proof.
  induction l as [|x l IH]; [reflexivity|]. cbn [fsuml fold_right map zsuml] in *. fold (fsuml l). rewrite IH, fof_add, fof_val.
  reflexivity.
Qed.
Lemma zsuml_app a b : zsuml (a ++ b) = (zsuml a + zsuml b)%Z.
Proof. induction a as [|x a IH]; [easy|]. unfold zsuml in *. cbn [fold_right app] in *. rewrite IH. lia. Qed.

Lemma bits_zsum (l : list F) : Forall is_bit l -> (0 <= zsuml (map val l) <= Z.of_nat (length l))%Z.
Proof.
  induction 1 as [|x l Hx _ IH]; [cbn; lia|]. cbn [map zsuml fold_right length]. fold (zsuml (map val l)).
  destruct Hx as [-> | ->]; rewrite ?val_0, ?val_1; lia.
Qed.

Lemma zero_bits (l : list F) : Forall is_bit l -> zsuml (map val l) = 0%Z -> l = repeat f0 (length l).
Proof.
  induction 1 as [|x l Hx Hl IH]; [easy|]. cbn [map zsuml fold_right length repeat]. fold (zsuml (map val l)).
  pose proof (bits_zsum l Hl). destruct Hx as [-> | ->]; rewrite ?val_0, ?val_1; intros E; [|lia].
  f_equal. apply IH. lia.
Qed.

Lemma onehot_0 len : onehot (P := P) (S len) 0 = f1 :: repeat f0 len.
Proof.
  unfold onehot. cbn [seq map]. f_equal. rewrite <- seq_shift, map_map. cbn.
  clear. generalize 0 at 1. induction len; intros a; cbn; [easy|]. f_equal. apply IHlen.
Qed.
Lemma onehot_S len m : onehot (P := P) (S len) (S m) = f0 :: onehot len m.
Proof. unfold onehot. cbn [seq map]. f_equal. rewrite <- seq_shift, map_map. reflexivity. Qed.

Lemma onehot_bits len m : Forall is_bit (onehot (P := P) len m).
Proof.
  apply Forall_forall. intros x Hx. apply in_map_iff in Hx as (i & <- & _). destruct (i =? m); [now right | now left].
Qed.
Lemma onehot_length len m : length (onehot (P := P) len m) = len.
Proof. unfold onehot. now rewrite map_length, seq_length. Qed.
Lemma zsum_zeros n : zsuml (map val (repeat (f0 : F) n)) = 0%Z.
Proof. induction n; [easy|]. cbn [repeat map zsuml fold_right]. fold (zsuml (map val (repeat (f0 : F) n))). rewrite IHn, val_0. lia. Qed.
Lemma onehot_sum len m : m < len -> zsuml (map val (onehot (P := P) len m)) = 1%Z.
Proof.
  revert m. induction len; intros [|m] Hm; try lia.
  - rewrite onehot_0. cbn [map zsuml fold_right]. fold (zsuml (map val (repeat (f0 : F) len))).
    rewrite zsum_zeros, val_1. lia.
  - rewrite onehot_S. cbn [map zsuml fold_right]. fold (zsuml (map val (onehot (P := P) len m))).
    rewrite IHlen, val_0 by lia. lia.
Qed.

Lemma sum_one_onehot (l : list F) : Forall is_bit l -> zsuml (map val l) = 1%Z ->
  exists m, m < length l /\ l = onehot (length l) m.
Proof.
  induction 1 as [|x l Hx Hl IH]; [cbn; lia|]. cbn [map zsuml fold_right length]. fold (zsuml (map val l)).
  pose proof (bits_zsum l Hl). destruct Hx as [-> | ->]; rewrite ?val_0, ?val_1; intros E.
  - destruct IH as (m & Hm & Em); [lia|]. exists (S m). split; [lia|]. rewrite onehot_S. now rewrite Em at 1.
  - exists 0. split; [lia|]. rewrite onehot_0. f_equal. apply zero_bits; [easy|lia].
Qed.

Lemma onehot_set len m : m < len -> set (repeat f0 len) m f1 = Ok (onehot (P := P) len m).
Proof.
  intros Hm. rewrite set_lt by (now rewrite repeat_length). f_equal. apply (nth_ext' f0).
  - now rewrite length_upd, repeat_length, onehot_length.
  - rewrite length_upd, repeat_length. intros i Hi. rewrite nth_upd by (now rewrite repeat_length).
    unfold onehot. rewrite nth_map_seq by easy. rewrite Nat.eqb_sym. destruct (i =? m); [easy|].
    rewrite nth_repeat'. now destruct (_ <? _).
Qed.

Lemma allzero2 (a b : F) : allzero [a; b] <-> a = f0 /\ b = f0.
Proof.
  split.
  - intros H. inversion_clear H as [|? ? H1 H2]. inversion_clear H2. easy.
  - intros [-> ->]. now repeat constructor.
Qed.
Lemma allzero1 (a : F) : allzero [a] <-> a = f0.
Proof.
  split.
  - intros H. now inversion_clear H.
  - intros ->. now repeat constructor.
Qed.

(** ** Count *)
Lemma Count_encode m : (m = 0 \/ m = 1)%Z ->
  valid_encode (Count P) m = Ok [fof m] /\ accepts (Count P) [fof m] /\
  valid_truncate (Count P) [fof m] = Ok [fof m].
Proof.
  intros Hm. split; [|split].
  - cbn [valid_encode Count]. replace ((0 <=? m)%Z && (m <? 2)%Z) with true by (destruct Hm as [-> | ->]; easy).
    rewrite field_init_ok by (pose proof M1; lia). reflexivity.
  - intros jr Hj. cbn in Hj. destruct jr; [|discriminate]. rewrite Count_eval by easy. eexists; split; [reflexivity|].
    apply allzero1. cbn [nth]. destruct Hm as [-> | ->]; [change (fof 0 : F) with (f0 : F) | change (fof 1 : F) with (f1 : F)]; ring.
  - reflexivity.
Qed.
Lemma Count_encode_bad m : (m <> 0 -> m <> 1 ->
  valid_encode (Count P) m = Raise (ValueError "measurement out of range"))%Z.
Proof.
  intros H0 H1. cbn [valid_encode Count]. destruct (Z.leb_spec 0 m), (Z.ltb_spec m 2); cbn; try easy. lia.
Qed.
Lemma Count_reject (meas jr : list F) : length meas = 1 -> length jr = 0 ->
  accepts_with (Count P) meas jr <-> Forall is_bit meas.
Proof.
  intros Hm Hj. destruct jr; [|discriminate]. unfold accepts_with. rewrite Count_eval by easy.
  destruct meas as [|x [|]]; try discriminate. cbn [nth]. split.
  - intros (_ & out & [= <-] & Hz). apply (proj1 (allzero1 _)) in Hz. constructor; [|constructor].
    apply (bit_iff HP). rewrite <- Hz. ring.
  - intros H. split; [easy|]. eexists; split; [reflexivity|]. apply allzero1. inversion_clear H as [|? ? Hb _].
    apply (bit_iff HP) in Hb. rewrite <- Hb. ring.
Qed.

(** ** Histogram *)
Section Hist.
Context (len chunk : nat) (Hlen : 1 <= len) (Hchunk : 1 <= chunk).
Notation V := (Histogram P len chunk).

Lemma Histogram_encode m : (0 <= m < Z.of_nat len)%Z ->
  valid_encode V m = Ok (onehot len (Z.to_nat m)) /\ accepts V (onehot len (Z.to_nat m)) /\
  valid_truncate V (onehot len (Z.to_nat m)) = Ok (onehot len (Z.to_nat m)).
Proof.
  intros Hm. split; [|split; [|reflexivity]].
  - cbn [valid_encode Histogram]. rewrite (proj2 (Z.leb_le 0 m)) by lia. apply onehot_set. lia.
  - intros jr Hj. cbn [vJOINT_RAND_LEN Histogram] in Hj.
    rewrite (Histogram_eval HP) by (easy || apply onehot_length).
    eexists; split; [reflexivity|]. apply allzero2. split.
    + apply (range_spec_bits HP). apply onehot_bits.
    + rewrite fsuml_val, onehot_sum by lia. change (fof 1 : F) with (f1 : F). ring.
Qed.
Lemma Histogram_encode_bad m : (Z.of_nat len <= m \/ m < - Z.of_nat len)%Z ->
  valid_encode V m = Raise IndexError.
Proof.
  intros Hm. cbn [valid_encode Histogram]. destruct (Z.leb_spec 0 m).
  - unfold set. rewrite repeat_length. destruct (Nat.ltb_spec (Z.to_nat m) len); [lia|easy].
  - destruct (Z.leb_spec 0 (Z.of_nat len + m)); [lia|easy].
Qed.
(** Negative indices are accepted and count from the end. *)
Lemma Histogram_encode_negative m : (- Z.of_nat len <= m < 0)%Z ->
  valid_encode V m = Ok (onehot len (Z.to_nat (Z.of_nat len + m))).
Proof.
  intros Hm. cbn [valid_encode Histogram]. destruct (Z.leb_spec 0 m); [lia|].
  destruct (Z.leb_spec 0 (Z.of_nat len + m)); [|lia]. apply onehot_set. lia.
Qed.
Lemma Histogram_reject (meas : list F) (Q : list (list F)) : length meas = len -> (Z.of_nat len < MODULUS P)%Z ->
  (forall m, m < len -> meas <> onehot len m) -> NoDup Q ->
  (forall jr, In jr Q -> accepts_with V meas jr) ->
  (Z.of_nat (length Q) <= Z.of_nat chunk * MODULUS P ^ (Z.of_nat (vJOINT_RAND_LEN V) - 1))%Z.
Proof.
  intros Hm HlM Hnot HQ Hacc.
  assert (Hacc' : forall jr, In jr Q -> length jr = Histogram_calls len chunk /\
     range_spec meas jr f1 chunk (Histogram_calls len chunk) = f0 /\ fsuml meas = f1).
  { intros jr Hjr. destruct (Hacc jr Hjr) as (Hl & out & E & Hz). cbn [vJOINT_RAND_LEN Histogram] in Hl.
    rewrite (Histogram_eval HP) in E by easy. injection E as <-. apply (proj1 (allzero2 _ _)) in Hz as [H1 H2].
    split; [easy|]. split; [easy|]. now apply fsub_eq_0. }
  destruct Q as [|jr0 Q0] eqn:EQ.
  { cbn [length Z.of_nat]. pose proof M1. apply Z.mul_nonneg_nonneg; [lia|]. apply Z.pow_nonneg. lia. }
  rewrite <- EQ in *.
  apply (range_spec_sound HP meas); try easy.
  - rewrite Hm. apply (calls_bounds len chunk Hlen Hchunk).
  - intros Hb. destruct (Hacc' jr0 ltac:(rewrite EQ; now left)) as (_ & _ & Hs).
    rewrite fsuml_val in Hs. pose proof (bits_zsum meas Hb) as Hr. rewrite Hm in Hr.
    apply (f_equal val) in Hs. rewrite val_1, val_fof_small in Hs by lia.
    destruct (sum_one_onehot meas Hb Hs) as (m & Hml & Em). rewrite Hm in *. now apply (Hnot m).
  - intros jr Hjr. destruct (Hacc' jr Hjr) as (A & B & _). now split.
Qed.
End Hist.

(** ** Sum *)
Section Sm.
Context (max : Z) (Hmax : (0 < max)%Z) (Hmax' : (2 ^ Z.of_nat (bit_length max) < MODULUS P)%Z).

Lemma max_lt_modulus : (0 < max < MODULUS P)%Z.
Proof.
  destruct (bits_pos max Hmax) as (b & E & H1 & H2). rewrite E in Hmax'.
  rewrite Nat2Z.inj_succ, Z.pow_succ_r in Hmax' by lia. lia.
Qed.
Lemma rc_truncate (e : list F) : bit_length max <= length e -> Forall is_bit e ->
  decode_range_checked_int e max = Ok (fof (rc_int max e)) /\ (0 <= rc_int max e <= max)%Z.
Proof.
  intros Hl Hb. rewrite decode_rc by (try apply max_lt_modulus; easy). rewrite rc_value_int. split; [easy|].
  apply rc_int_range; [easy | apply M1 | easy].
Qed.

Lemma Sum_accepts (meas : list F) : length meas = bit_length max -> Forall is_bit meas -> accepts (Sum P max) meas.
Proof.
  intros Hl Hb jr Hj. cbn in Hj. destruct jr; [|discriminate]. rewrite (Sum_eval HP) by easy.
  eexists; split; [reflexivity|]. apply Forall_map. eapply Forall_impl; [|exact Hb].
  intros x Hx. cbv beta. now apply (bit_iff HP).
Qed.
Lemma Sum_encode m : (0 <= m <= max)%Z ->
  exists enc, valid_encode (Sum P max) m = Ok enc /\ length enc = vMEAS_LEN (Sum P max) /\
    accepts (Sum P max) enc /\ valid_truncate (Sum P max) enc = Ok [fof m].
Proof.
  intros Hm. destruct (encode_rc max m Hmax M1 ltac:(lia)) as (e & E & Hl & Hb & Hv & _).
  exists e. split; [exact E|]. split; [exact Hl|]. split; [now apply Sum_accepts|].
  cbn [valid_truncate Sum]. destruct (rc_truncate e ltac:(lia) Hb) as [-> _]. cbn [bind]. now rewrite Hv by lia.
Qed.
Lemma Sum_encode_bad m : (max < m)%Z -> valid_encode (Sum P max) m = Raise (ValueError "measurement is too large").
Proof. intros H. cbn [valid_encode Sum]. now apply encode_rc_too_large. Qed.
(** Negative measurements are not rejected. *)
Lemma Sum_encode_negative m : (m < 0)%Z ->
  exists enc, valid_encode (Sum P max) m = Ok enc /\ accepts (Sum P max) enc /\
    valid_truncate (Sum P max) enc = Ok [fof (m mod 2 ^ Z.of_nat (bit_length max - 1))].
Proof.
  intros Hm. destruct (encode_rc max m Hmax M1 ltac:(lia)) as (e & E & Hl & Hb & _ & Hv).
  exists e. split; [exact E|]. split; [now apply Sum_accepts|].
  cbn [valid_truncate Sum]. destruct (rc_truncate e ltac:(lia) Hb) as [-> _]. cbn [bind]. now rewrite Hv by lia.
Qed.
Lemma Sum_reject (meas jr : list F) : length meas = bit_length max -> length jr = 0 ->
  accepts_with (Sum P max) meas jr <-> Forall is_bit meas.
Proof.
  intros Hm Hj. destruct jr; [|discriminate]. unfold accepts_with. rewrite (Sum_eval HP) by easy. split.
  - intros (_ & out & [= <-] & Hz). apply Forall_map in Hz. eapply Forall_impl; [|exact Hz].
    intros x Hx. cbv beta in Hx. now apply (bit_iff HP).
  - intros H. split; [easy|]. eexists; split; [reflexivity|]. apply Forall_map. eapply Forall_impl; [|exact H].
    intros x Hx. cbv beta. now apply (bit_iff HP).
Qed.
Lemma Sum_truncate_range (meas : list F) : length meas = bit_length max -> Forall is_bit meas ->
  exists x, valid_truncate (Sum P max) meas = Ok [fof x] /\ (0 <= x <= max)%Z.
Proof.
  intros Hl Hb. exists (rc_int max meas). destruct (rc_truncate meas ltac:(lia) Hb) as [E Hr].
  cbn [valid_truncate Sum]. now rewrite E.
Qed.
End Sm.

(** ** SumVec *)
Section SumV.
Context (len : nat) (max : Z) (chunk : nat) (Hlen : 1 <= len) (Hchunk : 1 <= chunk)
  (Hmax : (0 < max)%Z) (Hmax' : (2 ^ Z.of_nat (bit_length max) < MODULUS P)%Z).
Notation bits := (bit_length max).
Notation V := (SumVec P len max chunk).

Lemma SumVec_accepts (meas : list F) : length meas = len * bits -> Forall is_bit meas -> accepts V meas.
Proof.
  intros Hl Hb jr Hj. cbn [vJOINT_RAND_LEN SumVec] in Hj. rewrite (SumVec_eval HP) by easy.
  eexists; split; [reflexivity|]. apply allzero1. now apply (range_spec_bits HP).
Qed.

Lemma encode_loop (ms : list Z) (acc : list F) : Forall (fun m => 0 <= m <= max)%Z ms ->
  exists es, foldM (fun encoded val =>
        if (val <? 0)%Z || (max <? val)%Z
        then Raise (ValueError "entry of measurement vector is out of range")
        else
          let* e := encode_range_checked_int val max in
          Ok (encoded ++ e)) ms acc = Ok (acc ++ concat es) /\ length es = length ms /\
    Forall2 (fun e m => length e = bits /\ Forall is_bit e /\ rc_int max e = m) es ms.
Proof.
  intros H. revert acc. induction H as [|m ms Hm _ IH]; intros acc.
  - exists []. cbn. now rewrite app_nil_r.
  - cbn [foldM]. destruct (Z.ltb_spec m 0); [lia|]. destruct (Z.ltb_spec max m); [lia|]. cbn [orb].
    destruct (encode_rc max m Hmax M1 ltac:(lia)) as (e & -> & Hl & Hb & Hv & _). cbn [bind].
    destruct (IH (acc ++ e)) as (es & E & Hes & Hf). exists (e :: es). cbn [concat length].
    rewrite E, app_assoc. split; [easy|]. split; [lia|]. constructor; [|easy]. split; [easy|]. split; [easy|].
    apply Hv. lia.
Qed.

Lemma concat_uniform_slice (es : list (list F)) i : Forall (fun e => length e = bits) es -> i < length es ->
  slice (concat es) (i * bits) ((i + 1) * bits) = nth i es [].
Proof.
  intros Hf. revert i. induction Hf as [|e es He Hf IH]; intros i Hi; [cbn in Hi; lia|].
  unfold slice in *. destruct i as [|i].
  - cbn [Nat.mul Nat.add concat nth skipn]. rewrite Nat.add_0_r, Nat.sub_0_r. now apply firstn_app_exact.
  - cbn [length] in Hi. specialize (IH i ltac:(lia)). cbn [concat nth].
    replace (S i * bits) with (i * bits + length e) by lia.
    rewrite <- skipn_skipn', skipn_app_exact by easy. rewrite <- IH. f_equal. lia.
Qed.

Lemma SumVec_encode (ms : list Z) : length ms = len -> Forall (fun m => 0 <= m <= max)%Z ms ->
  exists enc, valid_encode V ms = Ok enc /\ length enc = vMEAS_LEN V /\ accepts V enc /\
    valid_truncate V enc = Ok (map fof ms).
Proof.
  intros Hl Hf. destruct (encode_loop ms [] Hf) as (es & E & Hes & H2). exists (concat es).
  assert (Hbits : Forall is_bit (concat es)).
  { apply Forall_concat. clear - H2. induction H2; constructor; [easy|]. apply IHForall2. }
  assert (Hlens : Forall (fun e => length e = bits) es).
  { clear - H2. induction H2; constructor; [easy|]. apply IHForall2. }
  assert (Hcl : length (concat es) = len * bits).
  { rewrite <- Hl, <- Hes. clear - Hlens. induction Hlens; [easy|]. cbn. rewrite app_length. lia. }
  split; [|split; [exact Hcl|split; [now apply SumVec_accepts|]]].
  - cbn [valid_encode SumVec]. rewrite Hl, Nat.eqb_refl. cbn [negb]. exact E.
  - cbn [valid_truncate SumVec].
    rewrite (mapM_map _ (fun i => fof (nth i ms 0%Z))).
    + f_equal. apply (nth_ext' f0).
      * rewrite !map_length, length_range. lia.
      * rewrite map_length, length_range. intros i Hi.
        rewrite (nth_map' _ _ _ 0) by (rewrite length_range; lia). rewrite nth_range by lia.
        now rewrite (nth_map' _ _ _ 0%Z) by lia.
    + intros i Hi. apply in_range in Hi. rewrite concat_uniform_slice by (easy || lia).
      assert (Hi2 : length (nth i es []) = bits /\ Forall is_bit (nth i es []) /\ rc_int max (nth i es []) = nth i ms 0%Z).
      { assert (Hil : i < length es) by lia. clear - H2 Hil. revert i Hil. induction H2; intros [|i] Hil; cbn in *; try lia; [easy|].
        apply IHForall2. lia. }
      destruct Hi2 as (A & B & C).
      destruct (rc_truncate max Hmax Hmax' (nth i es []) ltac:(lia) B) as [-> _]. now rewrite C.
Qed.

Lemma SumVec_encode_bad (ms : list Z) : length ms <> len \/ ~ Forall (fun m => 0 <= m <= max)%Z ms ->
  exists msg, valid_encode V ms = Raise (ValueError msg).
Proof.
  intros H. cbn [valid_encode SumVec]. destruct (Nat.eqb_spec (length ms) len) as [E|]; cbn [negb]; [|now eexists].
  destruct H as [H|H]; [contradiction|]. clear - H Hmax HP.
  generalize (@nil F). induction ms as [|m ms IH]; intros acc; [exfalso; now apply H|].
  cbn [foldM]. destruct (Z.ltb_spec m 0); cbn [orb]; [now eexists|]. destruct (Z.ltb_spec max m); [now eexists|].
  destruct (encode_rc max m Hmax M1 ltac:(lia)) as (e & -> & _). cbn [bind]. apply IH.
  intros C. apply H. constructor; [lia|easy].
Qed.

Lemma SumVec_reject (meas : list F) (Q : list (list F)) : length meas = len * bits ->
  ~ Forall is_bit meas -> NoDup Q -> (forall jr, In jr Q -> accepts_with V meas jr) ->
  (Z.of_nat (length Q) <= Z.of_nat chunk * MODULUS P ^ (Z.of_nat (vJOINT_RAND_LEN V) - 1))%Z.
Proof.
  intros Hm Hnb HQ Hacc. assert (Hb : 1 <= bits) by (destruct (bits_pos max Hmax) as (b & -> & _); lia).
  apply (range_spec_sound HP meas); try easy.
  - rewrite Hm. apply (calls_bounds (len * bits) chunk); [nia|easy].
  - intros jr Hjr. destruct (Hacc jr Hjr) as (Hl & out & E & Hz). split; [exact Hl|].
    cbn [vJOINT_RAND_LEN SumVec] in Hl. rewrite (SumVec_eval HP) in E by easy. injection E as <-.
    now apply (proj1 (allzero1 _)) in Hz.
Qed.

Lemma SumVec_truncate_range (meas : list F) : length meas = len * bits -> Forall is_bit meas ->
  exists xs, valid_truncate V meas = Ok (map fof xs) /\ length xs = len /\ Forall (fun x => 0 <= x <= max)%Z xs.
Proof.
  intros Hl Hb. exists (map (fun i => rc_int max (slice meas (i * bits) ((i + 1) * bits))) (range 0 len)).
  assert (Hs : forall i, i < len -> length (slice meas (i * bits) ((i + 1) * bits)) = bits /\
      Forall is_bit (slice meas (i * bits) ((i + 1) * bits))).
  { intros i Hi. split.
    - rewrite slice_length; nia.
    - apply Forall_forall. intros x Hx. apply slice_incl in Hx. rewrite Forall_forall in Hb. now apply Hb. }
  split; [|split].
  - cbn [valid_truncate SumVec]. rewrite map_map. apply mapM_map. intros i Hi. apply in_range in Hi.
    destruct (Hs i ltac:(lia)) as [A B]. now apply (rc_truncate max Hmax Hmax'); [lia|].
  - now rewrite map_length, length_range, Nat.sub_0_r.
  - apply Forall_map, Forall_forall. intros i Hi. apply in_range in Hi. destruct (Hs i ltac:(lia)) as [A B].
    now apply (rc_truncate max Hmax Hmax'); [lia|].
Qed.
End SumV.

(** ** MultihotCountVec *)
Section Multihot.
Context (len mw chunk : nat) (Hlen : 1 <= len) (Hmw : 1 <= mw) (HlM : (Z.of_nat len < MODULUS P)%Z)
  (Hmw' : (Z.of_nat mw < MODULUS P)%Z) (Hchunk : 1 <= chunk).
Notation bits := (Multihot_bits mw).
Notation V := (MultihotCountVec P len mw chunk).

Lemma bool_vec_bits bs : Forall is_bit (bool_vec (P := P) bs).
Proof. apply Forall_map, Forall_forall. intros [|] _; [now right | now left]. Qed.
Lemma bool_vec_sum bs : zsuml (map val (bool_vec (P := P) bs)) = weight bs.
Proof.
  induction bs as [|b bs IH]; [easy|]. cbn [bool_vec map zsuml fold_right] in *. unfold weight in *. cbn [map zsuml fold_right].
  fold (zsuml (map val (bool_vec (P := P) bs))) in *. unfold bool_vec in *. unfold zsuml in IH at 1. rewrite IH.
  destruct b; rewrite ?val_0, ?val_1; reflexivity.
Qed.
Lemma weight_fold bs a : fold_left (fun (a : Z) (x : bool) => (a + (if x then 1 else 0))%Z) bs a = (a + weight bs)%Z.
Proof.
  revert a. induction bs as [|b bs IH]; intros a; [cbn; lia|]. cbn [fold_left]. rewrite IH.
  unfold weight. cbn [map zsuml fold_right]. fold (zsuml (map (fun b : bool => if b then 1 else 0)%Z bs)). lia.
Qed.
Lemma weight_nonneg bs : (0 <= weight bs)%Z.
Proof.
  induction bs as [|b bs IH]; [cbn; lia|]. unfold weight in *. cbn [map zsuml fold_right].
  fold (zsuml (map (fun b : bool => if b then 1 else 0)%Z bs)). destruct b; lia.
Qed.

Lemma count_vec_ok bs : mapM (fun x : bool => field_init (if x then 1 else 0)%Z) bs = Ok (bool_vec bs : list F).
Proof.
  apply mapM_map. intros [|] _; apply field_init_ok; pose proof M1; lia.
Qed.

Lemma MultihotCountVec_encode bs : length bs = len -> (weight bs <= Z.of_nat mw)%Z ->
  exists enc, valid_encode V bs = Ok enc /\ length enc = vMEAS_LEN V /\ accepts V enc /\
    valid_truncate V enc = Ok (bool_vec bs).
Proof.
  intros Hl Hw. destruct (encode_rc (P := P) (Z.of_nat mw) (weight bs) ltac:(lia) M1 Hw) as (e & E & He & Hb & Hv & _).
  pose proof (weight_nonneg bs) as Hw0.
  exists (bool_vec bs ++ e).
  assert (Hbl : length (bool_vec (P := P) bs) = len) by (unfold bool_vec; now rewrite map_length).
  assert (Htot : length (bool_vec bs ++ e) = len + bits) by (rewrite app_length; unfold Multihot_bits; lia).
  split; [|split; [exact Htot|split]].
  - cbn [valid_encode MultihotCountVec]. rewrite Hl, Nat.eqb_refl. cbn [negb].
    rewrite count_vec_ok. cbn [bind]. rewrite weight_fold, Z.add_0_l, E. reflexivity.
  - intros jr Hj. cbn [vJOINT_RAND_LEN MultihotCountVec] in Hj.
    rewrite (MultihotCountVec_eval HP) by easy. eexists; split; [reflexivity|]. apply allzero2. split.
    + apply (range_spec_bits HP). apply Forall_app. split; [apply bool_vec_bits | easy].
    + rewrite firstn_app_exact, skipn_app_exact by easy.
      rewrite fsuml_val, bool_vec_sum, rc_value_int, Hv by easy. ring.
  - cbn [valid_truncate MultihotCountVec]. now rewrite firstn_app_exact.
Qed.

Lemma MultihotCountVec_encode_bad bs : length bs <> len \/ (Z.of_nat mw < weight bs)%Z ->
  exists msg, valid_encode V bs = Raise (ValueError msg).
Proof.
  intros H. cbn [valid_encode MultihotCountVec]. destruct (Nat.eqb_spec (length bs) len); cbn [negb]; [|now eexists].
  destruct H as [H|H]; [contradiction|]. rewrite count_vec_ok. cbn [bind]. rewrite weight_fold, Z.add_0_l.
  rewrite encode_rc_too_large by easy. now eexists.
Qed.

Notation multihot_valid := (multihot_valid len mw).

Lemma Forall_firstn_skipn (meas : list F) : Forall is_bit meas -> Forall is_bit (firstn len meas) /\ Forall is_bit (skipn len meas).
Proof. rewrite <- (firstn_skipn len meas) at 1. apply Forall_app. Qed.

Lemma MultihotCountVec_reject (meas : list F) (Q : list (list F)) : length meas = vMEAS_LEN V ->
  ~ multihot_valid meas -> NoDup Q -> (forall jr, In jr Q -> accepts_with V meas jr) ->
  (Z.of_nat (length Q) <= Z.of_nat chunk * MODULUS P ^ (Z.of_nat (vJOINT_RAND_LEN V) - 1))%Z.
Proof.
  intros Hm Hnot HQ Hacc. cbn [vMEAS_LEN MultihotCountVec] in Hm.
  assert (Hacc' : forall jr, In jr Q -> length jr = Multihot_calls len mw chunk /\
     range_spec meas jr f1 chunk (Multihot_calls len mw chunk) = f0 /\
     fsuml (firstn len meas) = rc_value (Z.of_nat mw) (skipn len meas)).
  { intros jr Hjr. destruct (Hacc jr Hjr) as (Hl & out & E & Hz). cbn [vJOINT_RAND_LEN MultihotCountVec] in Hl.
    rewrite (MultihotCountVec_eval HP) in E by easy. injection E as <-. apply (proj1 (allzero2 _ _)) in Hz as [H1 H2].
    split; [easy|]. split; [easy|]. now apply fsub_eq_0. }
  destruct Q as [|jr0 Q0] eqn:EQ.
  { cbn [length Z.of_nat]. pose proof M1. apply Z.mul_nonneg_nonneg; [lia|]. apply Z.pow_nonneg. lia. }
  rewrite <- EQ in *.
  apply (range_spec_sound HP meas); try easy.
  - rewrite Hm. apply (calls_bounds (len + bits) chunk); [lia|easy].
  - intros Hb. destruct (Hacc' jr0 ltac:(rewrite EQ; now left)) as (_ & _ & Hs).
    apply Hnot. split; [easy|]. destruct (Forall_firstn_skipn meas Hb) as [B1 B2].
    rewrite fsuml_val, rc_value_int in Hs. pose proof (bits_zsum _ B1) as R1.
    rewrite firstn_length, Nat.min_l in R1 by lia.
    pose proof (rc_int_range (Z.of_nat mw) _ ltac:(lia) M1 B2) as R2.
    apply (f_equal val) in Hs. now rewrite !val_fof_small in Hs by lia.
  - intros jr Hjr. destruct (Hacc' jr Hjr) as (A & B & _). now split.
Qed.

Lemma MultihotCountVec_truncate_range (meas : list F) : length meas = vMEAS_LEN V -> multihot_valid meas ->
  exists bs, valid_truncate V meas = Ok (bool_vec bs) /\ length bs = len /\ (weight bs <= Z.of_nat mw)%Z.
Proof.
  intros Hm [Hb Hw]. cbn [vMEAS_LEN MultihotCountVec] in Hm. destruct (Forall_firstn_skipn meas Hb) as [B1 B2].
  assert (Hex : exists bs, firstn len meas = bool_vec bs).
  { clear - B1. induction B1 as [|x l Hx _ [bs IH]]; [now exists []|]. rewrite IH.
    destruct Hx as [-> | ->]; [now exists (false :: bs) | now exists (true :: bs)]. }
  destruct Hex as [bs E]. exists bs. cbn [valid_truncate MultihotCountVec]. rewrite E. split; [easy|]. split.
  - apply (f_equal (@length _)) in E. unfold bool_vec in E. rewrite map_length, firstn_length in E. lia.
  - rewrite E, bool_vec_sum in Hw. rewrite Hw. apply rc_int_range; [lia | apply M1 | easy].
Qed.
End Multihot.

End Meas.
