(** The range-checked integer encoding (Circuits.v, flp_bbcggi19.py:1146-1206). *)
From Verif Require Export MeasSpec.
From Verif Require Import Base Common Field Poly Circuits Spec BaseFacts CommonFacts FieldFacts PolyFacts.
Open Scope Z_scope.

Section RangeInt.
Context {P : FieldClass}.
Notation F := (F P).
Add Ring FringRI : (@F_ring P).

Lemma bits_pos max : 0 < max -> exists b, bit_length max = S b /\ 2 ^ Z.of_nat b <= max < 2 * 2 ^ Z.of_nat b.
Proof.
  intros H. destruct (bit_length_spec max) as (H1 & H2 & _); [lia|].
  destruct (bit_length max) as [|b]; [cbn in H1; lia|]. exists b. split; [easy|].
  replace (Z.of_nat (S b) - 1) with (Z.of_nat b) in H2 by lia. split; [lia|].
  replace (2 * 2 ^ Z.of_nat b) with (2 ^ Z.of_nat (S b)); [easy|].
  rewrite Nat2Z.inj_succ, Z.pow_succ_r by lia. lia.
Qed.

Lemma bits_sum (r : Z) (b : nat) :
  zsum b (fun l => 2 ^ Z.of_nat l * Z.land (Z.shiftr r (Z.of_nat l)) 1) = r mod 2 ^ Z.of_nat b.
Proof.
  induction b as [|b IH]; cbn [zsum]; [now rewrite Z.mod_1_r|].
  rewrite IH. change 1 with (Z.ones 1) at 1. rewrite Z.land_ones by lia.
  rewrite Z.shiftr_div_pow2 by lia. change (2 ^ 1) with 2.
  rewrite Nat2Z.inj_succ, Z.pow_succ_r by lia.
  rewrite (Z.mul_comm 2). rewrite Z.rem_mul_r by lia. lia.
Qed.

Lemma fof_zsum n f : fof (zsum n f) = fsum n (fun i => fof (f i)) :> F.
Proof. induction n as [|n IH]; cbn [zsum fsum]; [easy|]. now rewrite fof_add, IH. Qed.

(** Decoding as a weighted sum. *)
Definition rc_value (max : Z) (e : list F) : F :=
  fsum (bit_length max) (fun l => fmul (fof (rc_weight max l)) (nth l e f0)).

Lemma decode_rc max (e : list F) : 0 < max < MODULUS P -> (bit_length max <= length e)%nat ->
  decode_range_checked_int e max = Ok (rc_value max e).
Proof.
  intros Hm Hl. destruct (bits_pos max) as (b & Hb & Hr); [lia|].
  unfold decode_range_checked_int, rc_value, rc_weight. rewrite Hb in *.
  replace (S b =? 0)%nat with false by easy. replace (S b - 1)%nat with b by lia.
  assert (Hpow : forall l, (l < b)%nat -> 0 < 2 ^ Z.of_nat l < 2 ^ Z.of_nat b).
  { intros l Hlb. split; [lia|]. apply Z.pow_lt_mono_r; lia. }
  assert (Hlen : length (firstn b e) = b) by (rewrite firstn_length; lia).
  destruct (foldM_inv (0%nat, f0) (fun i r => r = fsum i (fun l => fmul (fof (2 ^ Z.of_nat l)) (nth l e f0)))
     (enumerate (firstn b e)) (f0 : F)
     (fun decoded '(l, bit) => let* w := field_init (Z.shiftl 1 (Z.of_nat l)) in
                               Ok (fadd decoded (fmul w bit)))) as (r & E & Hrr).
  - easy.
  - intros i r Hi ->. rewrite enumerate_length, Hlen in Hi.
    rewrite nth_enumerate by lia. rewrite Z.shiftl_1_l.
    specialize (Hpow i Hi).
    rewrite field_init_ok by lia. cbn [bind]. eexists; split; [reflexivity|].
    cbn [fsum]. rewrite nth_firstn'. now rewrite (proj2 (Nat.ltb_lt i b)) by lia.
  - rewrite E. cbn [bind]. rewrite enumerate_length, Hlen in Hrr. subst r.
    assert (0 < 2 ^ Z.of_nat b) by (apply Z.pow_pos_nonneg; lia).
    rewrite field_init_ok by lia. cbn [bind].
    rewrite (get_nth _ _ f0) by lia. cbn [bind]. f_equal. cbn [fsum].
    f_equal.
    + apply fsum_ext. intros i Hi. now rewrite (proj2 (Nat.ltb_lt (S i) (S b))) by lia.
    + rewrite (proj2 (Nat.ltb_ge (S b) (S b))) by lia. easy.
Qed.

Lemma decode_rc_short max (e : list F) : 0 < max < MODULUS P -> (length e < bit_length max)%nat ->
  decode_range_checked_int e max = Raise IndexError.
Proof.
  intros Hm Hl. destruct (bits_pos max) as (b & Hb & Hr); [lia|].
  unfold decode_range_checked_int. rewrite Hb in *.
  replace (S b =? 0)%nat with false by easy. replace (S b - 1)%nat with b by lia.
  assert (Hpow : forall l, (l < b)%nat -> 0 < 2 ^ Z.of_nat l < 2 ^ Z.of_nat b).
  { intros l Hlb. split; [lia|]. apply Z.pow_lt_mono_r; lia. }
  destruct (foldM_inv (0%nat, f0) (fun i r => True)
     (enumerate (firstn b e)) (f0 : F)
     (fun decoded '(l, bit) => let* w := field_init (Z.shiftl 1 (Z.of_nat l)) in
                               Ok (fadd decoded (fmul w bit)))) as (r & E & Hrr).
  - easy.
  - intros i r Hi _. rewrite enumerate_length, firstn_length in Hi.
    rewrite nth_enumerate by (rewrite firstn_length; lia). rewrite Z.shiftl_1_l.
    specialize (Hpow i ltac:(lia)).
    rewrite field_init_ok by lia. cbn [bind]. now eexists.
  - rewrite E. cbn [bind].
    assert (0 < 2 ^ Z.of_nat b) by (apply Z.pow_pos_nonneg; lia).
    rewrite field_init_ok by lia. cbn [bind].
    rewrite get_Raise by lia. easy.
Qed.

Lemma val_bit (x : F) : 1 < MODULUS P -> is_bit x -> val x = 0 \/ val x = 1.
Proof.
  intros HM [-> | ->]; [left | right]; unfold f0, f1; rewrite val_fof_small; lia.
Qed.

Lemma rc_value_int max (e : list F) : rc_value max e = fof (rc_int max e).
Proof.
  unfold rc_value, rc_int. rewrite fof_zsum. apply fsum_ext. intros i _.
  now rewrite fof_mul, fof_val.
Qed.

Lemma zsum_le n f g : (forall i, (i < n)%nat -> f i <= g i) -> zsum n f <= zsum n g.
Proof.
  induction n as [|n IH]; cbn [zsum]; [lia|]. intros H.
  specialize (IH ltac:(intros; apply H; lia)). specialize (H n ltac:(lia)). lia.
Qed.
Lemma zsum_0 n : zsum n (fun _ => 0) = 0.
Proof. induction n; cbn [zsum]; lia. Qed.
Lemma zsum_ext n f g : (forall i, (i < n)%nat -> f i = g i) -> zsum n f = zsum n g.
Proof.
  induction n as [|n IH]; cbn [zsum]; [easy|]. intros H.
  rewrite IH by (intros; apply H; lia). now rewrite H by lia.
Qed.

Lemma weights_sum max : 0 < max -> zsum (bit_length max) (rc_weight max) = max.
Proof.
  intros Hm. destruct (bits_pos max) as (b & Hb & Hr); [lia|].
  unfold rc_weight. rewrite Hb. cbn [zsum]. rewrite (proj2 (Nat.ltb_ge (S b) (S b))) by lia.
  replace (S b - 1)%nat with b by lia.
  rewrite (zsum_ext b _ (fun l => 2 ^ Z.of_nat l)).
  2: { intros i Hi. now rewrite (proj2 (Nat.ltb_lt (S i) (S b))) by lia. }
  assert (E : zsum b (fun l => 2 ^ Z.of_nat l) = 2 ^ Z.of_nat b - 1); [|lia].
  clear. induction b as [|b IH]; [easy|]. cbn [zsum]. rewrite IH.
  rewrite Nat2Z.inj_succ, Z.pow_succ_r by lia. lia.
Qed.

Lemma rc_weight_pos max l : 0 < max -> 0 < rc_weight max l.
Proof.
  intros Hm. destruct (bits_pos max) as (b & Hb & Hr); [lia|].
  unfold rc_weight. rewrite Hb. replace (S b - 1)%nat with b by lia.
  destruct (S l <? S b)%nat; [apply Z.pow_pos_nonneg; lia | lia].
Qed.

Lemma rc_int_range max (e : list F) : 0 < max -> 1 < MODULUS P -> Forall is_bit e -> 0 <= rc_int max e <= max.
Proof.
  intros Hm HM He. unfold rc_int.
  assert (Hbit : forall l, 0 <= val (nth l e f0) <= 1).
  { intros l. destruct (le_lt_dec (length e) l) as [H|H].
    - rewrite nth_overflow by lia. unfold f0. rewrite val_fof_small; lia.
    - rewrite Forall_forall in He. specialize (He (nth l e f0) (nth_In _ _ H)).
      destruct (val_bit _ HM He); lia. }
  split.
  - rewrite <- (zsum_0 (bit_length max)). apply zsum_le. intros i Hi.
    pose proof (rc_weight_pos max i Hm). specialize (Hbit i). nia.
  - apply Z.le_trans with (zsum (bit_length max) (rc_weight max)); [|rewrite weights_sum; lia].
    apply zsum_le. intros i Hi.
    pose proof (rc_weight_pos max i Hm). specialize (Hbit i). nia.
Qed.

Lemma encode_rc max v : 0 < max -> 1 < MODULUS P -> v <= max ->
  exists e : list F, encode_range_checked_int v max = Ok e /\ length e = bit_length max /\
    Forall is_bit e /\ (0 <= v -> rc_int max e = v) /\
    (v < 0 -> rc_int max e = v mod 2 ^ Z.of_nat (bit_length max - 1)).
Proof.
  intros Hm HM Hv. destruct (bits_pos max) as (b & Hb & Hr); [lia|].
  unfold encode_range_checked_int. rewrite (proj2 (Z.ltb_ge max v)) by lia.
  rewrite Hb. replace (S b =? 0)%nat with false by easy. replace (S b - 1)%nat with b by lia.
  set (sp := if v <=? 2 ^ Z.of_nat b - 1 then (v, f0) else (v - (max - (2 ^ Z.of_nat b - 1)), f1 : F)).
  assert (Hland : forall r l, 0 <= Z.land (Z.shiftr r (Z.of_nat l)) 1 <= 1).
  { intros r l. rewrite (Z.land_ones _ 1 ltac:(lia) : Z.land _ 1 = _).
    pose proof (Z.mod_pos_bound (Z.shiftr r (Z.of_nat l)) (2 ^ 1) ltac:(lia)). lia. }
  destruct sp as [rest last_elem] eqn:Esp.
  rewrite (mapM_map _ (fun l => fof (Z.land (Z.shiftr rest (Z.of_nat l)) 1))).
  2: { intros l _. apply field_init_ok. specialize (Hland rest l). lia. }
  cbn [bind]. eexists; split; [reflexivity|].
  assert (Hlen : length (map (fun l => fof (Z.land (Z.shiftr rest (Z.of_nat l)) 1) : F) (range 0 b)) = b)
    by (rewrite map_length, length_range; lia).
  split; [rewrite app_length, Hlen; cbn; lia|].
  assert (Hlast : is_bit last_elem).
  { unfold sp in Esp. destruct (v <=? _); injection Esp as _ <-; [now left | now right]. }
  assert (Hint : rc_int max (map (fun l => fof (Z.land (Z.shiftr rest (Z.of_nat l)) 1) : F) (range 0 b) ++ [last_elem])
     = rest mod 2 ^ Z.of_nat b + (max - (2 ^ Z.of_nat b - 1)) * val last_elem).
  { unfold rc_int, rc_weight. rewrite Hb. cbn [zsum].
    rewrite (proj2 (Nat.ltb_ge (S b) (S b))) by lia. replace (S b - 1)%nat with b by lia.
    rewrite app_nth2 by lia. rewrite Hlen, Nat.sub_diag. cbn [nth].
    rewrite (zsum_ext b _ (fun l => 2 ^ Z.of_nat l * Z.land (Z.shiftr rest (Z.of_nat l)) 1)).
    - now rewrite bits_sum.
    - intros i Hi. rewrite (proj2 (Nat.ltb_lt (S i) (S b))) by lia.
      rewrite app_nth1 by lia. rewrite (nth_map' _ _ _ 0%nat) by (rewrite length_range; lia).
      rewrite nth_range by lia. cbn [Nat.add]. specialize (Hland rest i).
      rewrite val_fof_small by lia. easy. }
  split.
  { apply Forall_app; split; [|now constructor]. apply Forall_forall. intros x Hx.
    apply in_map_iff in Hx as (l & <- & _). specialize (Hland rest l).
    destruct (Z.eq_dec (Z.land (Z.shiftr rest (Z.of_nat l)) 1) 0) as [->|]; [now left|].
    replace (Z.land (Z.shiftr rest (Z.of_nat l)) 1) with 1 by lia. now right. }
  rewrite Hint. unfold sp in Esp.
  destruct (Z.leb_spec v (2 ^ Z.of_nat b - 1)) as [Hle|Hgt]; injection Esp as <- <-.
  - replace (val (f0 : F)) with 0 by (unfold f0; rewrite val_fof_small; lia).
    split; intros Hv0.
    + rewrite Z.mod_small by lia. lia.
    + lia.
  - replace (val (f1 : F)) with 1 by (unfold f1; rewrite val_fof_small; lia).
    split; intros Hv0.
    + rewrite Z.mod_small by lia. lia.
    + lia.
Qed.

Lemma encode_rc_too_large max v : max < v ->
  encode_range_checked_int v max = Raise (ValueError "measurement is too large") :> res (list F).
Proof. intros H. unfold encode_range_checked_int. now rewrite (proj2 (Z.ltb_lt max v)) by lia. Qed.

Lemma rc_value_add max (a b : list F) : length a = length b ->
  rc_value max (zip_with fadd a b) = fadd (rc_value max a) (rc_value max b).
Proof.
  intros H. unfold rc_value. rewrite <- fsum_add. apply fsum_ext. intros i Hi.
  destruct (le_lt_dec (length a) i).
  - rewrite !nth_overflow by (rewrite ?zip_with_length; lia). ring.
  - rewrite (nth_zip_with _ _ _ _ f0 f0) by lia. ring.
Qed.

Lemma rc_value_scale max k (a : list F) :
  rc_value max (map (fmul k) a) = fmul k (rc_value max a).
Proof.
  unfold rc_value. rewrite <- fsum_scale. apply fsum_ext. intros i Hi.
  rewrite nth_scale. ring.
Qed.

End RangeInt.
