(** Poplar1: aggregation parameters, histories and codecs. *)
From Verif Require Export Poplar1Spec.
From Verif Require Import IdpfCodec IdpfFacts ParseFacts FieldFacts PostFacts VdafFacts.
Open Scope nat_scope.

(** * Bit packing *)
Fixpoint all_bits (n : nat) : list (list bool) :=
  match n with
  | O => [[]]
  | S m => flat_map (fun l => [true :: l; false :: l]) (all_bits m)
  end.
Lemma in_all_bits l : In l (all_bits (length l)).
Proof.
  induction l as [|b l IH]; cbn [length all_bits]; [now left|]. apply in_flat_map. exists l. split; [easy|].
  destruct b; cbn; auto.
Qed.

Definition enc_byte (chunk : list bool) : res Z :=
  foldM (fun byte_out '(bit_position, bit) =>
      Ok (Z.lor byte_out (Z.shiftl (Z.b2z bit) (7 - Z.of_nat bit_position))))
      (combine (seq 0 (length chunk)) chunk) 0%Z.
Definition enc_byte_test (chunk : list bool) : bool :=
  match enc_byte chunk with
  | Ok v => (0 <=? v)%Z && (v <? 256)%Z &&
      forallb (fun j => Bool.eqb (Z.testbit v (7 - Z.of_nat j)) (nth j chunk false)) (seq 0 8)
  | Raise _ => false
  end.
Lemma enc_byte_all : forallb (fun n => forallb enc_byte_test (all_bits n)) (seq 0 9) = true.
Proof. vm_compute. reflexivity. Qed.

Lemma enc_byte_ok chunk : length chunk <= 8 -> exists v, enc_byte chunk = Ok v /\ (0 <= v < 256)%Z /\
  forall j, j < 8 -> Z.testbit v (7 - Z.of_nat j) = nth j chunk false.
Proof.
  intros H. pose proof enc_byte_all as HA. rewrite forallb_forall in HA.
  specialize (HA (length chunk) (proj2 (in_seq 9 0 (length chunk)) ltac:(lia))). rewrite forallb_forall in HA.
  specialize (HA chunk (in_all_bits chunk)). unfold enc_byte_test in HA.
  destruct (enc_byte chunk) as [v|e]; [|discriminate]. exists v. split; [easy|].
  apply andb_prop in HA. destruct HA as [H1 H2]. apply andb_prop in H1. split; [lia|].
  intros j Hj. rewrite forallb_forall in H2. specialize (H2 j (proj2 (in_seq 8 0 j) ltac:(lia))). now apply Bool.eqb_prop in H2.
Qed.

Lemma div8_step n : 0 < n -> (n + 7) / 8 = S ((n - 8 + 7) / 8).
Proof.
  intros H. destruct (Nat.le_gt_cases 8 n) as [Hn|Hn].
  - replace (n + 7) with ((n - 8 + 7) + 1 * 8) by lia. rewrite Nat.div_add by lia. lia.
  - replace (n - 8) with 0 by lia. change ((0 + 7) / 8) with 0. symmetry. apply (Nat.div_unique _ 8 1 (n - 1)); lia.
Qed.

Lemma enc_loop fuel x : length x <= fuel -> exists p,
  mapM (fun chunk => let* byte_out := enc_byte chunk in Ok (z2b byte_out)) (batched_loop fuel 8 x) = Ok p /\
  length p = (length x + 7) / 8 /\
  forall k j, k < length p -> j < 8 -> Z.testbit (b2z (nth k p x00)) (7 - Z.of_nat j) = nth (8 * k + j) x false.
Proof.
  revert x. induction fuel as [|fuel IH]; intros x Hx.
  - destruct x; [|simpl in Hx; lia]. exists []. split; [easy|]. split; [easy|]. intros k j Hk. simpl in Hk. lia.
  - destruct x as [|b x'] eqn:Ex.
    + exists []. split; [easy|]. split; [easy|]. intros k j Hk. simpl in Hk. lia.
    + rewrite <- Ex in *. replace (batched_loop (S fuel) 8 x) with (firstn 8 x :: batched_loop fuel 8 (skipn 8 x)) by (rewrite Ex; easy).
      assert (0 < length x) by (rewrite Ex; simpl; lia).
      destruct (enc_byte_ok (firstn 8 x)) as (v & Ev & Rv & Tv); [rewrite firstn_length; lia|].
      destruct (IH (skipn 8 x)) as (q & Eq & Lq & Tq); [rewrite skipn_length; lia|].
      exists (z2b v :: q). cbn [mapM]. rewrite Ev. cbn [bind]. rewrite Eq. cbn [bind]. split; [easy|].
      rewrite skipn_length in Lq. split; [cbn [length]; rewrite Lq; symmetry; now apply div8_step|].
      intros [|k] j Hk Hj; cbn [nth].
      * rewrite b2z_z2b by easy. rewrite Tv by easy. rewrite nth_firstn'. now rewrite (proj2 (Nat.ltb_lt _ _) Hj).
      * cbn [length] in Hk. rewrite Tq by lia. rewrite nth_skipn'. f_equal. lia.
Qed.

Lemma encode_prefix_spec x : exists p, encode_prefix x = Ok p /\ length p = (length x + 7) / 8 /\
  forall k j, k < length p -> j < 8 -> Z.testbit (b2z (nth k p x00)) (7 - Z.of_nat j) = nth (8 * k + j) x false.
Proof. unfold encode_prefix, batched. cbn [Nat.eqb bind]. apply enc_loop. easy. Qed.

Lemma last_mask level : (0 <= level)%Z -> exists m, last_byte_mask level = Ok m /\
  forall b, negb (0 <? Z.land (b2z b) m)%Z = true <->
    ((level + 1) mod 8 <> 0 -> forall j, ((level + 1) mod 8 <= Z.of_nat j)%Z -> (j < 8)%nat -> Z.testbit (b2z b) (7 - Z.of_nat j) = false)%Z.
Proof.
  intros Hl. unfold last_byte_mask.
  pose proof (Z.mod_pos_bound (level + 1) 8 ltac:(lia)) as Hr. set (r := ((level + 1) mod 8)%Z) in *. clearbody r. clear Hl level.
  assert (HA : forall m, (0 <= m < 8)%Z -> exists M, (if 0 <? Z.to_nat m then
      let* last_byte_mask := for_range (8 - Z.to_nat m) 8 0%Z (fun last_byte_mask bit_index =>
        Ok (Z.lor last_byte_mask (Z.shiftl 1 (Z.of_nat bit_index)))) in Ok (Z.lxor last_byte_mask 255) else Ok 0%Z) = Ok M /\
      M = if (m =? 0)%Z then 0%Z else Z.ones (8 - m)).
  { intros m Hm. assert (m = 0 \/ m = 1 \/ m = 2 \/ m = 3 \/ m = 4 \/ m = 5 \/ m = 6 \/ m = 7)%Z as HC by lia.
    repeat destruct HC as [->|HC]; [..|subst m]; eexists; (split; [reflexivity|reflexivity]). }
  destruct (HA r Hr) as (M & -> & EM). exists M. split; [easy|]. intros b. pose proof (b2z_range b) as Hb.
  assert (HM : (0 <= Z.land (b2z b) M)%Z) by (apply Z.land_nonneg; lia).
  assert (HZ : negb (0 <? Z.land (b2z b) M)%Z = true <-> Z.land (b2z b) M = 0%Z).
  { rewrite Bool.negb_true_iff, Z.ltb_ge. lia. }
  rewrite HZ. subst M. destruct (Z.eqb_spec r 0) as [->|Hr0].
  { rewrite Z.land_0_r. split; [|easy]. intros _ X. now destruct X. }
  split.
  - intros E _ j Hj Hj8. assert (T : Z.testbit (Z.land (b2z b) (Z.ones (8 - r))) (7 - Z.of_nat j) = false) by (rewrite E; apply Z.bits_0).
    rewrite Z.land_spec, Z.ones_spec_low in T by lia. now rewrite Bool.andb_true_r in T.
  - intros H. apply Z.bits_inj'. intros t Ht. rewrite Z.bits_0, Z.land_spec.
    destruct (Z.lt_ge_cases t (8 - r)) as [Hlt|Hge].
    + specialize (H Hr0 (Z.to_nat (7 - t)) ltac:(lia) ltac:(lia)).
      replace (7 - Z.of_nat (Z.to_nat (7 - t)))%Z with t in H by lia. now rewrite H.
    + rewrite Z.ones_spec_high by lia. apply Bool.andb_false_r.
Qed.

Definition bits_be (p : bytes) (i : nat) : bool := Z.testbit (b2z (nth (i / 8) p x00)) (7 - Z.of_nat (i mod 8)).

Lemma decode_prefix_cases level mask chunk : (0 <= level)%Z -> last_byte_mask level = Ok mask ->
  length chunk = (Z.to_nat (level + 1) + 7) / 8 ->
  (exists x, decode_prefix level mask chunk = Ok x /\ length x = Z.to_nat (level + 1) /\
    forall k j, k < length chunk -> j < 8 -> Z.testbit (b2z (nth k chunk x00)) (7 - Z.of_nat j) = nth (8 * k + j) x false) \/
  (exists m, decode_prefix level mask chunk = Raise (ValueError m) /\
    forall x, length x = Z.to_nat (level + 1) ->
    ~ forall k j, k < length chunk -> j < 8 -> Z.testbit (b2z (nth k chunk x00)) (7 - Z.of_nat j) = nth (8 * k + j) x false).
Proof.
  intros Hl Hmask Hc. set (n := Z.to_nat (level + 1)) in *. assert (Hn : 0 < n) by (unfold n; lia).
  pose proof (Nat.div_mod (n + 7) 8 ltac:(lia)) as Hdm. pose proof (Nat.mod_upper_bound (n + 7) 8 ltac:(lia)) as Hmb.
  assert (Hlen : n <= 8 * length chunk < n + 8) by lia.
  assert (Hne : chunk <> []) by (intros ->; cbn [length] in Hlen; lia).
  destruct (last_mask level Hl) as (m & Em & HM). assert (m = mask) by congruence. subst m. clear Em.
  assert (Hmod : ((level + 1) mod 8 = Z.of_nat (n mod 8))%Z).
  { rewrite Nat2Z.inj_mod. unfold n. rewrite Z2Nat.id by lia. easy. }
  pose proof (Nat.div_mod n 8 ltac:(lia)) as Hnd. pose proof (Nat.mod_upper_bound n 8 ltac:(lia)) as Hnb.
  unfold decode_prefix. rewrite (get_last_nth chunk x00 Hne). cbn [bind]. fold n.
  set (lst := nth (length chunk - 1) chunk x00) in *.
  destruct (negb (0 <? Z.land (b2z lst) mask)%Z) eqn:EM.
  - left. cbn [check bind]. pose proof (proj1 (HM lst) EM) as EM2. rewrite Hmod in EM2. clear EM. rename EM2 into EM.
    exists (map (bits_be chunk) (range 0 n)). split; [|split].
    + apply mapM_map. intros i Hi. apply in_range in Hi.
      assert (i / 8 < length chunk) by (apply Nat.div_lt_upper_bound; lia).
      rewrite (get_nth chunk (i / 8) x00) by easy. cbn [bind]. unfold bits_be.
      pose proof (Nat.mod_upper_bound i 8 ltac:(lia)).
      rewrite shiftr_land_bit by lia. do 3 f_equal. lia.
    + rewrite map_length, length_range. lia.
    + intros k j Hk Hj. destruct (Nat.lt_ge_cases (8 * k + j) n) as [Hlt|Hge].
      * rewrite (nth_map' _ _ _ 0) by (rewrite length_range; lia). rewrite nth_range by lia. cbn [Nat.add].
        unfold bits_be. rewrite (Nat.mul_comm 8 k), Nat.add_comm, Nat.mod_add, Nat.div_add by lia.
        now rewrite Nat.mod_small, Nat.div_small by lia.
      * rewrite (nth_overflow (map _ _)) by (rewrite map_length, length_range; lia).
        assert (k = length chunk - 1) by lia. subst k. apply EM; lia.
  - right. cbn [check bind]. eexists. split; [reflexivity|]. intros x Hx HT.
    apply Bool.not_true_iff_false in EM. apply EM. apply HM. rewrite Hmod. intros Hr j Hj Hj8. unfold lst.
    rewrite HT by lia. apply nth_overflow. lia.
Qed.

Lemma bits_be_ext (p q : bytes) x : length p = length q ->
  (forall k j, k < length p -> j < 8 -> Z.testbit (b2z (nth k p x00)) (7 - Z.of_nat j) = nth (8 * k + j) x false) ->
  (forall k j, k < length q -> j < 8 -> Z.testbit (b2z (nth k q x00)) (7 - Z.of_nat j) = nth (8 * k + j) x false) -> p = q.
Proof.
  intros Hl HP HQ. apply (nth_ext' x00); [easy|]. intros k Hk. apply byte_bits_ext. intros j Hj.
  specialize (HP k (7 - j) Hk ltac:(lia)). specialize (HQ k (7 - j) ltac:(lia) ltac:(lia)).
  replace (7 - Z.of_nat (7 - j))%Z with (Z.of_nat j) in HP, HQ by lia. congruence.
Qed.

Lemma bits_ext (p : bytes) x y : length x = length y -> length x <= 8 * length p ->
  (forall k j, k < length p -> j < 8 -> Z.testbit (b2z (nth k p x00)) (7 - Z.of_nat j) = nth (8 * k + j) x false) ->
  (forall k j, k < length p -> j < 8 -> Z.testbit (b2z (nth k p x00)) (7 - Z.of_nat j) = nth (8 * k + j) y false) -> x = y.
Proof.
  intros Hl Hp HX HY. apply (nth_ext' false); [easy|]. intros i Hi.
  pose proof (Nat.div_mod i 8 ltac:(lia)) as Hd. pose proof (Nat.mod_upper_bound i 8 ltac:(lia)).
  assert (i / 8 < length p) by (apply Nat.div_lt_upper_bound; lia).
  rewrite Hd. rewrite <- HX, <- HY by easy. easy.
Qed.

Lemma prefix_roundtrip level mask x : (0 <= level)%Z -> last_byte_mask level = Ok mask -> length x = Z.to_nat (level + 1) ->
  exists p, encode_prefix x = Ok p /\ length p = (length x + 7) / 8 /\ decode_prefix level mask p = Ok x.
Proof.
  intros Hl Hm Hx. destruct (encode_prefix_spec x) as (p & Ep & Lp & Tp). exists p. split; [easy|]. split; [easy|].
  rewrite Hx in Lp. destruct (decode_prefix_cases level mask p Hl Hm Lp) as [(y & Ey & Ly & Ty)|(m & _ & N)].
  - rewrite Ey. f_equal. apply (bits_ext p); try easy; [congruence|].
    pose proof (Nat.div_mod (length y + 7) 8 ltac:(lia)). pose proof (Nat.mod_upper_bound (length y + 7) 8 ltac:(lia)). rewrite Ly in *. lia.
  - exfalso. now apply (N x).
Qed.

Lemma prefix_roundtrip' level mask p x : (0 <= level)%Z -> last_byte_mask level = Ok mask ->
  length p = (Z.to_nat (level + 1) + 7) / 8 -> decode_prefix level mask p = Ok x ->
  length x = Z.to_nat (level + 1) /\ encode_prefix x = Ok p.
Proof.
  intros Hl Hm Lp Hd. destruct (decode_prefix_cases level mask p Hl Hm Lp) as [(y & Ey & Ly & Ty)|(m & Em & _)]; [|congruence].
  assert (x = y) by congruence. subst y. split; [easy|].
  destruct (encode_prefix_spec x) as (q & Eq & Lq & Tq). rewrite Eq. f_equal.
  apply (bits_be_ext q p x); try easy. congruence.
Qed.

(** * batched *)
Lemma batched_loop_concat {A} n (ls : list (list A)) fuel : 0 < n -> Forall (fun l => length l = n) ls ->
  length (concat ls) <= fuel -> batched_loop fuel n (concat ls) = ls.
Proof.
  intros Hn HF. revert fuel. induction HF as [|l ls Hl HF IH]; intros fuel Hf.
  - cbn [concat]. destruct fuel; easy.
  - cbn [concat] in *. rewrite app_length in Hf. destruct fuel as [|fuel]; [lia|].
    destruct l as [|a l']; [simpl in Hl; lia|]. cbn [app batched_loop].
    change (a :: l' ++ concat ls) with ((a :: l') ++ concat ls).
    rewrite (firstn_app_exact _ _ _ Hl), (skipn_app_exact _ _ _ Hl). f_equal. apply IH. cbn [length] in Hf. lia.
Qed.

Lemma batched_concat {A} n (ls : list (list A)) : 0 < n -> Forall (fun l => length l = n) ls -> batched (concat ls) n = Ok ls.
Proof.
  intros Hn HF. unfold batched. destruct n; [lia|]. cbn [Nat.eqb]. f_equal. now apply batched_loop_concat.
Qed.

Lemma batched_split {A} n m (l : list A) : 0 < n -> length l = n * m -> exists ls, batched l n = Ok ls /\ length ls = m /\
  Forall (fun c => length c = n) ls /\ concat ls = l.
Proof.
  intros Hn Hl.
  assert (X : exists ls : list (list A), length ls = m /\ Forall (fun c => length c = n) ls /\ concat ls = l).
  { revert l Hl. induction m as [|m IH]; intros l Hl.
    - exists []. split; [easy|]. split; [constructor|]. destruct l; [easy|]. simpl in Hl. lia.
    - destruct (IH (skipn n l)) as (ls & L & FF & C); [rewrite skipn_length; lia|].
      exists (firstn n l :: ls). cbn [length concat]. split; [lia|]. split.
      + constructor; [rewrite firstn_length; lia | easy].
      + rewrite C. apply firstn_skipn. }
  destruct X as (ls & L & FF & C). exists ls. split; [|easy]. rewrite <- C. now apply batched_concat.
Qed.

(** * encode_agg_param *)
Lemma enc_prefixes prefixes acc ps : mapM encode_prefix prefixes = Ok ps ->
  foldM (fun encoded_prefixes prefix => let* e := encode_prefix prefix in Ok (encoded_prefixes ++ e)) prefixes acc = Ok (acc ++ concat ps).
Proof.
  revert acc ps. induction prefixes as [|x l IH]; intros acc ps H; cbn [mapM foldM] in *.
  - injection H as <-. cbn [concat]. now rewrite app_nil_r.
  - apply bind_Ok in H. destruct H as (e & He & H). apply bind_Ok in H. destruct H as (es & Hes & H). injection H as <-.
    rewrite He. cbn [bind]. rewrite (IH _ _ Hes). cbn [concat]. now rewrite app_assoc.
Qed.

Lemma encode_total prefixes : exists ps, mapM encode_prefix prefixes = Ok ps.
Proof. apply mapM_total. intros x _. destruct (encode_prefix_spec x) as (p & E & _). eauto. Qed.

Lemma bpp level : (0 <= level)%Z -> (((level + 1) + 7) / 8 = Z.of_nat ((Z.to_nat (level + 1) + 7) / 8))%Z.
Proof. intros H. rewrite Nat2Z.inj_div, Nat2Z.inj_add, Z2Nat.id by lia. easy. Qed.

Theorem agg_param_codec1 : canonical_codec agg_param_wf p1_encode_agg_param p1_decode_agg_param.
Proof.
  split.
  - intros [level prefixes] (Hl & Hn & HF). cbn [fst snd] in *.
    destruct (last_mask level ltac:(lia)) as (mask & Em & _).
    set (B := (Z.to_nat (level + 1) + 7) / 8).
    assert (HB : 0 < B) by (unfold B; apply Nat.div_str_pos; lia).
    assert (HP : exists ps, mapM encode_prefix prefixes = Ok ps /\ Forall (fun c => length c = B) ps /\
                   mapM (decode_prefix level mask) ps = Ok prefixes).
    { clear Hn. induction HF as [|x l Hx HF IH].
      - exists []. cbn [mapM]. easy.
      - destruct IH as (ps & E1 & E2 & E3). destruct (prefix_roundtrip level mask x ltac:(lia) Em ltac:(lia)) as (q & Q1 & Q2 & Q3).
        exists (q :: ps). cbn [mapM]. rewrite Q1, E1, Q3, E3. cbn [bind]. split; [easy|]. split; [|easy].
        constructor; [|easy]. rewrite Q2. unfold B. do 2 f_equal. lia. }
    destruct HP as (ps & E1 & E2 & E3). pose proof (mapM_Ok_length _ _ _ E1) as Lps.
    assert (Lc : length (concat ps) = B * length prefixes).
    { rewrite <- Lps. clear -E2. induction E2; cbn [concat length]; [lia|]. rewrite app_length. lia. }
    exists (rev (le_bytes 2 level) ++ rev (le_bytes 4 (Z.of_nat (length prefixes))) ++ concat ps).
    assert (HE : (((level + 1) + 7) / 8 * Z.of_nat (length prefixes))%Z = Z.of_nat (B * length prefixes)).
    { rewrite (bpp level) by lia. fold B. lia. }
    split.
    + unfold p1_encode_agg_param.
      rewrite (proj2 (Bool.andb_true_iff _ _)) by lia. cbn [check bind].
      rewrite (proj2 (Bool.andb_true_iff _ _)) by lia. cbn [check bind].
      rewrite to_be_bytes_ok by (simpl; lia). cbn [bind]. rewrite to_be_bytes_ok by (simpl; lia). cbn [bind].
      rewrite (enc_prefixes _ [] _ E1). cbn [bind app]. rewrite HE, Lc, Z.eqb_refl. easy.
    + unfold p1_decode_agg_param.
      rewrite front_app by (rewrite rev_length, le_bytes_length; easy). cbn [bind].
      rewrite front_app by (rewrite rev_length, le_bytes_length; easy). cbn [bind].
      unfold from_be_bytes. rewrite !rev_involutive, !from_le_bytes_le_bytes by (simpl; lia).
      rewrite HE, Nat2Z.id. rewrite <- (app_nil_r (concat ps)). rewrite front_app by easy. cbn [bind].
      rewrite Em. cbn [bind]. rewrite (bpp level) by lia. fold B. rewrite Nat2Z.id, batched_concat by easy. cbn [bind].
      rewrite E3. easy.
  - intros b [level prefixes] H. unfold p1_decode_agg_param in H.
    apply bind_Ok in H. destruct H as ([el r1] & F1 & H). apply front_Ok in F1. destruct F1 as [L1 ->].
    apply bind_Ok in H. destruct H as ([en r2] & F2 & H). apply front_Ok in F2. destruct F2 as [L2 ->].
    apply bind_Ok in H. destruct H as ([ep r3] & F3 & H). apply front_Ok in F3. destruct F3 as [L3 ->].
    pose proof (from_be_bytes_range el) as R1. pose proof (from_be_bytes_range en) as R2. rewrite L1 in R1. rewrite L2 in R2.
    apply bind_Ok in H. destruct H as (mask & Em & H). apply bind_Ok in H. destruct H as (chunks & Ec & H).
    apply bind_Ok in H. destruct H as (ps & Ep & H). apply bind_Ok in H. destruct H as (? & Hz & H).
    apply check_Ok, Nat.eqb_eq in Hz. destruct r3; [|discriminate]. injection H as <- ->.
    set (level := from_be_bytes el) in *. set (num := from_be_bytes en) in *.
    set (B := (Z.to_nat (level + 1) + 7) / 8).
    assert (HB : 0 < B) by (unfold B; apply Nat.div_str_pos; lia).
    assert (HE : (((level + 1) + 7) / 8 * num)%Z = Z.of_nat (B * Z.to_nat num)) by (rewrite (bpp level) by lia; fold B; lia).
    rewrite HE, Nat2Z.id in L3. rewrite (bpp level) in Ec by lia. fold B in Ec. rewrite Nat2Z.id in Ec.
    destruct (batched_split B (Z.to_nat num) ep HB L3) as (ls & El & Ll & FF & C). assert (ls = chunks) by congruence. subst ls.
    pose proof (mapM_Ok_length _ _ _ Ep) as Lp.
    assert (HP : mapM encode_prefix prefixes = Ok chunks /\ Forall (fun x => Z.of_nat (length x) = level + 1)%Z prefixes).
    { clear -Em FF Ep R1. revert prefixes Ep. induction FF as [|c l Hc FF IH]; intros prefixes Ep; cbn [mapM] in Ep.
      - injection Ep as <-. easy.
      - apply bind_Ok in Ep. destruct Ep as (x & Hx & Ep). apply bind_Ok in Ep. destruct Ep as (xs & Hxs & Ep). injection Ep as <-.
        destruct (IH xs Hxs) as [I1 I2]. destruct (prefix_roundtrip' level mask c x ltac:(lia) Em Hc Hx) as [X1 X2].
        cbn [mapM]. rewrite X2, I1. split; [easy|]. constructor; [lia|easy]. }
    destruct HP as [HP1 HP2]. change (0 <= level < 2 ^ 16)%Z in R1. change (0 <= num < 2 ^ 32)%Z in R2.
    assert (Lq : length prefixes = Z.to_nat num) by exact (eq_trans Lp Ll).
    assert (Hnum : Z.of_nat (length prefixes) = num) by lia.
    split.
    + repeat apply conj; cbn [fst snd]; try easy; lia.
    + unfold p1_encode_agg_param. rewrite Hnum.
      rewrite (proj2 (Bool.andb_true_iff _ _)) by lia. cbn [check bind].
      rewrite (proj2 (Bool.andb_true_iff _ _)) by lia. cbn [check bind].
      assert (T1 : to_be_bytes level 2 = Ok el) by (rewrite <- L1; apply to_be_from_be).
      assert (T2 : to_be_bytes num 4 = Ok en) by (rewrite <- L2; apply to_be_from_be).
      rewrite T1, T2. cbn [bind].
      rewrite (enc_prefixes _ [] _ HP1). cbn [bind app]. rewrite HE, C, L3, Z.eqb_refl. cbn [check bind]. now rewrite app_nil_r.
Qed.

Lemma decode_agg_param_raises b : is_ok (p1_decode_agg_param b) = true \/ p1_decode_agg_param b = Raise AssertionError \/
  exists m, p1_decode_agg_param b = Raise (ValueError m).
Proof.
  unfold p1_decode_agg_param.
  assert (HFr : forall A n (l : list A), (exists a b, front n l = Ok (a, b) /\ length a = n) \/ front n l = Raise AssertionError).
  { intros A n l. unfold front. destruct (Nat.leb_spec n (length l)); [left|right; easy].
    do 2 eexists. split; [reflexivity|]. rewrite firstn_length. lia. }
  destruct (HFr _ 2 b) as [(el & r1 & -> & L1)| ->]; [|right; left; easy]. cbn [bind].
  destruct (HFr _ 4 r1) as [(en & r2 & -> & L2)| ->]; [|right; left; easy]. cbn [bind].
  pose proof (from_be_bytes_range el) as R1. pose proof (from_be_bytes_range en) as R2.
  set (level := from_be_bytes el) in *. set (num := from_be_bytes en) in *.
  match goal with |- context [front ?n r2] => destruct (HFr _ n r2) as [(ep & r3 & -> & L3)| ->]; [|right; left; easy] end. cbn [bind].
  destruct (last_mask level ltac:(lia)) as (mask & Em & _). rewrite Em. cbn [bind].
  set (B := (Z.to_nat (level + 1) + 7) / 8).
  assert (HB : 0 < B) by (unfold B; apply Nat.div_str_pos; lia).
  assert (HE : (((level + 1) + 7) / 8 * num)%Z = Z.of_nat (B * Z.to_nat num)) by (rewrite (bpp level) by lia; fold B; lia).
  rewrite HE, Nat2Z.id in L3. rewrite (bpp level) by lia. fold B. rewrite Nat2Z.id.
  destruct (batched_split B (Z.to_nat num) ep HB L3) as (ls & El & Ll & FF & C). rewrite El. cbn [bind].
  assert (HP : (exists ps, mapM (decode_prefix level mask) ls = Ok ps) \/ exists m, mapM (decode_prefix level mask) ls = Raise (ValueError m)).
  { clear -FF Em R1. induction FF as [|c l Hc FF IH]; cbn [mapM]; [left; eauto|].
    destruct (decode_prefix_cases level mask c ltac:(lia) Em Hc) as [(x & -> & _)|(m & -> & _)]; [|right; exists m; reflexivity]. cbn [bind].
    destruct IH as [[ps ->]|[m ->]]; [left|right]; cbn [bind]; eexists; reflexivity. }
  destruct HP as [[ps ->]|[m ->]]; [|right; right; exists m; easy]. cbn [bind].
  destruct (length r3 =? 0); [left; easy | right; right; eexists; reflexivity].
Qed.

(** What encode_agg_param does on every parameter. *)
Lemma encode_agg_param_all level (prefixes : list (list bool)) :
  let bytes_of (x : list bool) := (length x + 7) / 8 in
  let encoded := p1_encode_agg_param (level, prefixes) in
  if ((level <? 0) || (65536 <=? level))%Z then encoded = Raise (ValueError "level out of range") else
  if (2 ^ 32 <=? Z.of_nat (length prefixes))%Z then encoded = Raise (ValueError "number of prefixes out of range") else
  if (Z.of_nat (list_sum (map bytes_of prefixes)) =? (level + 8) / 8 * Z.of_nat (length prefixes))%Z
  then exists b, encoded = Ok b else encoded = Raise AssertionError.
Proof.
  intros bytes_of encoded. unfold encoded, p1_encode_agg_param.
  destruct (encode_total prefixes) as (ps & Eps).
  assert (HL : length (concat ps) = list_sum (map bytes_of prefixes)).
  { clear -Eps. revert ps Eps. induction prefixes as [|x prefixes IH]; intros ps E.
    - injection E as <-. reflexivity.
    - cbn [mapM] in E. apply bind_Ok in E as (a & Ea & E). apply bind_Ok in E as (bs & Eb & E). injection E as <-.
      cbn [concat map list_sum fold_right]. rewrite app_length, (IH _ Eb).
      destruct (encode_prefix_spec x) as (p & Ep & Lp & _). rewrite Ep in Ea. injection Ea as <-.
      rewrite Lp. reflexivity. }
  destruct (level <? 0)%Z eqn:L1; [apply Z.ltb_lt in L1|apply Z.ltb_ge in L1].
  { destruct (Z.leb_spec 0 level); [lia|]. reflexivity. }
  destruct (65536 <=? level)%Z eqn:L2; [apply Z.leb_le in L2|apply Z.leb_gt in L2]; cbn [orb].
  { destruct (Z.leb_spec 0 level); [|lia]. destruct (Z.ltb_spec level (2 ^ 16)); [lia|]. reflexivity. }
  destruct (Z.leb_spec 0 level); [|lia]. destruct (Z.ltb_spec level (2 ^ 16)); [|lia]. cbn [andb check bind].
  destruct (Z.leb_spec (2 ^ 32) (Z.of_nat (length prefixes))) as [L3|L3].
  { destruct (Z.leb_spec 0 (Z.of_nat (length prefixes))); [|lia]. destruct (Z.ltb_spec (Z.of_nat (length prefixes)) (2 ^ 32)); [lia|]. reflexivity. }
  destruct (Z.leb_spec 0 (Z.of_nat (length prefixes))); [|lia]. destruct (Z.ltb_spec (Z.of_nat (length prefixes)) (2 ^ 32)); [|lia]. cbn [andb check bind].
  rewrite to_be_bytes_ok by (cbn; lia). rewrite to_be_bytes_ok by (cbn; lia). cbn [bind]. rewrite (enc_prefixes prefixes [] ps Eps). cbn [bind app].
  rewrite HL. replace (level + 1 + 7)%Z with (level + 8)%Z by lia.
  destruct (_ =? _)%Z; [eexists|]; reflexivity.
Qed.
