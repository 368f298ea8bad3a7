(** The codec of IDPF public shares, and argument checking of eval. *)
From Verif Require Import IdpfSpec IdpfFacts ParseFacts FieldFacts PostFacts VdafFacts.
Open Scope nat_scope.

(** pack_bits *)
Definition bits_of_bytes (p : bytes) (i : nat) : bool := Z.testbit (b2z (nth (i / 8) p x00)) (Z.of_nat (i mod 8)).

Lemma pack_bits_spec bits : exists p, pack_bits bits = Ok p /\ length p = (length bits + 7) / 8 /\
  forall k j, k < length p -> j < 8 ->
    Z.testbit (b2z (nth k p x00)) (Z.of_nat j) = nth (8 * k + j) bits false.
Proof.
  unfold pack_bits. set (n := length bits). set (m := (n + 7) / 8).
  assert (Hm : forall i, i < n -> i / 8 < m).
  { intros i Hi. subst m. apply Nat.div_lt_upper_bound; [lia|].
    pose proof (Nat.div_mod (n + 7) 8 ltac:(lia)). pose proof (Nat.mod_upper_bound (n + 7) 8 ltac:(lia)). lia. }
  assert (H : exists buf, for_range 0 n (repeat 0%Z m) (fun buf i =>
      let* bit := get bits i in let* o := get buf (i / 8) in
      set buf (i / 8) (Z.lor o (Z.shiftl (Z.b2z bit) (Z.of_nat (i mod 8))))) = Ok buf /\
    (length buf = m /\ forall k j, k < m -> (0 <= nth k buf 0 < 256)%Z /\
      (j < 8 -> Z.testbit (nth k buf 0%Z) (Z.of_nat j) = if 8 * k + j <? n then nth (8 * k + j) bits false else false))).
  { apply (for_range_inv (fun i buf => length buf = m /\ forall k j, k < m -> (0 <= nth k buf 0 < 256)%Z /\
      (j < 8 -> Z.testbit (nth k buf 0%Z) (Z.of_nat j) = if 8 * k + j <? i then nth (8 * k + j) bits false else false))); [lia| |].
    - split; [apply repeat_length|]. intros k j Hk. rewrite nth_repeat'. rewrite (proj2 (Nat.ltb_lt _ _)) by easy.
      split; [lia|]. intros _. apply Z.bits_0.
    - intros i buf [_ Hi] [Hl HB]. specialize (Hm i Hi).
      rewrite (get_nth bits i false), (get_nth buf (i / 8) 0%Z) by lia. cbn [bind].
      rewrite set_lt by lia. eexists. split; [reflexivity|]. split; [now rewrite length_upd|].
      intros k j Hk. rewrite nth_upd by lia. destruct (HB k j Hk) as [HR HT].
      pose proof (Nat.div_mod i 8 ltac:(lia)) as Hdm. pose proof (Nat.mod_upper_bound i 8 ltac:(lia)) as Hmb.
      destruct (Nat.eqb_spec (i / 8) k) as [Ek|Ek].
      + rewrite Ek. split.
        * split; [apply Z.lor_nonneg; split; [lia|]; apply Z.shiftl_nonneg; destruct (nth i bits false); cbn; lia|].
          assert (Hs : (0 <= Z.shiftl (Z.b2z (nth i bits false)) (Z.of_nat (i mod 8)) < 256)%Z).
          { rewrite Z.shiftl_mul_pow2 by lia. split; [apply Z.mul_nonneg_nonneg; [destruct (nth i bits false); cbn; lia | lia]|].
            assert (2 ^ Z.of_nat (i mod 8) <= 2 ^ 7)%Z by (apply Z.pow_le_mono_r; lia).
            destruct (nth i bits false); cbn [Z.b2z]; lia. }
          destruct (Z.eq_dec (Z.lor (nth k buf 0%Z) (Z.shiftl (Z.b2z (nth i bits false)) (Z.of_nat (i mod 8)))) 0) as [E|E]; [rewrite E; lia|].
          assert (Hnn : (0 <= Z.lor (nth k buf 0%Z) (Z.shiftl (Z.b2z (nth i bits false)) (Z.of_nat (i mod 8))))%Z) by (apply Z.lor_nonneg; lia).
          change 256%Z with (2 ^ 8)%Z. apply Z.log2_lt_pow2; [lia|]. rewrite Z.log2_lor by lia.
          assert (L : forall z, (0 <= z < 256)%Z -> (Z.log2 z < 8)%Z).
          { intros z Hz. destruct (Z.eq_dec z 0) as [->|]; [cbn; lia|]. apply Z.log2_lt_pow2; cbn; lia. }
          apply Z.max_lub_lt; apply L; easy.
        * intros Hj. rewrite Z.lor_spec, HT by easy. rewrite Z.shiftl_spec by lia.
          destruct (Nat.lt_trichotomy j (i mod 8)) as [Hlt|[Heq|Hgt]].
          -- rewrite (Z.testbit_neg_r _ (Z.of_nat j - _)) by lia. rewrite orb_false_r.
             rewrite (proj2 (Nat.ltb_lt _ _)), (proj2 (Nat.ltb_lt _ _)) by lia. reflexivity.
          -- replace (Z.of_nat j - Z.of_nat (i mod 8))%Z with 0%Z by lia. rewrite Z.b2z_bit0.
             replace (8 * k + j) with i by lia. rewrite Nat.ltb_irrefl, (proj2 (Nat.ltb_lt i (S i))) by lia. reflexivity.
          -- replace (Z.testbit (Z.b2z (nth i bits false)) (Z.of_nat j - Z.of_nat (i mod 8))) with false.
             2:{ symmetry. destruct (nth i bits false); cbn [Z.b2z]; [|apply Z.bits_0].
                 apply Z.bits_above_log2; [lia|]; change (Z.log2 1) with 0%Z; lia. }
             rewrite orb_false_r. rewrite !(proj2 (Nat.ltb_ge _ _)) by lia. reflexivity.
      + cbn [andb]. split; [easy|]. intros Hj. rewrite HT by easy.
        assert (8 * k + j <> i).
        { intros Hx. apply Ek. symmetry. apply (Nat.div_unique _ 8 k j); lia. }
        destruct (Nat.ltb_spec (8 * k + j) i), (Nat.ltb_spec (8 * k + j) (S i)); try reflexivity; lia. }
  destruct H as (buf & E & Hl & HB). rewrite E. cbn [bind]. exists (map z2b buf). split; [reflexivity|].
  rewrite map_length. split; [easy|]. intros k j Hk Hj. rewrite (nth_map' _ _ _ 0%Z) by easy.
  destruct (HB k j) as [HR HT]; [lia|]. rewrite b2z_z2b by easy. rewrite HT by easy.
  destruct (Nat.ltb_spec (8 * k + j) n); [reflexivity|]. now rewrite nth_overflow by easy.
Qed.

Lemma get_last_nth {A} (l : list A) d : l <> [] -> get_last l = Ok (nth (length l - 1) l d).
Proof.
  destruct l as [|x l]; [easy|]. intros _. cbn [get_last]. f_equal.
  destruct l as [|y l] using rev_ind; [reflexivity|]. rewrite last_last. cbn [length].
  rewrite app_length. cbn [length]. replace (S (length l + 1) - 1) with (S (length l)) by lia. cbn [nth].
  rewrite app_nth2 by lia. now rewrite Nat.sub_diag.
Qed.

Lemma unpack_bits_iff p n bits : 0 < n -> unpack_bits p n = Ok bits <->
  length p = (n + 7) / 8 /\ length bits = n /\
  forall k j, k < length p -> j < 8 -> Z.testbit (b2z (nth k p x00)) (Z.of_nat j) = nth (8 * k + j) bits false.
Proof.
  intros Hn0. unfold unpack_bits.
  assert (Hm : forall i, i < n -> i / 8 < (n + 7) / 8).
  { intros i Hi. apply Nat.div_lt_upper_bound; [lia|].
    pose proof (Nat.div_mod (n + 7) 8 ltac:(lia)). pose proof (Nat.mod_upper_bound (n + 7) 8 ltac:(lia)). lia. }
  pose proof (Nat.div_mod (n + 7) 8 ltac:(lia)) as Hdm. pose proof (Nat.mod_upper_bound (n + 7) 8 ltac:(lia)) as Hmb.
  assert (HM : length p = (n + 7) / 8 -> mapM (fun i => let* b := get p (i / 8) in
    Ok (negb (Z.land (Z.shiftr (b2z b) (Z.of_nat (i mod 8))) 1 =? 0)%Z)) (range 0 n)
    = Ok (map (bits_of_bytes p) (range 0 n))).
  { intros Hl. apply mapM_map. intros i Hi. apply in_range in Hi. rewrite (get_nth p (i / 8) x00) by (rewrite Hl; apply Hm; lia).
    cbn [bind]. now rewrite shiftr_land_bit by lia. }
  assert (HB : forall k j, k < (n + 7) / 8 -> j < 8 -> 8 * k + j < n -> length p = (n + 7) / 8 ->
     nth (8 * k + j) (map (bits_of_bytes p) (range 0 n)) false = Z.testbit (b2z (nth k p x00)) (Z.of_nat j)).
  { intros k j Hk Hj Hkj Hl. rewrite (nth_map' _ _ _ 0) by (rewrite length_range; lia). rewrite nth_range by lia. cbn [Nat.add].
    unfold bits_of_bytes. rewrite (Nat.mul_comm 8 k), Nat.add_comm, Nat.mod_add, Nat.div_add by lia.
    now rewrite Nat.mod_small, Nat.div_small by lia. }
  split.
  - intros H. apply bind_Ok in H as (cb & Hcb & H). apply bind_Ok in H as (lst & Hlst & H).
    apply bind_Ok in H as (u & Hu & H). injection H as <-. apply check_Ok in Hu. apply andb_prop in Hu as [Hu1 Hu2].
    apply Nat.eqb_eq in Hu1. apply Z.eqb_eq in Hu2. symmetry in Hu1. rewrite (HM Hu1) in Hcb. injection Hcb as <-.
    split; [easy|]. split; [rewrite map_length, length_range; lia|].
    intros k j Hk Hj. destruct (Nat.lt_ge_cases (8 * k + j) n) as [Hlt|Hge].
    + symmetry. apply HB; lia.
    + rewrite (nth_overflow (map _ _)) by (rewrite map_length, length_range; lia).
      assert (Hk' : k = length p - 1) by lia.
      rewrite (get_last_nth p x00) in Hlst by (intros ->; cbn in Hk; lia). injection Hlst as <-. rewrite <- Hk' in Hu2.
      assert (T := Z.shiftr_spec (b2z (nth k p x00)) (Z.of_nat ((n + 7) mod 8 + 1)) (Z.of_nat j - Z.of_nat ((n + 7) mod 8 + 1)) ltac:(lia)).
      rewrite Hu2, Z.bits_0 in T.
      replace (Z.of_nat j - Z.of_nat ((n + 7) mod 8 + 1) + Z.of_nat ((n + 7) mod 8 + 1))%Z with (Z.of_nat j) in T by lia. easy.
  - intros (Hl & Hb & HT). rewrite (HM Hl). cbn [bind].
    assert (Hp : p <> []) by (intros ->; cbn [length] in Hl; lia).
    rewrite (get_last_nth p x00 Hp). cbn [bind]. rewrite (proj2 (Nat.eqb_eq _ _)) by easy.
    assert (Hz : Z.shiftr (b2z (nth (length p - 1) p x00)) (Z.of_nat ((n + 7) mod 8 + 1)) = 0%Z).
    { apply Z.bits_inj'. intros t Ht. rewrite Z.shiftr_spec by easy. rewrite Z.bits_0.
      destruct (Z.lt_ge_cases (t + Z.of_nat ((n + 7) mod 8 + 1)) 8) as [Hlt|Hge]; [|now apply byte_testbit_high].
      rewrite <- (Z2Nat.id (t + _)) by lia. rewrite HT by lia. apply nth_overflow. lia. }
    rewrite Hz. cbn [andb Z.eqb check bind]. f_equal.
    apply (nth_ext' false). { rewrite map_length, length_range. lia. }
    intros t Ht. rewrite map_length, length_range in Ht.
    pose proof (Nat.div_mod t 8 ltac:(lia)) as Hd. rewrite Hd. pose proof (Nat.mod_upper_bound t 8 ltac:(lia)).
    assert (t / 8 < (n + 7) / 8) by (apply Hm; lia).
    rewrite HB by lia. apply HT; lia.
Qed.

Lemma pack_unpack bits : bits <> [] -> exists p, pack_bits bits = Ok p /\ unpack_bits p (length bits) = Ok bits.
Proof.
  intros Hb. destruct (pack_bits_spec bits) as (p & E & Hl & HT). exists p. split; [easy|].
  apply unpack_bits_iff; [destruct bits; cbn; [easy|lia]|]. easy.
Qed.

Lemma unpack_pack p n bits : unpack_bits p n = Ok bits -> length bits = n /\ pack_bits bits = Ok p.
Proof.
  intros H. destruct (Nat.eq_dec n 0) as [->|Hn].
  - cbn in H. destruct p as [|x p]; [discriminate|]. cbn [bind get_last] in H.
    apply bind_Ok in H as (u & Hu & _). apply check_Ok in Hu. apply andb_prop in Hu as [Hu _]. cbn in Hu. discriminate.
  - apply unpack_bits_iff in H as (Hl & Hb & HT); [|lia]. split; [easy|].
    destruct (pack_bits_spec bits) as (q & E & Hq & HQ). rewrite E. f_equal.
    apply (nth_ext' x00); [congruence|]. intros k Hk. apply byte_bits_ext. intros j Hj. rewrite HQ by easy. symmetry. apply HT; [|easy].
    rewrite Hl, <- Hb. lia.
Qed.

Lemma foldM_map_in {A B C} (f : A -> B) (body : C -> B -> res C) l acc :
  foldM body (map f l) acc = foldM (fun a x => body a (f x)) l acc.
Proof. revert acc. induction l as [|x l IH]; intros acc; cbn [map foldM]; [easy|]. apply bind_ext. intros a _. apply IH. Qed.

Section Codec.
Context (i : Idpf).
Notation Pi := (id_field_inner i).
Notation Pl := (id_field_leaf i).
Notation KEY := (id_KEY_SIZE i).
Notation BITS := (id_BITS i).
Notation VLEN := (id_VALUE_LEN i).
Context (HWi : wf_field Pi) (HWl : wf_field Pl) (Hbits : 0 < BITS).

Definition payload_bytes (v : FieldVec Pi Pl) : bytes := match v with Inner l => vec_bytes l | Leaf l => vec_bytes l end.

Lemma fv_encode_inner l : fv_encode Pi (Inner l : FieldVec Pi Pl) = Ok (vec_bytes l).
Proof. unfold fv_encode. cbn [fv_vals]. rewrite foldM_map_in. now apply encode_vec_bytes. Qed.
Lemma fv_encode_leaf l : fv_encode Pl (Leaf l : FieldVec Pi Pl) = Ok (vec_bytes l).
Proof. unfold fv_encode. cbn [fv_vals]. rewrite foldM_map_in. now apply encode_vec_bytes. Qed.

Definition flat (ctrl : list (bool * bool)) : list bool := concat (map (fun c => [fst c; snd c]) ctrl).

Lemma flat_length c : length (flat c) = 2 * length c.
Proof. unfold flat. induction c; cbn [map concat length app] in *; [easy|]. lia. Qed.

Lemma flat_nth c l : l < length c -> nth (2 * l) (flat c) false = fst (nth l c (false, false)) /\
  nth (2 * l + 1) (flat c) false = snd (nth l c (false, false)).
Proof.
  revert l. induction c as [|x c IH]; intros l Hl; cbn [length] in Hl; [lia|].
  destruct l as [|l]; [easy|]. unfold flat. cbn [map concat app nth].
  replace (2 * S l) with (S (S (2 * l))) by lia. cbn [nth Nat.add]. apply IH. lia.
Qed.

Lemma unflat fl n : length fl = 2 * n -> exists c,
  mapM (fun level => let* a := get fl (2 * level) in let* b := get fl (2 * level + 1) in Ok (a, b)) (range 0 n) = Ok c /\
  length c = n /\ flat c = fl.
Proof.
  intros Hl. exists (map (fun l => (nth (2 * l) fl false, nth (2 * l + 1) fl false)) (range 0 n)). split; [|split].
  - apply mapM_map. intros l Hin. apply in_range in Hin. rewrite (get_nth fl (2 * l) false), (get_nth fl (2 * l + 1) false) by lia. reflexivity.
  - rewrite map_length, length_range. lia.
  - set (c := map _ _). assert (Hc : length c = n) by (subst c; rewrite map_length, length_range; lia).
    apply (nth_ext' false); [rewrite flat_length; lia|]. intros t Ht. rewrite flat_length, Hc in Ht.
    pose proof (Nat.div_mod t 2 ltac:(lia)) as Hd. pose proof (Nat.mod_upper_bound t 2 ltac:(lia)).
    assert (Hq : t / 2 < n) by (apply Nat.div_lt_upper_bound; lia).
    destruct (flat_nth c (t / 2) ltac:(lia)) as [F0 F1].
    subst c. rewrite (nth_map' _ _ _ 0) in F0, F1 by (rewrite length_range; lia). rewrite nth_range in F0, F1 by lia. cbn [fst snd Nat.add] in F0, F1.
    assert (t mod 2 = 0 \/ t mod 2 = 1) as [E|E] by lia; rewrite E in Hd.
    + replace t with (2 * (t / 2)) at 1 2 by lia. rewrite Nat.add_0_r in Hd. congruence.
    + replace t with (2 * (t / 2) + 1) by lia. exact F1.
Qed.

Lemma flat_inj c c' : flat c = flat c' -> c = c'.
Proof.
  revert c'. induction c as [|[a b] c IH]; intros [|[a' b'] c']; unfold flat; cbn [map concat app fst snd]; try easy.
  intros H. injection H as -> -> H. f_equal. now apply IH.
Qed.

Lemma encode_public_eq ps : idpf_public_wf i ps -> exists cb,
  pack_bits (flat (map (fun cw => snd (fst cw)) ps)) = Ok cb /\
  idpf_encode_public_share i ps = Ok (cb ++ concat (map (fun cw => fst (fst cw)) ps) ++ concat (map (fun cw => payload_bytes (snd cw)) ps)).
Proof.
  intros [Hl HW]. destruct (pack_bits_spec (flat (map (fun cw => snd (fst cw)) ps))) as (cb & E & _).
  exists cb. split; [easy|].
  destruct (exists_last (l := ps)) as (qs & x & ->); [intros ->; cbn in Hl; lia|].
  rewrite app_length in Hl. cbn [length] in Hl.
  unfold idpf_encode_public_share.
  destruct (qs ++ [x]) as [|first rest] eqn:Eq; [now destruct qs|]. rewrite <- Eq in *.
  unfold flat in E. rewrite E. cbn [bind].
  rewrite !(map_app _ qs [x]). cbn [map]. rewrite removelast_last, last_last.
  assert (Hx : of_level i (length qs) VLEN (snd x)).
  { apply (HW (length qs) x). rewrite nth_error_app2, Nat.sub_diag by lia. reflexivity. }
  assert (G : forall l acc, Forall (fun cw => exists v, snd cw = Inner v) l ->
    foldM (fun encoded payload => let* e := fv_encode Pi payload in Ok (encoded ++ e)) (map (fun cw : CorrectionWord i => snd cw) l) acc
    = Ok (acc ++ concat (map (fun cw : CorrectionWord i => payload_bytes (snd cw)) l))).
  { induction l as [|y l IH]; intros acc HF; cbn [map foldM concat]; [now rewrite app_nil_r|].
    inversion HF as [|? ? [v Ev] HF']; subst. rewrite Ev, fv_encode_inner. cbn [bind payload_bytes].
    rewrite IH by easy. now rewrite app_assoc. }
  rewrite G.
  - cbn [bind]. destruct (snd x) as [v|v] eqn:Ex; cbn [of_level] in Hx; [lia|].
    rewrite fv_encode_leaf. cbn [bind payload_bytes]. rewrite !concat_app. cbn [concat]. rewrite !app_nil_r, !app_assoc. reflexivity.
  - apply Forall_forall. intros y Hy. apply In_nth_error in Hy as [l Hy].
    assert (l < length qs) by (apply nth_error_Some; intros Hn; pose proof (eq_trans (eq_sym Hn) Hy); discriminate).
    destruct (HW l y) as [_ Ho]; [now rewrite nth_error_app1|].
    destruct (snd y) as [v|v]; cbn [of_level] in Ho; [eauto|lia].
Qed.

Definition parse_payload (level : nat) (encoded : bytes) : res (FieldVec Pi Pl * bytes) :=
  if is_inner i level then
    let* (v, b) := (let* (e, b) := front (ENCODED_SIZE Pi * VLEN) encoded in let* v := decode_vec e in Ok (v, b)) in Ok (Inner v, b)
  else
    let* (v, b) := (let* (e, b) := front (ENCODED_SIZE Pl * VLEN) encoded in let* v := decode_vec e in Ok (v, b)) in Ok (Leaf v, b).

Lemma parse_payload_iff level b x r : parse_payload level b = Ok (x, r) <-> of_level i level VLEN x /\ b = payload_bytes x ++ r.
Proof.
  unfold parse_payload, is_inner. destruct (Nat.ltb_spec level (BITS - 1)) as [Hl|Hl]; split.
  - intros H. apply bind_Ok in H as ([v b'] & H & E). injection E as <- <-. apply (front_decode _ _ _ _ HWi) in H. cbn [of_level payload_bytes]. tauto.
  - destruct x as [v|v]; cbn [of_level payload_bytes]; [|lia]. intros [[_ Hv] ->].
    rewrite (proj2 (front_decode VLEN (vec_bytes v ++ r) v r HWi)) by easy. reflexivity.
  - intros H. apply bind_Ok in H as ([v b'] & H & E). injection E as <- <-. apply (front_decode _ _ _ _ HWl) in H. cbn [of_level payload_bytes]. tauto.
  - destruct x as [v|v]; cbn [of_level payload_bytes]; [lia|]. intros [[_ Hv] ->].
    rewrite (proj2 (front_decode VLEN (vec_bytes v ++ r) v r HWl)) by easy. reflexivity.
Qed.

Lemma decode_public_eq b : idpf_decode_public_share i b =
  let* (encoded_ctrl, encoded) := front ((2 * BITS + 7) / 8) b in
  let* flattened_ctrl := unpack_bits encoded_ctrl (2 * BITS) in
  let* ctrl := mapM (fun level =>
    let* a := get flattened_ctrl (2 * level) in
    let* b := get flattened_ctrl (2 * level + 1) in
    Ok (a, b)) (range 0 BITS) in
  let* (seeds, encoded) := for_range 0 BITS ([], encoded) (fun '(seeds, encoded) _ =>
    let* (seed, encoded) := front KEY encoded in
    Ok (seeds ++ [seed], encoded)) in
  let* (payloads, encoded) := for_range 0 BITS ([], encoded) (fun '(xs, b) l => let* (x, b) := parse_payload l b in Ok (xs ++ [x], b)) in
  let* _ := check (length encoded =? 0) (ValueError "trailing bytes") in
  Ok (combine (combine seeds ctrl) payloads).
Proof.
  unfold idpf_decode_public_share. apply bind_ext. intros [ec e] _. apply bind_ext. intros fl _. apply bind_ext. intros ctrl _.
  apply bind_ext. intros [seeds e'] _. f_equal. unfold for_range. apply foldM_ext. intros [xs b'] l _. unfold parse_payload.
  destruct (is_inner i l); rewrite !bind_assoc; apply bind_ext; intros [ep b''] _; rewrite !bind_assoc; apply bind_ext; intros v _; reflexivity.
Qed.

Lemma map_combine_fst {A B} (l : list A) (l' : list B) : length l = length l' -> map fst (combine l l') = l.
Proof. revert l'. induction l as [|x l IH]; intros [|y l']; cbn; try easy. intros H. f_equal. apply IH. lia. Qed.
Lemma map_combine_snd {A B} (l : list A) (l' : list B) : length l = length l' -> map snd (combine l l') = l'.
Proof. revert l'. induction l as [|x l IH]; intros [|y l']; cbn; try easy. intros H. f_equal. apply IH. lia. Qed.
Lemma combine_fst_snd {A B} (l : list (A * B)) : combine (map fst l) (map snd l) = l.
Proof. induction l as [|[a b] l IH]; cbn; congruence. Qed.
Lemma nth_error_combine {A B} (l : list A) (l' : list B) k x y : nth_error (combine l l') k = Some (x, y) ->
  nth_error l k = Some x /\ nth_error l' k = Some y.
Proof.
  revert l' k. induction l as [|a l IH]; intros [|b l'] [|k]; cbn; try easy.
  - intros H. now injection H as -> ->.
  - apply IH.
Qed.

(** C36 *)
Theorem idpf_public_codec : canonical_codec (idpf_public_wf i) (idpf_encode_public_share i) (idpf_decode_public_share i).
Proof.
  split.
  - intros ps Hps. destruct (encode_public_eq ps Hps) as (cb & Hcb & E). eexists. split; [exact E|].
    destruct Hps as [Hl HW].
    set (ctrl := map (fun cw => snd (fst cw)) ps) in *. set (seeds := map (fun cw : CorrectionWord i => fst (fst cw)) ps).
    set (pays := map (fun cw : CorrectionWord i => snd cw) ps).
    assert (Hcl : length ctrl = BITS) by (subst ctrl; now rewrite map_length).
    destruct (pack_bits_spec (flat ctrl)) as (cb' & Ecb & Lcb & _). rewrite Hcb in Ecb. injection Ecb as <-.
    rewrite flat_length, Hcl in Lcb.
    destruct (pack_unpack (flat ctrl)) as (cb' & Ecb & Eun).
    { intros Hf. pose proof (flat_length ctrl) as Hfl. rewrite Hf in Hfl. cbn in Hfl. lia. }
    rewrite Hcb in Ecb. injection Ecb as <-. rewrite flat_length, Hcl in Eun.
    rewrite decode_public_eq. rewrite front_app by easy. cbn [bind]. rewrite Eun. cbn [bind].
    destruct (unflat (flat ctrl) BITS) as (c & Ec & _ & Hc); [rewrite flat_length; lia|]. rewrite Ec. cbn [bind].
    apply flat_inj in Hc. subst c.
    match goal with |- bind ?m _ = _ => assert (Es : m = Ok (seeds, concat (map payload_bytes pays))) end.
    { apply (parse_loop (fun _ b => front KEY b) (fun _ x => length x = KEY) (fun x => x)).
      - intros l b x r. apply front_Ok.
      - split; [subst seeds; now rewrite map_length|]. split.
        + intros l x Hx. subst seeds. rewrite nth_error_map in Hx. destruct (nth_error ps l) eqn:Ex; [|discriminate].
          injection Hx as <-. now apply (HW l).
        + rewrite map_id. subst pays seeds. rewrite map_map. reflexivity. }
    rewrite Es. cbn [bind].
    match goal with |- bind ?m _ = _ => assert (Ep : m = Ok (pays, [])) end.
    { apply (parse_loop parse_payload (fun l x => of_level i l VLEN x) payload_bytes parse_payload_iff).
      split; [subst pays; now rewrite map_length|]. split; [|now rewrite app_nil_r].
      intros l x Hx. subst pays. rewrite nth_error_map in Hx. destruct (nth_error ps l) eqn:Ex; [|discriminate].
      injection Hx as <-. now apply (HW l). }
    rewrite Ep. cbn [bind length Nat.eqb check]. f_equal. subst seeds ctrl pays.
    clear. induction ps as [|[[s c] p] ps IH]; cbn [map combine fst snd]; [reflexivity|]; injection IH as IH; exact (f_equal (fun l => Ok ((s, c, p) :: l)) IH).
  - intros b ps H. rewrite decode_public_eq in H.
    apply bind_Ok in H as ([ec e] & H1 & H). apply front_Ok in H1 as [Hec ->].
    apply bind_Ok in H as (fl & H1 & H). pose proof (unpack_pack _ _ _ H1) as [Hfl Hpk].
    apply bind_Ok in H as (ctrl & H2 & H). destruct (unflat fl BITS Hfl) as (c & Ec & Hcl & Hc). rewrite Ec in H2. injection H2 as ->.
    apply bind_Ok in H as ([seeds e'] & H2 & H).
    apply (parse_loop (fun _ b => front KEY b) (fun _ x => length x = KEY) (fun x => x)) in H2 as (Hsl & HsW & ->).
    2:{ intros. apply front_Ok. }
    apply bind_Ok in H as ([pays e''] & H2 & H).
    apply (parse_loop parse_payload (fun l x => of_level i l VLEN x) payload_bytes parse_payload_iff) in H2 as (Hpl & HpW & ->).
    apply bind_Ok in H as (u & Hu & H). apply check_Ok in Hu. apply Nat.eqb_eq, length_zero_iff_nil in Hu. subst e''.
    injection H as <-.
    assert (Lc : length (combine seeds ctrl) = BITS) by (rewrite combine_length; lia).
    assert (HW : idpf_public_wf i (combine (combine seeds ctrl) pays)).
    { split; [assert (Lp : length (combine (combine seeds ctrl) pays) = BITS) by (rewrite combine_length; lia); exact Lp|]. intros l [[s c'] v] Hx. apply nth_error_combine in Hx as [Hx Hv].
      apply nth_error_combine in Hx as [Hs Hc']. cbn [fst snd]. split; [now apply (HsW l) | now apply HpW]. }
    split; [exact HW|]. destruct (encode_public_eq _ HW) as (cb & Hcb & E). rewrite E. f_equal.
    assert (LL : length (combine seeds ctrl) = length pays) by lia.
    assert (M1 : map (fun cw : CorrectionWord i => fst cw) (combine (combine seeds ctrl) pays) = combine seeds ctrl) by (exact (map_combine_fst _ _ LL)).
    assert (M2 : map (fun cw : CorrectionWord i => snd cw) (combine (combine seeds ctrl) pays) = pays) by (exact (map_combine_snd _ _ LL)).
    rewrite <- (map_map (fun cw : CorrectionWord i => fst cw) (fun c => snd c)), M1 in Hcb.
    rewrite <- (map_map (fun cw : CorrectionWord i => fst cw) (fun c => fst c)), M1.
    rewrite <- (map_map (fun cw : CorrectionWord i => snd cw) payload_bytes), M2.
    change (map (fun c => snd c) (combine seeds ctrl)) with (map snd (combine seeds ctrl)) in Hcb.
    change (map (fun c => fst c) (combine seeds ctrl)) with (map fst (combine seeds ctrl)).
    rewrite map_combine_snd in Hcb by lia. rewrite map_combine_fst by lia.
    rewrite Hc, Hpk in Hcb. injection Hcb as ->. rewrite map_id, app_nil_r. reflexivity.
Qed.
End Codec.

(** C35 *)
Section Args.
Context (i : Idpf).
Notation Pi := (id_field_inner i).
Notation Pl := (id_field_leaf i).
Notation BITS := (id_BITS i).

Lemma eval_independent j ps key level prefixes ctx nonce outs :
  idpf_eval i j ps key level prefixes ctx nonce = Ok outs <->
  j < 2 /\ (0 <= level < Z.of_nat BITS)%Z /\ NoDup prefixes /\
  Forall2 (fun x o => idpf_eval i j ps key level [x] ctx nonce = Ok [o]) prefixes outs.
Proof.
  assert (HF : j < 2 -> (0 <= level < Z.of_nat BITS)%Z -> forall x o,
    idpf_eval i j ps key level [x] ctx nonce = Ok [o] <-> eval_prefix i j ps key level ctx nonce x = Ok o).
  { intros Hj Hl x o. rewrite eval_mapM. unfold id_SHARES. rewrite (proj2 (Nat.ltb_lt _ _)), (proj2 (Z.leb_le _ _)), (proj2 (Z.ltb_lt _ _)) by lia.
    cbn [andb check bind all_unique mem_bits existsb negb mapM].
    destruct (eval_prefix i j ps key level ctx nonce x) as [y|e]; cbn [bind]; split; intros H; try discriminate.
    - now injection H as <-. - now injection H as <-. }
  assert (HM : forall outs, mapM (eval_prefix i j ps key level ctx nonce) prefixes = Ok outs <->
    Forall2 (fun x o => eval_prefix i j ps key level ctx nonce x = Ok o) prefixes outs).
  { induction prefixes as [|x l IH]; intros os; cbn [mapM]; split.
    - intros H. injection H as <-. constructor.
    - intros H. now inversion H.
    - intros H. apply bind_Ok in H as (y & Hy & H). apply bind_Ok in H as (ys & Hys & H). injection H as <-.
      constructor; [easy|]. now apply IH.
    - intros H. inversion H as [|? y ? ys Hy Hys]; subst. rewrite Hy. cbn [bind]. apply IH in Hys. now rewrite Hys. }
  split.
  - intros H. rewrite eval_mapM in H. apply bind_Ok in H as (u & Hu & H). apply check_Ok, Nat.ltb_lt in Hu. unfold id_SHARES in Hu.
    apply bind_Ok in H as (u' & Hu' & H). apply check_Ok, andb_prop in Hu' as [H1 H2]. apply Z.leb_le in H1. apply Z.ltb_lt in H2.
    apply bind_Ok in H as (u'' & Hu'' & H). apply check_Ok, all_unique_NoDup in Hu''.
    split; [easy|]. split; [easy|]. split; [easy|]. apply HM in H.
    clear - H HF Hu H1 H2. induction H; constructor; [|easy]. now apply HF.
  - intros (Hj & Hl & Hd & H). rewrite eval_mapM. unfold id_SHARES.
    rewrite (proj2 (Nat.ltb_lt _ _)), (proj2 (Z.leb_le _ _)), (proj2 (Z.ltb_lt _ _)), (proj2 (all_unique_NoDup _)) by (easy || lia).
    cbn [andb check bind]. apply HM. clear - H HF Hj Hl. induction H; constructor; [|easy]. now apply HF.
Qed.

Context (lim : Z) (HO : IdpfOk i lim).

Lemma eval_args j ps key level prefixes ctx nonce : ctx_ok ctx -> length key = id_KEY_SIZE i -> idpf_public_wf i ps ->
  match idpf_eval i j ps key level prefixes ctx nonce with
  | Ok outs => j < 2 /\ (0 <= level < Z.of_nat BITS)%Z /\ NoDup prefixes /\ Forall (fun x => Z.of_nat (length x) = level + 1)%Z prefixes
  | Raise (ValueError _) => ~ (j < 2 /\ (0 <= level < Z.of_nat BITS)%Z /\ NoDup prefixes /\ Forall (fun x => Z.of_nat (length x) = level + 1)%Z prefixes)
  | Raise e => e = OutOfFuel /\ idpf_ran_out i
  end.
Proof.
  intros Hc Hk [Hl HW]. rewrite eval_mapM. unfold id_SHARES.
  destruct (Nat.ltb_spec j 2) as [Hj|Hj]; cbn [check bind]; [|lia].
  destruct (Z.leb_spec 0 level) as [Hl0|Hl0]; cbn [andb check bind]; [|lia].
  destruct (Z.ltb_spec level (Z.of_nat BITS)) as [Hl1|Hl1]; cbn [check bind]; [|lia].
  destruct (all_unique prefixes) eqn:Eu; cbn [check bind].
  2:{ intros (_ & _ & Hd & _). apply all_unique_NoDup in Hd. congruence. }
  apply all_unique_NoDup in Eu.
  assert (G : forall l, match mapM (eval_prefix i j ps key level ctx nonce) l with
    | Ok outs => Forall (fun x => Z.of_nat (length x) = level + 1)%Z l
    | Raise (ValueError _) => ~ Forall (fun x => Z.of_nat (length x) = level + 1)%Z l
    | Raise e => e = OutOfFuel /\ idpf_ran_out i
    end).
  { induction l as [|x l IH]; cbn [mapM]; [constructor|].
    destruct (Z.eq_dec (Z.of_nat (length x)) (level + 1)) as [Hx|Hx].
    - pose proof (eval_prefix_walk i ctx nonce j ps key (Z.to_nat level) x ltac:(lia)) as HE. rewrite Z2Nat.id in HE by lia. rewrite HE.
      pose proof (walk_post i lim HO ctx nonce j ps key x (S (Z.to_nat level)) Hk Hc ltac:(lia) ltac:(lia)
        (fun l cw _ H => HW l cw H)) as HP.
      destruct (walk i ctx nonce j ps key x (S (Z.to_nat level))) as [[[s c] y]|e]; cbn [post bind] in *.
      + destruct (mapM _ l) as [outs|[]]; cbn [bind]; try easy; try (now constructor).
        intros H. inversion H; subst. contradiction.
      + destruct HP as [-> HP]. easy.
    - unfold eval_prefix at 1. rewrite (proj2 (Z.eqb_neq _ _)) by easy. cbn [check bind]. intros H. inversion H; subst. contradiction. }
  specialize (G prefixes). destruct (mapM _ prefixes) as [outs|[]]; try easy; tauto.
Qed.
End Args.
