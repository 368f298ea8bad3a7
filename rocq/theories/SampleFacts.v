(** Proofs about rejection sampling ([next_vec]). *)
From Coq Require Import Permutation.
From Verif Require Import XofSpec BaseFacts CommonFacts FieldFacts XofFacts.
Open Scope nat_scope.

Lemma bits_of_next P : next_power_of_2 (MODULUS P) = Ok (2 ^ bits_of P)%Z.
Proof.
  pose proof (@MODULUS_pos P). rewrite next_power_of_2_ok by lia. do 2 f_equal.
  unfold bits_of, bit_length, Z.log2_up.
  destruct (Z.compare_spec 1 (MODULUS P)) as [E | E | E]; [rewrite <- E; reflexivity | | lia].
  replace (MODULUS P - 1 =? 0)%Z with false by (symmetry; apply Z.eqb_neq; lia).
  rewrite Z.abs_eq by lia. rewrite <- Z.sub_1_r. pose proof (Z.log2_nonneg (MODULUS P - 1)). lia.
Qed.

Lemma bits_of_nonneg P : (0 <= bits_of P)%Z.
Proof. apply Z.log2_up_nonneg. Qed.

Lemma bits_of_bound P : (MODULUS P <= 2 ^ bits_of P)%Z.
Proof.
  destruct (next_power_of_2_least _ _ (bits_of_next P)) as (_ & _ & H & _). exact H.
Qed.

Lemma land_mask z k : (0 <= k)%Z -> Z.land z (2 ^ k - 1) = (z mod 2 ^ k)%Z.
Proof. intros. rewrite Z.sub_1_r, <- Z.ones_equiv. now apply Z.land_ones. Qed.

Lemma mask_chunk P b : Z.land (from_le_bytes b) (2 ^ bits_of P - 1) = chunk_value P b.
Proof. apply land_mask, bits_of_nonneg. Qed.

Lemma chunk_value_range P b : (0 <= chunk_value P b < 2 ^ bits_of P)%Z.
Proof. apply Z.mod_pos_bound. pose proof (bits_of_nonneg P). lia. Qed.

Section Loop.
Context (X : XofClass) (P : FieldClass).
Notation F := (F P).
Notation loop := (next_vec_loop X P).
Notation m := (2 ^ bits_of P - 1)%Z.

Lemma next_vec_eq st len : next_vec X P st len = loop (loop_bound X) m len st [].
Proof. unfold next_vec. rewrite bits_of_next. reflexivity. Qed.

Lemma loop_step fuel len st (vec : list F) :
  loop fuel m len st vec =
  if length vec <? len then
    match fuel with
    | O => Raise OutOfFuel
    | S fuel' =>
      let* (b, st') := xof_next X st (ENCODED_SIZE P) in
      loop fuel' m len st' (if (chunk_value P b <? MODULUS P)%Z then vec ++ [fof (chunk_value P b)] else vec)
    end
  else Ok (vec, st).
Proof.
  destruct fuel; cbn [next_vec_loop]; [reflexivity |].
  destruct (length vec <? len); [| reflexivity].
  destruct (xof_next X st (ENCODED_SIZE P)) as [[b st'] |]; [| reflexivity]. cbn [bind].
  rewrite mask_chunk. destruct (Z.ltb_spec (chunk_value P b) (MODULUS P)) as [H | H]; [| reflexivity].
  rewrite field_init_ok; [reflexivity |]. pose proof (chunk_value_range P b). lia.
Qed.

Lemma loop_acc fuel len st (vec0 vec : list F) :
  loop fuel m (length vec0 + len) st (vec0 ++ vec)
  = let* (v, st') := loop fuel m len st vec in Ok (vec0 ++ v, st').
Proof.
  revert st vec. induction fuel; intros st vec; rewrite (loop_step _ _ _ (vec0 ++ vec)), (loop_step _ _ _ vec).
  - rewrite app_length. destruct (Nat.ltb_spec (length vec0 + length vec) (length vec0 + len)),
      (Nat.ltb_spec (length vec) len); try lia; reflexivity.
  - rewrite app_length. destruct (Nat.ltb_spec (length vec0 + length vec) (length vec0 + len)),
      (Nat.ltb_spec (length vec) len); try lia; [| reflexivity].
    destruct (xof_next X st (ENCODED_SIZE P)) as [[b st'] |]; [| reflexivity]. cbn [bind].
    rewrite <- IHfuel. destruct (_ <? _)%Z; [| reflexivity]. now rewrite app_assoc.
Qed.

(** One iteration from an empty accumulator. *)
Lemma loop_S fuel len st :
  loop (S fuel) m (S len) st [] =
  let* (b, st') := xof_next X st (ENCODED_SIZE P) in
  if (chunk_value P b <? MODULUS P)%Z
  then let* (v, st'') := loop fuel m len st' [] in Ok (fof (chunk_value P b) :: v, st'')
  else loop fuel m (S len) st' [].
Proof.
  rewrite loop_step. cbn [length]. destruct (Nat.ltb_spec 0 (S len)); [| lia].
  destruct (xof_next X st (ENCODED_SIZE P)) as [[b st'] |]; [| reflexivity]. cbn [bind app].
  destruct (_ <? _)%Z; [| reflexivity].
  apply (loop_acc fuel len st' [fof (chunk_value P b)] []).
Qed.

Lemma loop_0 fuel st : loop fuel m 0 st [] = Ok ([], st).
Proof. rewrite loop_step. reflexivity. Qed.

Lemma loop_fuel0 len st : loop 0 m (S len) st [] = Raise OutOfFuel.
Proof. rewrite loop_step. reflexivity. Qed.

Lemma loop_length fuel len st v st' : loop fuel m len st [] = Ok (v, st') -> length v = len.
Proof.
  revert len st v. induction fuel; intros len st v H.
  - destruct len; [rewrite loop_0 in H | rewrite loop_fuel0 in H]; inversion H. reflexivity.
  - destruct len; [rewrite loop_0 in H; inversion H; reflexivity |].
    rewrite loop_S in H. apply bind_Ok in H as ([b st1] & _ & H). destruct (_ <? _)%Z.
    + apply bind_Ok in H as ([v1 st2] & E & H). injection H as <- ->. cbn. f_equal. eauto.
    + eauto.
Qed.

Lemma loop_mono fuel fuel' len st r : fuel <= fuel' ->
  loop fuel m len st [] = r -> r <> Raise OutOfFuel -> loop fuel' m len st [] = r.
Proof.
  revert fuel' len st r. induction fuel; intros fuel' len st r Hle H Hr.
  - destruct len; [rewrite loop_0 in *; auto | rewrite loop_fuel0 in H; congruence].
  - destruct len; [rewrite loop_0 in *; auto |]. destruct fuel'; [lia |].
    rewrite loop_S in *. destruct (xof_next X st (ENCODED_SIZE P)) as [[b st'] | e]; [| exact H].
    cbn [bind] in *. destruct (_ <? _)%Z.
    + destruct (loop fuel m len st' []) as [[v st2] | e] eqn:E.
      * rewrite (IHfuel fuel' len st' (Ok (v, st2))) by (auto; try lia; discriminate). exact H.
      * cbn [bind] in H. rewrite (IHfuel fuel' len st' (Raise e)) by (auto; try lia; congruence). exact H.
    + apply IHfuel; auto; lia.
Qed.

Lemma loop_split_join f1 f2 a b st v1 st1 v2 st2 :
  loop f1 m a st [] = Ok (v1, st1) -> loop f2 m b st1 [] = Ok (v2, st2) ->
  loop (f1 + f2) m (a + b) st [] = Ok (v1 ++ v2, st2).
Proof.
  revert a st v1. induction f1; intros a st v1 H1 H2.
  - destruct a; [rewrite loop_0 in H1 | rewrite loop_fuel0 in H1]; inversion H1; subst. exact H2.
  - destruct a.
    + rewrite loop_0 in H1. injection H1 as <- <-. cbn [app].
      apply (loop_mono f2); [lia | exact H2 | discriminate].
    + cbn [Nat.add]. rewrite loop_S in *. apply bind_Ok in H1 as ([c st'] & E & H1). rewrite E. cbn [bind].
      destruct (_ <? _)%Z.
      * apply bind_Ok in H1 as ([w st''] & E1 & H1). injection H1 as <- <-.
        rewrite (IHf1 a st' w) by assumption. reflexivity.
      * apply (IHf1 (S a) st' v1 H1 H2).
Qed.

Lemma loop_split f a b st v st2 :
  loop f m (a + b) st [] = Ok (v, st2) ->
  exists st1, loop f m a st [] = Ok (firstn a v, st1) /\ loop f m b st1 [] = Ok (skipn a v, st2).
Proof.
  revert a st v. induction f; intros a st v H.
  - destruct a; cbn [Nat.add] in H; [| rewrite loop_fuel0 in H; discriminate].
    exists st. rewrite loop_0. auto.
  - destruct a; cbn [Nat.add] in H.
    + exists st. rewrite loop_0. auto.
    + rewrite loop_S in *. apply bind_Ok in H as ([c st'] & E & H). rewrite E. cbn [bind].
      destruct (_ <? _)%Z.
      * apply bind_Ok in H as ([w st''] & E1 & H). injection H as <- ->.
        destruct (IHf a st' w E1) as (st1 & Ha & Hb). exists st1. rewrite Ha. cbn [bind firstn skipn].
        split; [reflexivity |]. apply (loop_mono f); [lia | exact Hb | discriminate].
      * destruct (IHf (S a) st' v H) as (st1 & Ha & Hb). exists st1. split; [exact Ha |].
        apply (loop_mono f); [lia | exact Hb | discriminate].
Qed.
End Loop.

(** ** Streams *)
Section Stream.
Context (X : XofClass) (P : FieldClass) (lim : Z) (st : xof_state X) (s : nat -> byte)
  (at_ : nat -> xof_state X) (Hs : streams X lim st s at_).
Notation ES := (ENCODED_SIZE P).

Lemma chunk_shift p k : chunk P s (p + ES) k = chunk P s p (S k).
Proof. unfold chunk. do 2 f_equal. lia. Qed.

Lemma accepted_S p k : accepted P s p (S k) =
  if (chunk P s p 0 <? MODULUS P)%Z then chunk P s p 0 :: accepted P s (p + ES) k else accepted P s (p + ES) k.
Proof.
  unfold accepted. cbn [seq map filter]. rewrite <- seq_shift, map_map.
  rewrite (map_ext (fun x => chunk P s p (S x)) (chunk P s (p + ES))) by (intros; now rewrite chunk_shift).
  reflexivity.
Qed.

Lemma accepted_mono p k k' : k <= k' -> length (accepted P s p k) <= length (accepted P s p k').
Proof.
  intros H. unfold accepted. replace k' with (k + (k' - k)) by lia.
  rewrite seq_app, map_app, filter_app, app_length. lia.
Qed.

Theorem loop_stream fuel len p : (Z.of_nat (p + fuel * ES) < lim)%Z ->
  (len <= length (accepted P s p fuel) ->
   exists k, k <= fuel /\ length (accepted P s p k) = len /\
     (forall j, j < k -> length (accepted P s p j) < len) /\
     next_vec_loop X P fuel (2 ^ bits_of P - 1) len (at_ p) []
     = Ok (map fof (accepted P s p k), at_ (p + k * ES))) /\
  (length (accepted P s p fuel) < len ->
   next_vec_loop X P fuel (2 ^ bits_of P - 1) len (at_ p) [] = Raise OutOfFuel).
Proof.
  revert len p. induction fuel; intros len p Hl.
  - split; intros H.
    + exists 0. cbn in H |- *. destruct len; [| lia]. rewrite Nat.add_0_r.
      repeat split; try lia; reflexivity.
    + destruct len; [lia | apply loop_fuel0].
  - destruct len as [| len].
    { split; intros H; [| lia]. exists 0. rewrite loop_0. cbn. rewrite Nat.add_0_r.
      repeat split; try lia; reflexivity. }
    assert (Hn : xof_next X (at_ p) ES = Ok (stream_bytes s p ES, at_ (p + ES))).
    { apply Hs. lia. }
    assert (Hc : chunk_value P (stream_bytes s p ES) = chunk P s p 0).
    { unfold chunk. do 2 f_equal. lia. }
    rewrite loop_S, Hn. cbn [bind]. rewrite Hc.
    rewrite accepted_S. destruct (chunk P s p 0 <? MODULUS P)%Z eqn:Ec.
    + destruct (IHfuel len (p + ES)) as [I1 I2]; [lia |]. cbn [length]. split; intros H.
      * destruct I1 as (k & Hk & Hlen & Hmin & E); [lia |]. exists (S k). split; [lia |].
        rewrite accepted_S, Ec. cbn [length map]. split; [lia |]. split.
        -- intros j Hj. destruct j; [cbn; lia |]. rewrite accepted_S, Ec. cbn [length].
           specialize (Hmin j). lia.
        -- rewrite E. cbn [bind]. do 3 f_equal. lia.
      * rewrite I2 by lia. reflexivity.
    + destruct (IHfuel (S len) (p + ES)) as [I1 I2]; [lia |]. split; intros H.
      * destruct I1 as (k & Hk & Hlen & Hmin & E); [lia |]. exists (S k). split; [lia |].
        rewrite accepted_S, Ec. split; [lia |]. split.
        -- intros j Hj. destruct j; [cbn; lia |]. rewrite accepted_S, Ec. apply Hmin. lia.
        -- rewrite E. do 3 f_equal. lia.
      * apply I2. exact H.
Qed.

Theorem next_vec_stream len p : (Z.of_nat (p + loop_bound X * ES) < lim)%Z ->
  (len <= length (accepted P s p (loop_bound X)) ->
   exists k, k <= loop_bound X /\ length (accepted P s p k) = len /\
     (forall j, j < k -> length (accepted P s p j) < len) /\
     next_vec X P (at_ p) len = Ok (map fof (accepted P s p k), at_ (p + k * ES))) /\
  (length (accepted P s p (loop_bound X)) < len -> next_vec X P (at_ p) len = Raise OutOfFuel).
Proof. rewrite next_vec_eq. apply loop_stream. Qed.

(** The form used by the protocols: [len] elements or still running. *)
Lemma next_vec_cases len p : (Z.of_nat (p + loop_bound X * ES) < lim)%Z ->
  (exists v k, k <= loop_bound X /\ next_vec X P (at_ p) len = Ok (v, at_ (p + k * ES)) /\ length v = len) \/
  next_vec X P (at_ p) len = Raise OutOfFuel.
Proof.
  intros H. destruct (next_vec_stream len p H) as [A B].
  destruct (Nat.le_gt_cases len (length (accepted P s p (loop_bound X)))) as [C | C]; [| auto].
  left. destruct (A C) as (k & Hk & Hl & _ & E). rewrite E. do 2 eexists. split; [exact Hk |].
  split; [reflexivity |]. now rewrite map_length.
Qed.
End Stream.

Lemma next_vec_len X P st len v st' : next_vec X P st len = Ok (v, st') -> length v = len.
Proof. rewrite next_vec_eq. apply loop_length. Qed.

Lemma expand_len X P seed dst binder len v :
  expand_into_vec X P seed dst binder len = Ok v -> length v = len.
Proof.
  unfold expand_into_vec. intros H. apply bind_Ok in H as (st & _ & H).
  apply bind_Ok in H as ([w st'] & E & H). injection H as <-. now apply next_vec_len in E.
Qed.

Lemma expand_cases X P lim seed dst binder len : XofOk X lim ->
  (Z.of_nat (loop_bound X * ENCODED_SIZE P) < lim)%Z ->
  length seed = SEED_SIZE X -> (Z.of_nat (length dst) < 65536)%Z ->
  (exists v, expand_into_vec X P seed dst binder len = Ok v /\ length v = len) \/
  expand_into_vec X P seed dst binder len = Raise OutOfFuel.
Proof.
  intros HX Hl Hs Hd. unfold expand_into_vec.
  destruct (xo_init X lim HX seed dst binder Hs Hd) as [st E]. rewrite E. cbn [bind].
  destruct (xo_stream X lim HX _ _ _ _ E) as (s & at_ & H).
  pose proof (proj1 H) as H0. rewrite <- H0.
  destruct (next_vec_cases X P lim st s at_ H len 0) as [(v & k & _ & En & Hv) | En]; [exact Hl | |].
  - left. rewrite En. cbn [bind]. eauto.
  - right. rewrite En. reflexivity.
Qed.

Lemma derive_seed_ok X lim seed dst binder : XofOk X lim -> (Z.of_nat (SEED_SIZE X) < lim)%Z ->
  length seed = SEED_SIZE X -> (Z.of_nat (length dst) < 65536)%Z ->
  exists b, derive_seed X seed dst binder = Ok b /\ length b = SEED_SIZE X.
Proof.
  intros HX Hl Hs Hd. unfold derive_seed.
  destruct (xo_init X lim HX seed dst binder Hs Hd) as [st E]. rewrite E. cbn [bind].
  destruct (xo_stream X lim HX _ _ _ _ E) as (s & at_ & H0 & H). rewrite <- H0, H by exact Hl.
  cbn [bind]. eexists. split; [reflexivity |]. apply stream_bytes_length.
Qed.

(** ** Uniformity *)

Lemma enumerates_length {A} (L L' : list A) Q : enumerates L Q -> enumerates L' Q -> length L = length L'.
Proof.
  intros [N1 H1] [N2 H2]. apply Permutation_length. apply NoDup_Permutation; auto.
  intros x. now rewrite H1, H2.
Qed.

(** The byte strings of length [ES] whose chunk value is [x]. *)
Definition preimages (P : FieldClass) (x : Z) : list bytes :=
  map (fun j => le_bytes (ENCODED_SIZE P) (x + Z.of_nat j * 2 ^ bits_of P)%Z)
    (seq 0 (Z.to_nat (2 ^ (8 * Z.of_nat (ENCODED_SIZE P) - bits_of P)))).

Lemma preimages_enum P x : (bits_of P <= 8 * Z.of_nat (ENCODED_SIZE P))%Z ->
  (0 <= x < 2 ^ bits_of P)%Z ->
  enumerates (preimages P x) (fun b => length b = ENCODED_SIZE P /\ chunk_value P b = x).
Proof.
  intros Hb Hx. set (N := (8 * Z.of_nat (ENCODED_SIZE P))%Z). fold N in Hb.
  pose proof (bits_of_nonneg P) as H0.
  assert (HN : (2 ^ N = 2 ^ (N - bits_of P) * 2 ^ bits_of P)%Z) by (rewrite <- Z.pow_add_r by lia; f_equal; lia).
  assert (Hpos : (0 < 2 ^ bits_of P)%Z) by lia.
  assert (Hpos' : (0 < 2 ^ (N - bits_of P))%Z) by (apply Z.pow_pos_nonneg; lia).
  assert (Hrange : forall j, (Z.of_nat j < 2 ^ (N - bits_of P))%Z -> (0 <= x + Z.of_nat j * 2 ^ bits_of P < 2 ^ N)%Z).
  { intros j Hj. rewrite HN. nia. }
  split.
  - unfold preimages. fold N. apply NoDup_map_inj; [| apply seq_NoDup].
    intros a b Ha Hb' E. apply in_seq in Ha. apply in_seq in Hb'.
    apply le_bytes_inj in E; [nia | apply Hrange; lia ..].
  - intros b. unfold preimages. fold N. rewrite in_map_iff. split.
    + intros (j & <- & Hj). apply in_seq in Hj. rewrite le_bytes_length. split; [reflexivity |].
      unfold chunk_value. rewrite from_le_bytes_le_bytes by (apply Hrange; lia).
      rewrite Z.mod_add by lia. apply Z.mod_small. lia.
    + intros [Hl Hc]. pose proof (from_le_bytes_range b) as Hr. rewrite Hl in Hr. fold N in Hr.
      unfold chunk_value in Hc.
      assert (Hq : (0 <= from_le_bytes b / 2 ^ bits_of P < 2 ^ (N - bits_of P))%Z).
      { split; [apply Z.div_pos; lia |]. apply Z.div_lt_upper_bound; lia. }
      exists (Z.to_nat (from_le_bytes b / 2 ^ bits_of P)). split.
      * rewrite Z2Nat.id by lia. rewrite <- Hc, Z.add_comm, Z.mul_comm, <- Z.div_mod by lia.
        rewrite <- Hl. apply le_bytes_from_le_bytes.
      * apply in_seq. lia.
Qed.

Theorem chunk_uniform P x L : (bits_of P <= 8 * Z.of_nat (ENCODED_SIZE P))%Z ->
  (0 <= x < 2 ^ bits_of P)%Z ->
  enumerates L (fun b => length b = ENCODED_SIZE P /\ chunk_value P b = x) ->
  Z.of_nat (length L) = (2 ^ (8 * Z.of_nat (ENCODED_SIZE P) - bits_of P))%Z.
Proof.
  intros Hb Hx HL. rewrite (enumerates_length L (preimages P x) _ HL (preimages_enum P x Hb Hx)).
  unfold preimages. rewrite map_length, seq_length. apply Z2Nat.id.
  apply Z.pow_nonneg. lia.
Qed.

(** All byte strings of length [n]. *)
Definition all_bytes : list byte := map (fun i => z2b (Z.of_nat i)) (seq 0 256).
Fixpoint strings (n : nat) : list bytes :=
  match n with
  | O => [[]]
  | S k => flat_map (fun b => map (cons b) (strings k)) all_bytes
  end.

Lemma all_bytes_enum : enumerates all_bytes (fun _ => True).
Proof.
  split.
  - apply NoDup_map_inj; [| apply seq_NoDup]. intros a b Ha Hb E. apply in_seq in Ha. apply in_seq in Hb.
    apply z2b_inj in E; lia.
  - intros x. split; [auto |]. intros _. apply in_map_iff. exists (Z.to_nat (b2z x)).
    pose proof (b2z_range x). rewrite Z2Nat.id by lia. split; [apply z2b_b2z |]. apply in_seq. lia.
Qed.

Lemma NoDup_flat_map {A B} (f : A -> list B) l : NoDup l -> (forall a, In a l -> NoDup (f a)) ->
  (forall a b x, In a l -> In b l -> In x (f a) -> In x (f b) -> a = b) -> NoDup (flat_map f l).
Proof.
  induction 1 as [| a l Hn Hl IH]; intros Hf Hd; [constructor |]. cbn.
  assert (H1 : NoDup (f a)) by (apply Hf; cbn; auto).
  assert (H2 : NoDup (flat_map f l)).
  { apply IH; intros; [apply Hf; cbn; auto |]. eapply Hd; cbn; eauto. }
  assert (H3 : forall x, In x (f a) -> ~ In x (flat_map f l)).
  { intros x Hx H. apply in_flat_map in H as (b & Hb & Hxb).
    apply Hn. replace a with b; [exact Hb |]. symmetry. eapply Hd; cbn; eauto. }
  revert H1 H3. clear - H2. induction (f a) as [| y k IHk]; intros H1 H3; [exact H2 |]. cbn.
  inversion H1; subst. constructor.
  - rewrite in_app_iff. intros [H | H]; [contradiction |]. apply (H3 y); cbn; auto.
  - apply IHk; [assumption |]. intros x Hx. apply H3. cbn. auto.
Qed.

Lemma strings_enum n : enumerates (strings n) (fun b => length b = n).
Proof.
  induction n as [| n [IHn IHi]]; cbn [strings].
  - split; [repeat constructor; auto |]. intros x. cbn. destruct x; cbn; split; intros; try lia; intuition discriminate.
  - split.
    + apply NoDup_flat_map; [apply all_bytes_enum | |].
      * intros a _. apply NoDup_map_inj; [| exact IHn]. congruence.
      * intros a b x _ _ Ha Hb. apply in_map_iff in Ha as (? & <- & _). apply in_map_iff in Hb as (? & E & _). congruence.
    + intros x. rewrite in_flat_map. split.
      * intros (b & _ & H). apply in_map_iff in H as (y & <- & H). apply IHi in H. cbn. lia.
      * destruct x as [| b x]; cbn; [lia |]. intros H. exists b. split; [now apply all_bytes_enum |].
        apply in_map. apply IHi. lia.
Qed.

(** Strings of [f] blocks. *)
Fixpoint tapes (ES f : nat) : list bytes :=
  match f with
  | O => [[]]
  | S k => flat_map (fun c => map (app c) (tapes ES k)) (strings ES)
  end.

Lemma tapes_enum ES f : enumerates (tapes ES f) (fun b => length b = f * ES).
Proof.
  induction f as [| f [IHn IHi]]; cbn [tapes].
  - split; [repeat constructor; auto |]. intros x. cbn. destruct x; cbn; split; intros; try lia; intuition discriminate.
  - destruct (strings_enum ES) as [Sn Si]. split.
    + apply NoDup_flat_map; [exact Sn | |].
      * intros a _. apply NoDup_map_inj; [| exact IHn]. intros ? ? _ _ E. now apply app_inv_head in E.
      * intros a b x Ha Hb H1 H2. apply in_map_iff in H1 as (? & <- & _). apply in_map_iff in H2 as (? & E & _).
        apply Si in Ha. apply Si in Hb. symmetry. apply app_inj_len in E as [E _]; [exact E | congruence].
    + intros x. rewrite in_flat_map. split.
      * intros (b & Hb & H). apply in_map_iff in H as (y & <- & H). apply IHi in H. apply Si in Hb.
        rewrite app_length. cbn. lia.
      * intros H. cbn in H. exists (firstn ES x). split; [apply Si; rewrite firstn_length; lia |].
        apply in_map_iff. exists (skipn ES x). split; [apply firstn_skipn |]. apply IHi. rewrite skipn_length. lia.
Qed.

Section Uniform.
Context (P : FieldClass).
Notation F := (F P).
Notation ES := (ENCODED_SIZE P).
Notation m := (2 ^ bits_of P - 1)%Z.
Hypothesis Hbits : (bits_of P <= 8 * Z.of_nat ES)%Z.

Fixpoint veqb (a b : list F) : bool :=
  match a, b with
  | [], [] => true
  | x :: a', y :: b' => feqb x y && veqb a' b'
  | _, _ => false
  end.
Lemma veqb_eq a b : veqb a b = true <-> a = b.
Proof.
  revert b. induction a as [| x a IH]; destruct b as [| y b]; cbn; split; try discriminate; auto.
  - intros H. apply andb_prop in H as [H1 H2]. apply feqb_eq in H1. apply IH in H2. congruence.
  - intros H. injection H as -> ->. rewrite feqb_refl. now apply IH.
Qed.

(** Does sampling [length v] elements from the tape give [v]? *)
Definition hits (f : nat) (v : list F) (tape : bytes) : bool :=
  match next_vec_loop (TapeXof f) P f m (length v) tape [] with
  | Ok (w, _) => veqb w v
  | Raise _ => false
  end.

Lemma tape_bound f1 f2 g len tape (vec : list F) :
  next_vec_loop (TapeXof f1) P g m len tape vec = next_vec_loop (TapeXof f2) P g m len tape vec.
Proof.
  revert tape vec. induction g; intros tape vec; [reflexivity |]. cbn [next_vec_loop].
  destruct (length vec <? len); [| reflexivity]. cbn.
  destruct (ES <=? length tape); [| reflexivity]. cbn [bind].
  destruct (_ <? _)%Z; [| apply IHg]. destruct (field_init _); cbn [bind]; [apply IHg | reflexivity].
Qed.

Lemma hits_cons f x v c t : length c = ES ->
  hits (S f) (x :: v) (c ++ t) =
  if (chunk_value P c <? MODULUS P)%Z then feqb (fof (chunk_value P c)) x && hits f v t else hits f (x :: v) t.
Proof.
  intros Hc. unfold hits. cbn [length]. rewrite loop_S. cbn [xof_next TapeXof].
  rewrite app_length, Hc. replace (ES <=? ES + length t) with true by (symmetry; apply Nat.leb_le; lia).
  cbn [bind]. rewrite firstn_app_exact, skipn_app_exact by assumption.
  destruct (_ <? _)%Z.
  - rewrite (tape_bound (S f) f). destruct (next_vec_loop (TapeXof f) P f m (length v) t []) as [[w st] |]; cbn [bind]; [| now rewrite andb_false_r].
    reflexivity.
  - rewrite (tape_bound (S f) f). reflexivity.
Qed.

Definition count {A} (g : A -> bool) (l : list A) : nat := length (filter g l).

Lemma count_flat_map {A B} (f : A -> list B) g l :
  count g (flat_map f l) = list_sum (map (fun a => count g (f a)) l).
Proof.
  induction l; [reflexivity |]. cbn [flat_map map list_sum fold_right]. unfold count in *. rewrite filter_app, app_length, IHl. reflexivity.
Qed.
Lemma count_map {A B} (f : A -> B) g l : count g (map f l) = count (fun a => g (f a)) l.
Proof. unfold count. induction l; [reflexivity |]. cbn. destruct (g (f a)); cbn; auto. Qed.
Lemma count_ext {A} (g h : A -> bool) l : (forall a, In a l -> g a = h a) -> count g l = count h l.
Proof. intros H. unfold count. f_equal. now apply filter_ext_in. Qed.
Lemma count_false {A} (l : list A) : count (fun _ => false) l = 0.
Proof. unfold count. induction l; auto. Qed.
Lemma count_true {A} (l : list A) : count (fun _ => true) l = length l.
Proof. unfold count. induction l; cbn; auto. Qed.

Lemma sum_cases {A} (f : A -> nat) (g h : A -> bool) l a b :
  (forall c, In c l -> f c = (if g c then a else 0) + (if h c then b else 0)) ->
  list_sum (map f l) = count g l * a + count h l * b.
Proof.
  induction l as [| c l IH]; intros H; [reflexivity |]. cbn [map list_sum fold_right].
  fold (list_sum (map f l)). rewrite IH by (intros; apply H; cbn; auto). rewrite (H c) by (cbn; auto).
  unfold count. cbn [filter]. destruct (g c), (h c); cbn [length]; lia.
Qed.

(** Number of tapes of [f] chunks yielding [v]. *)
Definition yield (f : nat) (v : list F) : nat := count (hits f v) (tapes ES f).

Lemma hits_nil f t : hits f [] t = true.
Proof. unfold hits. cbn [length]. now rewrite loop_0. Qed.

Lemma chunk_hits (x : F) : count (fun c => (chunk_value P c <? MODULUS P)%Z && feqb (fof (chunk_value P c)) x) (strings ES)
  = Z.to_nat (2 ^ (8 * Z.of_nat ES - bits_of P)).
Proof.
  unfold count. apply Nat2Z.inj. rewrite Z2Nat.id by (apply Z.pow_nonneg; lia).
  apply (chunk_uniform P (val x)); [exact Hbits | |].
  - pose proof (val_range x). pose proof (bits_of_bound P). lia.
  - destruct (strings_enum ES) as [Sn Si]. split; [now apply NoDup_filter |].
    intros b. rewrite filter_In, Si. split; intros [Hl H]; (split; [exact Hl |]).
    + apply andb_prop in H as [H1 H2]. apply Z.ltb_lt in H1. apply feqb_eq in H2. subst x.
      rewrite val_fof_small; [reflexivity |]. pose proof (chunk_value_range P b). lia.
    + rewrite H, fof_val, feqb_refl. pose proof (val_range x).
      rewrite (proj2 (Z.ltb_lt _ _)) by lia. reflexivity.
Qed.

Lemma yield_S f x v : yield (S f) (x :: v) =
  Z.to_nat (2 ^ (8 * Z.of_nat ES - bits_of P)) * yield f v
  + count (fun c => negb (chunk_value P c <? MODULUS P)%Z) (strings ES) * yield f (x :: v).
Proof.
  unfold yield at 1. cbn [tapes]. rewrite count_flat_map. rewrite <- (chunk_hits x).
  apply sum_cases. intros c Hc. apply (strings_enum ES) in Hc. rewrite count_map.
  rewrite (count_ext _ (fun t => if (chunk_value P c <? MODULUS P)%Z
     then feqb (fof (chunk_value P c)) x && hits f v t else hits f (x :: v) t)) by (intros; now apply hits_cons).
  unfold yield. destruct (_ <? _)%Z; cbn [negb andb]; [| reflexivity].
  destruct (feqb _ x); cbn [andb]; [rewrite Nat.add_0_r; reflexivity | rewrite count_false; reflexivity].
Qed.

Theorem yield_uniform f : forall v w, length v = length w -> yield f v = yield f w.
Proof.
  induction f; intros v w H.
  - destruct v, w; try discriminate; [reflexivity |]. unfold yield. cbn [tapes]. unfold hits, count. cbn [filter length].
    rewrite !loop_fuel0. reflexivity.
  - destruct v as [| x v], w as [| y w]; try discriminate; [reflexivity |].
    injection H as H. rewrite !yield_S. rewrite (IHf v w), (IHf (x :: v) (y :: w)) by (cbn; congruence). reflexivity.
Qed.

Theorem next_vec_uniform f v w L1 L2 : length v = length w ->
  enumerates L1 (fun t => length t = f * ES /\ exists st, next_vec (TapeXof f) P t (length v) = Ok (v, st)) ->
  enumerates L2 (fun t => length t = f * ES /\ exists st, next_vec (TapeXof f) P t (length w) = Ok (w, st)) ->
  length L1 = length L2.
Proof.
  assert (K : forall v L, enumerates L (fun t => length t = f * ES /\ exists st, next_vec (TapeXof f) P t (length v) = Ok (v, st)) ->
     length L = yield f v).
  { clear. intros v L HL. unfold yield, count. eapply enumerates_length; [exact HL |].
    destruct (tapes_enum ES f) as [Tn Ti]. split; [now apply NoDup_filter |].
    intros t. rewrite filter_In, Ti, next_vec_eq. unfold hits. cbn [loop_bound TapeXof].
    split; intros [Hl H]; (split; [exact Hl |]).
    - destruct (next_vec_loop _ _ _ _ _ _ _) as [[u st] |]; [| discriminate]. apply veqb_eq in H as ->. eauto.
    - destruct H as [st H]. rewrite H. now apply veqb_eq. }
  intros Hvw H1 H2. rewrite (K v L1 H1), (K w L2 H2). now apply yield_uniform.
Qed.
End Uniform.
