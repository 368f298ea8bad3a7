(** Soundness over joint and query randomness, for several proofs. *)
From Coq Require Import Znumtheory.
From Verif Require Import Base Common Field FlpBBCGGI19 Spec BaseFacts FieldFacts PolyAlg Counting Roots CircuitSpec FlpSpec FlpProofs
  Circuits MeasFacts CircuitInstances FlpInstances GadgetFacts RangeInt VecFacts FlpFacts SampleFacts Prio3 Prio3Spec Prio3Sound SoundSpec.
Open Scope nat_scope.

Definition sumn (l : list nat) : nat := fold_right Nat.add 0 l.
Definition prodn (B : nat -> nat) (m : nat) : nat := fold_right Nat.mul 1 (map B (seq 0 m)).

Lemma sumn_app a b : sumn (a ++ b) = sumn a + sumn b.
Proof. induction a as [|x a IH]; [easy|]. cbn [app sumn fold_right]. fold (sumn (a ++ b)) (sumn a). lia. Qed.
Lemma sumn_scale {A} (f : A -> nat) c l : sumn (map (fun x => c * f x) l) = c * sumn (map f l).
Proof. induction l as [|x l IH]; [cbn; lia|]. cbn [map sumn fold_right]. fold (sumn (map f l)) (sumn (map (fun x => c * f x) l)). lia. Qed.
Lemma sumn_flat_map {A B} (f : B -> nat) (g : A -> list B) l : sumn (map f (flat_map g l)) = sumn (map (fun x => sumn (map f (g x))) l).
Proof. induction l as [|x l IH]; [easy|]. cbn [flat_map]. rewrite map_app, sumn_app, IH. easy. Qed.
Lemma sumn_ext {A} (f g : A -> nat) l : (forall x, In x l -> f x = g x) -> sumn (map f l) = sumn (map g l).
Proof. intros H. f_equal. now apply map_ext_in. Qed.
Lemma sumn_if {A} (acc : A -> bool) a b l : sumn (map (fun x => if acc x then a else b) l) <= length (filter acc l) * a + length l * b.
Proof.
  induction l as [|x l IH]; [cbn; lia|]. cbn [map sumn fold_right filter length]. fold (sumn (map (fun x => if acc x then a else b) l)).
  destruct (acc x); cbn [length]; nia.
Qed.

Lemma repeat_seq {A} m (x : A) : repeat x m = map (fun _ => x) (seq 0 m).
Proof. generalize 0 as i. induction m as [|m IH]; intros i; cbn [repeat seq map]; [easy | now rewrite <- IH]. Qed.

Lemma NoDup_fvecs {P : FieldClass} n : NoDup (@fvecs P n).
Proof.
  induction n as [|n IH]; cbn [fvecs]; [repeat constructor; easy|].
  apply NoDup_flat_map; [exact IH | |].
  - intros w _. apply NoDup_map_inj; [|apply NoDup_felems]. intros a b _ _ E. now injection E.
  - intros w w' y _ _ Hy Hy'. apply in_map_iff in Hy as (a & <- & _), Hy' as (b & E & _). now injection E.
Qed.

Section Combos.
Context {A : Type} (dec : forall x y : A, {x = y} + {x <> y}).

Lemma combos_prod (f : nat -> list (list A)) B ks : (forall k, In k ks -> length (f k) <= B k) ->
  length (combos (map f ks)) <= fold_right Nat.mul 1 (map B ks).
Proof.
  induction ks as [|k ks IH]; intros H; [cbn; lia|]. cbn [map combos fold_right].
  assert (E : forall (L X : list (list A)), length (flat_map (fun x => map (app x) X) L) = length L * length X).
  { clear. intros L X. induction L as [|x L IH]; [easy|]. cbn [flat_map length]. rewrite app_length, map_length, IH. lia. }
  rewrite E. apply Nat.mul_le_mono; [apply H; now left | apply IH; intros; apply H; now right].
Qed.

Lemma prod_boundv q m B (Q : list (list A)) : NoDup Q -> Forall (fun x => length x = q * m) Q ->
  (forall k Qk, k < m -> NoDup Qk -> (forall y, In y Qk -> exists x, In x Q /\ y = piece q k x) -> length Qk <= B k) ->
  length Q <= prodn B m.
Proof.
  intros HN HL HB.
  pose (L := fun k => nodup (list_eq_dec dec) (map (piece q k) Q)).
  apply Nat.le_trans with (length (combos (map L (seq 0 m)))).
  - apply NoDup_incl_length; [easy|]. intros x Hx.
    assert (E : x = concat (map (fun k => piece q k x) (seq 0 m))).
    { symmetry. apply piece_concat_self. rewrite Forall_forall in HL. now apply HL. }
    rewrite E. apply (combos_in (fun k => piece q k x) L). intros k Hk. unfold L.
    apply nodup_In. now apply in_map.
  - apply combos_prod. intros k Hk. apply in_seq in Hk.
    apply (HB k); [lia | apply NoDup_nodup |]. intros y Hy. apply nodup_In in Hy.
    apply in_map_iff in Hy as (x & <- & Hx). eauto.
Qed.

Lemma piece_app0 j (x y : list A) : length x = j -> piece j 0 (x ++ y) = x.
Proof. intros H. unfold piece, slice. cbn [Nat.mul Nat.add skipn]. rewrite Nat.sub_0_r, firstn_app, <- H, firstn_all, Nat.sub_diag. apply app_nil_r. Qed.
Lemma piece_appS j k (x y : list A) : length x = j -> piece j (S k) (x ++ y) = piece j k y.
Proof.
  intros H. unfold piece, slice. rewrite skipn_app, skipn_all2 by (rewrite H; cbn [Nat.mul]; lia).
  cbn [app]. rewrite H. replace (S k * j - j) with (k * j) by (cbn [Nat.mul]; lia). f_equal. cbn [Nat.mul]. lia.
Qed.

Lemma prodn_S B m : prodn B (S m) = B 0 * prodn (fun k => B (S k)) m.
Proof. unfold prodn. cbn [seq map fold_right]. f_equal. f_equal. rewrite <- seq_shift, map_map. reflexivity. Qed.

Lemma sum_combos j (w : list A -> nat) L m : Forall (fun x => length x = j) L ->
  sumn (map (fun x => prodn (fun k => w (piece j k x)) m) (combos (repeat L m))) = sumn (map w L) ^ m.
Proof.
  intros HL. induction m as [|m IH]; [easy|]. cbn [repeat combos Nat.pow]. rewrite sumn_flat_map.
  transitivity (sumn (map (fun x => sumn (map w L) ^ m * w x) L)); [|rewrite sumn_scale; lia].
  apply sumn_ext. intros x Hx. rewrite Forall_forall in HL. rewrite map_map, <- IH, Nat.mul_comm, <- sumn_scale.
  apply sumn_ext. intros y _. rewrite prodn_S, piece_app0 by now apply HL. f_equal.
  unfold prodn. f_equal. apply map_ext. intros k. now rewrite piece_appS by now apply HL.
Qed.

(** Counting pairs. *)
Lemma pairs_sum {B C} (decB : forall x y : B, {x = y} + {x <> y}) (S : list (B * C)) (w : B -> nat) J : NoDup S ->
  (forall s, In s S -> In (fst s) J) ->
  (forall x Q, NoDup Q -> (forall y, In y Q -> In (x, y) S) -> length Q <= w x) -> length S <= sumn (map w J).
Proof.
  intros HN HJ HW. pose (row x := map snd (filter (fun s => if decB (fst s) x then true else false) S)).
  assert (HR : forall x y, In y (row x) <-> In (x, y) S).
  { intros x y. unfold row. rewrite in_map_iff. split.
    - intros ([a b] & <- & H). apply filter_In in H as [H E]. cbn [fst snd] in *. destruct (decB a x); [now subst | discriminate].
    - intros H. exists (x, y). split; [easy|]. apply filter_In. split; [easy|]. cbn [fst]. now destruct (decB x x). }
  assert (HD : forall x, NoDup (row x)).
  { intros x. unfold row. apply NoDup_map_inj; [|now apply NoDup_filter].
    intros [a b] [c d] Ha Hb E. apply filter_In in Ha as [_ Ha], Hb as [_ Hb]. cbn [fst snd] in *.
    destruct (decB a x), (decB c x); try discriminate. congruence. }
  apply Nat.le_trans with (length (flat_map (fun x => map (pair x) (row x)) J)).
  - apply NoDup_incl_length; [easy|]. intros [x y] H. apply in_flat_map. exists x. split; [exact (HJ _ H)|].
    apply in_map. now apply HR.
  - clear HJ. induction J as [|x J IH]; [easy|]. cbn [flat_map map sumn fold_right]. fold (sumn (map w J)).
    rewrite app_length, map_length. apply Nat.add_le_mono; [|exact IH]. apply HW; [apply HD|]. intros y. apply HR.
Qed.
End Combos.

Section Total.
Context (P : NttFieldClass) (HP : NttOk P) (v : Valid P) (HV : ValidOk v).
Context (X : XofClass) (ID : Z) (vks n m : nat) (Hn : 1 <= n) (HnM : (Z.of_nat n < MODULUS P)%Z).
Notation F := (F P).
Notation M := (MODULUS P).
Notation p := {| p3_field := P; p3_flp := FlpBBCGGI19 v; p3_xof := X; p3_ID := ID;
                 p3_VERIFY_KEY_SIZE := vks; p3_SHARES := n; p3_PROOFS := m |}.
Notation J := (vJOINT_RAND_LEN v).
Notation K := (query_rand_len v).

Definition accb (meas jr : list F) : bool :=
  match valid_eval_plain v meas jr 1 with Ok out => forallb (fun x => feqb x f0) out | Raise _ => false end.

Lemma accb_true meas jr : length jr = J -> accb meas jr = true -> accepts_with v meas jr.
Proof.
  intros L H. unfold accb in H. destruct (valid_eval_plain v meas jr 1) as [out|] eqn:E; [|discriminate].
  split; [exact L|]. exists out. split; [exact E|]. rewrite forallb_forall in H. apply Forall_forall. intros x Hx. now apply feqb_eq, H.
Qed.
Lemma accb_false meas jr out : valid_eval_plain v meas jr 1 = Ok out -> accb meas jr = false -> Exists (fun x => x <> f0) out.
Proof.
  intros E H. unfold accb in H. rewrite E in H. clear E. induction out as [|x out IH]; [discriminate|]. cbn [forallb] in H.
  destruct (feqb x f0) eqn:Ex; [right; now apply IH | left]. intros ->. now rewrite (proj2 (feqb_eq f0 f0) eq_refl) in Ex.
Qed.

Lemma size_pow k : Z.of_nat (@fsize P ^ k) = (M ^ Z.of_nat k)%Z.
Proof. pose proof (prime_ge_2 _ (ntt_prime P HP)). rewrite Nat2Z.inj_pow. unfold fsize. now rewrite Z2Nat.id by lia. Qed.

Theorem total_sound ctx (ms : list (list F)) (ps : list F -> list (list F)) A d (S : list (list F * list F)) :
  vecs n (vMEAS_LEN v) ms -> (forall jr, length jr = J * m -> vecs n (proof_len v * m) (ps jr)) ->
  joint_bound v (vsum (vMEAS_LEN v) ms) A ->
  1 <= d -> query_bound v d ->
  NoDup S ->
  (forall jr qr, In (jr, qr) S -> length jr = J * m /\ length qr = K * m /\
     exists (vss : list (list (list F))) parts msg,
     length vss = n /\
     (forall j, j < n -> proof_verifiers p (nth j ms []) (nth j (ps jr) []) qr jr = Ok (nth j vss [])) /\
     p3_verifier_shares_to_message p ctx tt (map (fun j => (concat (nth j vss []), parts j)) (seq 0 n)) = Ok msg) ->
  (Z.of_nat (length S) <= (A * M ^ Z.of_nat K + M ^ Z.of_nat J * (Z.of_nat d * M ^ (Z.of_nat K - 1))) ^ Z.of_nat m)%Z.
Proof.
  intros Hms Hps HA Hd1 Hd HN HS. pose proof (prime_ge_2 _ (ntt_prime P HP)) as HM2.
  set (meas := vsum (vMEAS_LEN v) ms) in *.
  assert (Lmeas : length meas = vMEAS_LEN v) by apply vsum_length.
  set (D := Z.to_nat (Z.of_nat d * M ^ (Z.of_nat K - 1))).
  assert (HD : Z.of_nat D = (Z.of_nat d * M ^ (Z.of_nat K - 1))%Z).
  { unfold D. apply Z2Nat.id. apply Z.mul_nonneg_nonneg; [lia|]. apply Z.pow_nonneg. lia. }
  pose (w := fun jr => if accb meas jr then @fsize P ^ K else D).
  assert (HL : length S <= sumn (map w (@fvecs P J)) ^ m).
  { rewrite <- (sum_combos J) by (apply Forall_forall; intros x Hx; now apply in_fvecs in Hx).
    apply (pairs_sum (list_eq_dec feq_dec)); [exact HN | |].
    - intros [jr qr] Hin. cbn [fst]. destruct (HS _ _ Hin) as (Lj & _).
      rewrite <- (piece_concat_self J m jr Lj). rewrite (repeat_seq m).
      apply combos_in. intros k Hk. apply in_seq in Hk. apply in_fvecs. apply piece_length with m; [exact Lj | lia].
    - intros jr Q NQ HQ. apply (prod_boundv feq_dec K m); [exact NQ | |].
      + apply Forall_forall. intros qr Hqr. now apply (HS _ _ (HQ _ Hqr)).
      + intros k Qk Hk NQk HQk. unfold w. destruct (accb meas (piece J k jr)) eqn:E.
        * rewrite <- fvecs_length. apply NoDup_incl_length; [exact NQk|]. intros y Hy. apply in_fvecs.
          destruct (HQk y Hy) as (qr & Hqr & ->). apply piece_length with m; [|easy]. now apply (HS _ _ (HQ _ Hqr)).
        * destruct Qk as [|y0 Qk0] eqn:EQ; [cbn; lia|]. rewrite <- EQ in *.
          assert (Lj : length jr = J * m).
          { destruct (HQk y0) as (qr & Hqr & _); [rewrite EQ; now left|]. now apply (HS _ _ (HQ _ Hqr)). }
          assert (Lpj : length (piece J k jr) = J) by now apply piece_length with m.
          apply Nat2Z.inj_le. rewrite HD.
          destruct (plain_run v HV meas (piece J k jr) 1 Lmeas Lpj ltac:(lia) ltac:(lia)) as (out & _ & Eo & _).
          apply (sound_shares HP v HV n ms (map (piece (proof_len v) k) (ps jr)) (piece J k jr) out d Qk); try easy.
          -- destruct (Hps jr Lj) as [L1 L2]. split; [now rewrite map_length|]. apply Forall_forall. intros x Hx'.
             apply in_map_iff in Hx' as (y & <- & Hy). apply piece_length with m; [|easy]. rewrite Forall_forall in L2. now apply L2.
          -- now apply (accb_false meas (piece J k jr)).
          -- intros q Hq. destruct (HQk q Hq) as (qr & Hqr & ->).
             destruct (HS _ _ (HQ _ Hqr)) as (_ & Lq & vss & parts & msg & Lv & Hv & Hm).
             split; [now apply piece_length with m|].
             exact (accept_pieces P HP v HV X ID vks n m Hn HnM ctx ms (ps jr) jr qr vss parts msg k Hms (Hps jr Lj) Lj Lq Lv Hv Hm Hk). }
  pose proof (sumn_if (accb meas) (@fsize P ^ K) D (@fvecs P J)) as HI. fold w in HI.
  assert (HF : (Z.of_nat (length (filter (accb meas) (@fvecs P J))) <= A)%Z).
  { apply HA; [apply NoDup_filter, NoDup_fvecs|]. intros jr Hjr. apply filter_In in Hjr as [H1 H2]. apply in_fvecs in H1. now apply accb_true. }
  apply Nat2Z.inj_le in HL. rewrite Nat2Z.inj_pow in HL. eapply Z.le_trans; [exact HL|].
  apply Z.pow_le_mono_l. split; [lia|]. apply Nat2Z.inj_le in HI. eapply Z.le_trans; [exact HI|].
  rewrite Nat2Z.inj_add, !Nat2Z.inj_mul, HD, size_pow, fvecs_length, size_pow.
  apply Z.add_le_mono; [|lia]. apply Z.mul_le_mono_nonneg_r; [|exact HF]. apply Z.pow_nonneg. lia.
Qed.

(** The fraction of successes is at most ((c + d) / |F|)^m. *)
Theorem total_sound_frac ctx (ms : list (list F)) prover c d (S : list (list F * list F)) :
  vecs n (vMEAS_LEN v) ms -> joint_bound v (vsum (vMEAS_LEN v) ms) (Z.of_nat c * M ^ (Z.of_nat J - 1)) ->
  (J = 0 -> c = 0) -> 1 <= K -> 1 <= d -> query_bound v d ->
  successes v X ID vks n m ctx ms prover S ->
  (Z.of_nat (length S) * M ^ Z.of_nat m <= Z.of_nat (c + d) ^ Z.of_nat m * all_rand v m)%Z.
Proof.
  intros Hms HA HJ HK Hd1 Hd (Hps & HN & HS). pose proof (prime_ge_2 _ (ntt_prime P HP)) as HM2.
  pose proof (total_sound ctx ms prover _ d S Hms Hps HA Hd1 Hd HN HS) as HT.
  assert (E : ((Z.of_nat c * M ^ (Z.of_nat J - 1) * M ^ Z.of_nat K + M ^ Z.of_nat J * (Z.of_nat d * M ^ (Z.of_nat K - 1))) * M
              = Z.of_nat (c + d) * M ^ (Z.of_nat (J + K)))%Z).
  { rewrite Nat2Z.inj_add, (Nat2Z.inj_add J K), Z.pow_add_r by lia.
    assert (EK : (M ^ Z.of_nat K = M * M ^ (Z.of_nat K - 1))%Z) by (rewrite <- Z.pow_succ_r by lia; f_equal; lia).
    destruct (Nat.eq_dec J 0) as [J0|J0].
    - rewrite (HJ J0), J0, EK. cbn [Z.of_nat Z.pow]. ring.
    - assert (EJ : (M ^ Z.of_nat J = M * M ^ (Z.of_nat J - 1))%Z) by (rewrite <- Z.pow_succ_r by lia; f_equal; lia).
      rewrite EK, EJ. ring. }
  unfold all_rand. rewrite Nat2Z.inj_mul, Z.pow_mul_r, <- Z.pow_mul_l, <- E, Z.pow_mul_l by lia.
  apply Z.mul_le_mono_nonneg_r; [apply Z.pow_nonneg; lia | exact HT].
Qed.
End Total.

(** The five circuits. *)
Section Std.
Context (P : NttFieldClass) (HP : NttOk P) (X : XofClass) (ID : Z) (vks n m : nat) (Hn : 1 <= n) (HnM : (Z.of_nat n < MODULUS P)%Z).
Notation F := (F P).
Notation M := (MODULUS P).

Lemma single_bound (v : Valid P) g c : GADGETS v = [g] -> GADGET_CALLS v = [c] -> DEGREE g = 2 -> query_bound v (2 * (wire_poly_len c - 1)).
Proof. intros Eg Ec Ed i Hi. rewrite Eg in *. rewrite Ec. destruct i; cbn [nth length] in *; [|lia]. rewrite Ed. lia. Qed.
Lemma calls_pos c : 1 <= c -> 1 <= 2 * (wire_poly_len c - 1).
Proof. intros H. unfold wire_poly_len. pose proof (np2_spec (1 + c)). lia. Qed.
Lemma div_ceil_pos a b : 1 <= a -> 1 <= b -> 1 <= (a + b - 1) / b.
Proof. intros. apply Nat.div_le_lower_bound; lia. Qed.
Lemma qrl1 (v : Valid P) g : GADGETS v = [g] -> 1 <= query_rand_len v.
Proof. intros E. unfold query_rand_len. rewrite E. cbn [length]. destruct (1 <? _); lia. Qed.

Theorem Count_total ctx (ms : list (list F)) prover S : fits P Mul 1 ->
  vecs n 1 ms -> ~ Forall is_bit (vsum 1 ms) -> successes (Count P) X ID vks n m ctx ms prover S ->
  (Z.of_nat (length S) * M ^ Z.of_nat m <= 2 ^ Z.of_nat m * all_rand (Count P) m)%Z.
Proof.
  intros Hf Hms Hbad HS.
  apply (total_sound_frac P HP (Count P) (Count_ok Hf) X ID vks n m Hn HnM ctx ms prover 0 2 S); try easy; try (cbn; lia).
  - intros Q NQ HQ. destruct Q as [|jr Q]; [cbn; lia|]. exfalso. apply Hbad.
    pose proof (HQ jr (or_introl eq_refl)) as [Lj _].
    apply (proj1 (Count_reject HP (vsum 1 ms) jr (vsum_length _ _) Lj)), HQ. now left.
  - apply (single_bound _ Mul 1); reflexivity.
Qed.

Theorem Sum_total max ctx (ms : list (list F)) prover S :
  (0 < max)%Z -> (2 ^ Z.of_nat (bit_length max) < M)%Z -> fits P (Sum_gadget (bit_length max)) (bit_length max) ->
  vecs n (bit_length max) ms -> ~ Forall is_bit (vsum (bit_length max) ms) -> successes (Sum P max) X ID vks n m ctx ms prover S ->
  (Z.of_nat (length S) * M ^ Z.of_nat m <= Z.of_nat (2 * (wire_poly_len (bit_length max) - 1)) ^ Z.of_nat m * all_rand (Sum P max) m)%Z.
Proof.
  intros Hm1 Hm2 Hf Hms Hbad HS.
  pose proof (Sum_ok HP max Hm1 Hf) as HO.
  destruct (bits_pos max) as (b & Hb & Hb2); [lia|].
  apply (total_sound_frac P HP (Sum P max) HO X ID vks n m Hn HnM ctx ms prover 0 _ S); try easy; try (cbn; lia).
  - intros Q NQ HQ. destruct Q as [|jr Q]; [cbn; lia|]. exfalso. apply Hbad.
    pose proof (HQ jr (or_introl eq_refl)) as [Lj _].
    apply (proj1 (Sum_reject HP max (vsum (bit_length max) ms) jr (vsum_length _ _) Lj)), HQ. now left.
  - apply calls_pos. lia.
  - apply (single_bound _ (Sum_gadget (bit_length max)) (bit_length max)); reflexivity.
Qed.

Theorem Histogram_total len chunk ctx (ms : list (list F)) prover S :
  1 <= len -> 1 <= chunk -> (Z.of_nat len < M)%Z -> fits P (ParallelSum Mul chunk) (Histogram_calls len chunk) ->
  vecs n len ms -> (forall i, i < len -> vsum len ms <> onehot len i) -> successes (Histogram P len chunk) X ID vks n m ctx ms prover S ->
  (Z.of_nat (length S) * M ^ Z.of_nat m
   <= Z.of_nat (chunk + 2 * (wire_poly_len (Histogram_calls len chunk) - 1)) ^ Z.of_nat m * all_rand (Histogram P len chunk) m)%Z.
Proof.
  intros H1 H2 H3 Hf Hms Hbad HS. pose proof (div_ceil_pos len chunk H1 H2) as Hc.
  apply (total_sound_frac P HP (Histogram P len chunk) (Histogram_ok HP len chunk H1 H2 Hf) X ID vks n m Hn HnM ctx ms prover chunk _ S); try easy; try (cbn; lia).
  - intros Q NQ HQ. now apply (Histogram_reject HP len chunk H1 H2 (vsum len ms) Q (vsum_length _ _)).
  - cbn [vJOINT_RAND_LEN Histogram]. unfold Histogram_calls. lia.
  - now apply calls_pos.
  - now apply (single_bound _ (ParallelSum Mul chunk) (Histogram_calls len chunk)).
Qed.

Theorem SumVec_total len max chunk ctx (ms : list (list F)) prover S :
  1 <= len -> 1 <= chunk -> (0 < max)%Z -> (2 ^ Z.of_nat (bit_length max) < M)%Z ->
  fits P (ParallelSum Mul chunk) (SumVec_calls len (bit_length max) chunk) ->
  vecs n (len * bit_length max) ms -> ~ Forall is_bit (vsum (len * bit_length max) ms) ->
  successes (SumVec P len max chunk) X ID vks n m ctx ms prover S ->
  (Z.of_nat (length S) * M ^ Z.of_nat m
   <= Z.of_nat (chunk + 2 * (wire_poly_len (SumVec_calls len (bit_length max) chunk) - 1)) ^ Z.of_nat m * all_rand (SumVec P len max chunk) m)%Z.
Proof.
  intros H1 H2 H3 H4 Hf Hms Hbad HS. destruct (bits_pos max) as (b & Hb & Hb2); [lia|].
  pose proof (div_ceil_pos (len * bit_length max) chunk ltac:(nia) H2) as Hc.
  assert (HO : ValidOk (SumVec P len max chunk)).
  { apply (SumVec_ok HP len max chunk H1); [|exact H2 | exact Hf]. rewrite Hb, Nat2Z.inj_succ, Z.pow_succ_r in H4 by lia. lia. }
  apply (total_sound_frac P HP (SumVec P len max chunk) HO X ID vks n m Hn HnM ctx ms prover chunk _ S); try easy; try (cbn; lia).
  - intros Q NQ HQ. now apply (SumVec_reject HP len max chunk H1 H2 H3 (vsum _ ms) Q (vsum_length _ _)).
  - cbn [vJOINT_RAND_LEN SumVec]. unfold SumVec_calls. lia.
  - now apply calls_pos.
  - now apply (single_bound _ (ParallelSum Mul chunk) (SumVec_calls len (bit_length max) chunk)).
Qed.

Theorem MultihotCountVec_total len mw chunk ctx (ms : list (list F)) prover S :
  1 <= len -> 1 <= mw <= len -> (Z.of_nat len < M)%Z -> 1 <= chunk ->
  fits P (ParallelSum Mul chunk) (Multihot_calls len mw chunk) ->
  let v := MultihotCountVec P len mw chunk in
  vecs n (vMEAS_LEN v) ms -> ~ multihot_valid len mw (vsum (vMEAS_LEN v) ms) ->
  successes v X ID vks n m ctx ms prover S ->
  (Z.of_nat (length S) * M ^ Z.of_nat m
   <= Z.of_nat (chunk + 2 * (wire_poly_len (Multihot_calls len mw chunk) - 1)) ^ Z.of_nat m * all_rand v m)%Z.
Proof.
  intros H1 H2 H3 H4 Hf v Hms Hbad HS.
  pose proof (MultihotCountVec_ok HP len mw chunk H1 ltac:(lia) ltac:(lia) H4 Hf : ValidOk v) as HO.
  assert (Hc : 1 <= Multihot_calls len mw chunk) by (apply div_ceil_pos; lia).
  apply (total_sound_frac P HP v HO X ID vks n m Hn HnM ctx ms prover chunk _ S); try easy; try (cbn; lia).
  - intros Q NQ HQ. apply (MultihotCountVec_reject HP len mw chunk H1 ltac:(lia) H3 ltac:(lia) H4 (vsum _ ms) Q (vsum_length _ _)); easy.
  - now apply calls_pos.
  - now apply (single_bound _ (ParallelSum Mul chunk) (Multihot_calls len mw chunk)).
Qed.
End Std.
