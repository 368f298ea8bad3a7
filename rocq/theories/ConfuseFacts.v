(** Proofs for C95. *)
From Verif Require Export ConfuseSpec.
From Verif Require Import Prio3Inst Prio3Run Prio3Facts FlpProofs FlpSpec FlpInstances CircuitSpec CircuitFacts CircuitInstances MeasFacts RangeInt
  VecFacts FieldFacts BaseFacts CommonFacts CollectFacts.
Open Scope nat_scope.

(** ** Circuits that check the same thing *)
Definition mix_flp {P : FieldClass} (A B : Flp P) : Flp P := {|
  Measurement := Measurement A; AggResult := AggResult B;
  JOINT_RAND_LEN := JOINT_RAND_LEN B; PROVE_RAND_LEN := PROVE_RAND_LEN B; QUERY_RAND_LEN := QUERY_RAND_LEN B;
  MEAS_LEN := MEAS_LEN B; OUTPUT_LEN := OUTPUT_LEN B; PROOF_LEN := PROOF_LEN B; VERIFIER_LEN := VERIFIER_LEN B;
  flp_encode := flp_encode A;
  flp_prove := flp_prove B; flp_query := flp_query B; flp_decide := flp_decide B;
  flp_truncate := flp_truncate B; flp_decode := flp_decode B |}.
Lemma mix_flp_ok {P : FieldClass} (A B : Flp P) good valid : FlpOk B good valid -> FlpOk (mix_flp A B) good valid.
Proof. intros [X1 X2 X3 X4 X5 X6]. split; assumption. Qed.
Definition with_flp (p : Prio3) (flp : Flp (p3_field p)) : Prio3 := {|
  p3_field := p3_field p; p3_flp := flp; p3_xof := p3_xof p; p3_ID := p3_ID p;
  p3_VERIFY_KEY_SIZE := p3_VERIFY_KEY_SIZE p; p3_SHARES := p3_SHARES p; p3_PROOFS := p3_PROOFS p |}.
Lemma with_flp_ok p flp lim : Prio3Ok p lim -> Prio3Ok (with_flp p flp) lim.
Proof. intros [X1 X2 X3 X4 X5 X6 X7 X8 X9 X10]. split; assumption. Qed.

Lemma mix_shard p (A B : Flp (p3_field p)) :
  JOINT_RAND_LEN A = JOINT_RAND_LEN B -> PROVE_RAND_LEN A = PROVE_RAND_LEN B -> MEAS_LEN A = MEAS_LEN B -> PROOF_LEN A = PROOF_LEN B ->
  flp_prove A = flp_prove B -> p3_shard (with_flp p A) = p3_shard (with_flp p (mix_flp A B)).
Proof. intros H1 H2 H3 H4 H5. destruct A, B. cbn in H1, H2, H3, H4, H5. subst. reflexivity. Qed.
Lemma mix_ran_out p (A B : Flp (p3_field p)) : ran_out (with_flp p (mix_flp A B)) -> ran_out (with_flp p B).
Proof. intros H. exact H. Qed.
Lemma mix_bad p (A B : Flp (p3_field p)) good key ctx nonce :
  bad_query (with_flp p (mix_flp A B)) good key ctx nonce -> bad_query (with_flp p B) good key ctx nonce.
Proof. intros H. exact H. Qed.
Lemma mix_vdaf p (A B : Flp (p3_field p)) :
  with_clients (Prio3Vdaf (with_flp p B)) (Measurement A) (p3_shard (with_flp p (mix_flp A B))) = Prio3Vdaf (with_flp p (mix_flp A B)).
Proof. reflexivity. Qed.

Lemma mix_outcome p (A B : Flp (p3_field p)) lim good valid key ctx (ms : list (Measurement A * bytes * bytes)) outs shard r :
  Prio3Ok p lim -> FlpOk B good valid -> shard = p3_shard (with_flp p (mix_flp A B)) ->
  ctx_ok ctx -> length key = p3_VERIFY_KEY_SIZE p -> sizes_ok (with_flp p B) ms ->
  Forall2 (fun m out => exists meas, flp_encode A (fst (fst m)) = Ok meas /\ length meas = MEAS_LEN B /\
    (forall jr, length jr = JOINT_RAND_LEN B -> valid meas jr) /\ flp_truncate B meas = Ok out /\ length out = OUTPUT_LEN B) ms outs ->
  flp_decode B (vsum (OUTPUT_LEN B) outs) (length ms) = r -> outcome (with_flp p B) good shard key ctx ms r.
Proof.
  intros HO HF -> Hc Hk Hsz H <-. unfold outcome. cbv zeta.
  destruct (run_ok (with_flp p (mix_flp A B)) lim (with_flp_ok _ _ _ HO) good valid (mix_flp_ok _ _ _ _ HF) key ctx ms outs Hc Hk Hsz H)
    as [X|[[X1 X2]|(msg & X1 & m & nonce & rand & I & X2)]].
  - left. exact X.
  - right. left. split; [exact X1 | exact X2].
  - right. right. exists msg. split; [exact X1|]. exists m, nonce, rand. split; [exact I | exact X2].
Qed.

Section Mix.
Context (P : NttFieldClass) (HP : NttOk P) (HW : wf_field P).
Notation F := (F P).
Context (ID : Z) (HID : (0 <= ID < 2 ^ 32)%Z) (ts : TurboShake) (bound shares proofs : nat).
Context (Hs : 2 <= shares < 256) (HsM : (Z.of_nat shares < MODULUS P)%Z) (Hpr : proofs < 256).
Notation obj v := (prio3_obj P ID v ts bound shares proofs).
Context (v v' : Valid P) (HS : same_check v v').

Lemma mix_prove : bbcggi19_prove v = bbcggi19_prove v'.
Proof. destruct HS as [H1 H2 H3 H4 H5 H6]. destruct v, v'. cbn in H1, H2, H3, H4, H5, H6. subst. reflexivity. Qed.
Lemma mix_lens : prove_rand_len v = prove_rand_len v' /\ proof_len v = proof_len v'.
Proof. destruct HS as [H1 H2 H3 H4 H5 H6]. destruct v, v'. cbn in H1, H2, H3, H4, H5, H6. subst. split; reflexivity. Qed.
Lemma mix_accepts meas : accepts v meas -> accepts v' meas.
Proof.
  destruct HS as [H1 H2 H3 H4 H5 H6]. unfold accepts, valid_eval_plain. rewrite H1, H4, H6. intros H. exact H.
Qed.

Context (key ctx : bytes) (Hc : ctx_ok ctx) (Hk : length key = 32).

Theorem confused_ok (ms : list (vMeasurement v * bytes * bytes)) vs r :
  std_circuit P v' -> sizes_ok (obj v') ms ->
  Forall2 (fun m x => exists enc, valid_encode v m = Ok enc /\ length enc = vMEAS_LEN v /\ accepts v enc /\
     valid_truncate v' enc = Ok (map (fun x => fof x : F) x) /\ length x = vOUTPUT_LEN v') (map meas_of ms) vs ->
  valid_decode v' (map (fun x => fof x : F) (col_totals (vOUTPUT_LEN v') vs)) (length ms) = Ok r ->
  outcome (obj v') (test_points_ok v') (p3_shard (obj v)) key ctx ms (Ok r).
Proof.
  intros Hv Hsz HF Hd. destruct (std_ok HP v' Hv) as [V1 V2]. destruct mix_lens as [L1 L2].
  pose proof (mix_outcome (obj v') (FlpBBCGGI19 v) (FlpBBCGGI19 v') (obj_lim P bound) (test_points_ok v') (circuit_zero v') key ctx ms
    (map (map (fun x => fof x : F)) vs) (p3_shard (obj v)) (Ok r) (obj_ok P HW ID HID ts bound shares proofs Hs HsM Hpr v') (flp_ok HP v' V1 V2)
    (mix_shard (obj v') (FlpBBCGGI19 v) (FlpBBCGGI19 v') (sc_joint _ _ HS) L1 (sc_meas _ _ HS) L2 mix_prove) Hc Hk Hsz) as X.
  assert (L : Forall (fun x => length x = vOUTPUT_LEN v') vs).
  { clear -HF. remember (map meas_of ms) as mm. clear Heqmm.
    induction HF as [|a b l l' (enc & _ & _ & _ & _ & Hl) _ IH]; constructor; easy. }
  assert (E : flp_decode (FlpBBCGGI19 v') (vsum (OUTPUT_LEN (FlpBBCGGI19 v')) (map (map (fun x => fof x : F)) vs)) (length ms) = Ok r).
  { change (valid_decode v' (vsum (vOUTPUT_LEN v') (map (map (fun x => fof x : F)) vs)) (length ms) = Ok r).
    rewrite vsum_fof by easy. exact Hd. }
  refine (X _ E). clear X E.
  apply Forall2_maps with (1 := HF). intros m x (enc & E1 & E2 & E3 & E4 & E5). exists enc.
  split; [exact E1|]. split; [exact (eq_trans E2 (sc_meas _ _ HS))|]. split; [exact (mix_accepts enc E3)|]. split; [exact E4|].
  rewrite map_length. exact E5.
Qed.
End Mix.

(** ** Reading bits *)
Section Read.
Context {P : FieldClass}.
Notation F := (F P).

Fixpoint num (e : list F) : Z := match e with [] => 0%Z | x :: e => (val x + 2 * num e)%Z end.
Lemma num_app a b : num (a ++ b) = (num a + 2 ^ Z.of_nat (length a) * num b)%Z.
Proof.
  induction a as [|x a IH]; [cbn [app num length]; change (2 ^ Z.of_nat 0)%Z with 1%Z; lia|]. cbn [app num length]. rewrite IH, Nat2Z.inj_succ, Z.pow_succ_r by lia. ring.
Qed.
Lemma num_zsum e : num e = zsum (length e) (fun l => 2 ^ Z.of_nat l * val (nth l e f0))%Z.
Proof.
  induction e as [|x e IH] using rev_ind; [reflexivity|]. rewrite num_app, app_length, Nat.add_comm. cbn [length Nat.add zsum num].
  rewrite app_nth2, Nat.sub_diag by lia. cbn [nth]. rewrite IH.
  replace (zsum (length e) (fun l => 2 ^ Z.of_nat l * val (nth l (e ++ [x]) f0)))%Z with (zsum (length e) (fun l => 2 ^ Z.of_nat l * val (nth l e f0)))%Z.
  - ring.
  - apply zsum_ext. intros l Hl. now rewrite app_nth1.
Qed.
Lemma full_bits b : 1 <= b -> bit_length (2 ^ Z.of_nat b - 1) = b.
Proof.
  intros H. destruct (bit_length_spec (2 ^ Z.of_nat b - 1)) as (H1 & H2 & _); [pose proof (Z.pow_pos_nonneg 2 (Z.of_nat b)); lia|].
  assert (Hp : (2 <= 2 ^ Z.of_nat b)%Z) by (change 2%Z with (2 ^ 1)%Z at 1; apply Z.pow_le_mono_r; lia).
  set (c := bit_length (2 ^ Z.of_nat b - 1)) in *. specialize (H2 ltac:(lia)).
  destruct (Nat.lt_trichotomy b c) as [L|[L|L]]; [|easy|].
  - assert (2 ^ Z.of_nat b <= 2 ^ (Z.of_nat c - 1))%Z by (apply Z.pow_le_mono_r; lia). lia.
  - assert (2 ^ (Z.of_nat c + 1) <= 2 ^ Z.of_nat b)%Z by (apply Z.pow_le_mono_r; lia). rewrite Z.pow_add_r in H0 by lia. lia.
Qed.
Lemma rc_int_num b (e : list F) : 1 <= b -> length e = b -> rc_int (2 ^ Z.of_nat b - 1) e = num e.
Proof.
  intros Hb L. rewrite num_zsum, L. unfold rc_int. rewrite (full_bits b Hb). apply zsum_ext. intros l Hl. f_equal.
  unfold rc_weight. rewrite (full_bits b Hb). destruct (Nat.ltb_spec (S l) b); [reflexivity|].
  assert (l = b - 1) as -> by lia. replace (2 ^ Z.of_nat b)%Z with (2 * 2 ^ Z.of_nat (b - 1))%Z; [lia|].
  rewrite <- Z.pow_succ_r by lia. f_equal. lia.
Qed.
Lemma num_concat b (es : list (list F)) : Forall (fun e => length e = b) es -> num (concat es) = number b (map num es).
Proof. induction 1 as [|e es He _ IH]; [reflexivity|]. cbn [concat map number fold_right]. rewrite num_app, IH, He. reflexivity. Qed.
Lemma concat_pieces b n (e : list F) : length e = n * b -> concat (map (fun i => piece b i e) (seq 0 n)) = e.
Proof.
  intros L. revert e L. induction n as [|n IH]; intros e L; [destruct e; [reflexivity | discriminate]|].
  cbn [seq map concat]. rewrite <- seq_shift, map_map.
  assert (E : e = firstn b e ++ skipn b e) by (now rewrite firstn_skipn).
  transitivity (firstn b e ++ skipn b e); [|now rewrite firstn_skipn]. f_equal.
  - unfold piece, slice. cbn [Nat.mul Nat.add skipn]. now rewrite Nat.sub_0_r.
  - rewrite <- (IH (skipn b e)); [|rewrite skipn_length; lia]. f_equal. apply map_ext. intros i. unfold piece, slice. rewrite skipn_skipn'. f_equal; [lia|]. f_equal. lia.
Qed.

(** The number that the bits stand for does not depend on how they are cut. *)
Theorem reading_number b n (e : list F) : 1 <= b -> length e = n * b -> number b (reading n (2 ^ Z.of_nat b - 1) e) = num e.
Proof.
  intros Hb L. rewrite <- (concat_pieces b n e L) at 2.
  assert (HF : Forall (fun x => length x = b) (map (fun i => piece b i e) (seq 0 n))).
  { apply Forall_forall. intros x I. apply in_map_iff in I. destruct I as (i & <- & I). apply in_seq in I. apply piece_length with n; [lia | lia]. }
  rewrite (num_concat b _ HF). unfold reading. f_equal. rewrite map_map. apply map_ext_in. intros i I. rewrite (full_bits b Hb).
  apply rc_int_num; [exact Hb|]. apply in_seq in I. apply piece_length with n; [lia | lia].
Qed.
End Read.

(** ** The encodings *)
Section Enc.
Context {P : NttFieldClass} (HP : NttOk P).
Notation F := (F P).

Lemma SumVec_same len max len' max' chunk : len * bit_length max = len' * bit_length max' ->
  same_check (SumVec P len max chunk) (SumVec P len' max' chunk).
Proof.
  intros E. split; cbn [GADGETS GADGET_CALLS vMEAS_LEN vJOINT_RAND_LEN EVAL_OUTPUT_LEN valid_eval SumVec]; unfold SumVec_calls;
    try rewrite E; reflexivity.
Qed.
Lemma Sum_same max max' : bit_length max = bit_length max' -> same_check (Sum P max) (Sum P max').
Proof.
  intros E. split; cbn [GADGETS GADGET_CALLS vMEAS_LEN vJOINT_RAND_LEN EVAL_OUTPUT_LEN valid_eval Sum]; rewrite ?E; reflexivity.
Qed.

Lemma shift_rc max max' x (e : list F) : (0 < max)%Z -> (0 < max')%Z -> bit_length max' = bit_length max -> (0 <= x <= max)%Z ->
  encode_range_checked_int x max = Ok e -> rc_int max' e = shifted max max' x.
Proof.
  intros Hm Hm' Hb Hx E. destruct (encode_rc max x Hm (M1 HP) ltac:(lia)) as (e' & E' & Hl & _ & Hv & _).
  rewrite E in E'. injection E' as <-. specialize (Hv ltac:(lia)).
  destruct (bits_pos max Hm) as (b & B1 & B2).
  assert (D : rc_int max' e = (rc_int max e + (max' - max) * val (nth b e f0))%Z).
  { unfold rc_int. rewrite Hb, B1. cbn [zsum].
    replace (zsum b (fun l => rc_weight max' l * val (nth l e f0))%Z) with (zsum b (fun l => rc_weight max l * val (nth l e f0))%Z).
    - unfold rc_weight. rewrite Hb, B1, Nat.ltb_irrefl. lia.
    - apply zsum_ext. intros l Hl'. unfold rc_weight. rewrite Hb, B1. now rewrite (proj2 (Nat.ltb_lt (S l) (S b))) by lia. }
  rewrite D, Hv. unfold shifted. rewrite B1. replace (S b - 1) with b by lia.
  unfold encode_range_checked_int in E. rewrite B1 in E. destruct (Z.ltb_spec max x); [lia|]. cbn [Nat.eqb] in E. replace (S b - 1) with b in E by lia.
  assert (Hlast : nth b e f0 = if (x <? 2 ^ Z.of_nat b)%Z then f0 else f1).
  { destruct (Z.ltb_spec x (2 ^ Z.of_nat b)), (Z.leb_spec x (2 ^ Z.of_nat b - 1)); try lia; apply bind_Ok in E; destruct E as (l & El & E);
      injection E as <-; apply mapM_Ok_length in El; rewrite length_range in El; rewrite app_nth2 by lia; replace (b - length l) with 0 by lia; reflexivity. }
  rewrite Hlast. destruct (Z.ltb_spec x (2 ^ Z.of_nat b)); [rewrite (val_0 HP) | rewrite (val_1 HP)]; lia.
Qed.

Lemma encode_all len max chunk (m : list Z) : (0 < max)%Z -> length m = len -> Forall (fun x => 0 <= x <= max)%Z m ->
  exists es, valid_encode (SumVec P len max chunk) m = Ok (concat es) /\ length es = len /\
    Forall2 (fun e x => encode_range_checked_int x max = Ok e /\ length e = bit_length max /\ Forall is_bit e /\ rc_int max e = x) es m.
Proof.
  intros Hm L H. cbn [valid_encode SumVec]. rewrite L, Nat.eqb_refl. cbn [negb]. rewrite <- L. clear L.
  change (@nil F) with (@nil F ++ []) at 1 || idtac.
  enough (G : forall acc : list F, exists es, foldM (fun encoded val =>
        if (val <? 0)%Z || (max <? val)%Z
        then Raise (ValueError "entry of measurement vector is out of range")
        else let* e := encode_range_checked_int val max in Ok (encoded ++ e)) m acc = Ok (acc ++ concat es) /\ length es = length m /\
      Forall2 (fun e x => encode_range_checked_int x max = Ok e /\ length e = bit_length max /\ Forall is_bit e /\ rc_int max e = x) es m) by exact (G []).
  induction H as [|x m Hx _ IH]; intros acc.
  - exists []. cbn. rewrite app_nil_r. split; [reflexivity|]. split; [reflexivity | constructor].
  - cbn [foldM]. destruct (Z.ltb_spec x 0); [lia|]. destruct (Z.ltb_spec max x); [lia|]. cbn [orb].
    destruct (encode_rc max x Hm (M1 HP) ltac:(lia)) as (e & E & Hl & Hb & Hv & _). rewrite E. cbn [bind].
    destruct (IH (acc ++ e)) as (es & E1 & Hes & Hf). exists (e :: es). cbn [concat length].
    rewrite E1, app_assoc. split; [reflexivity|]. split; [lia|]. constructor; [|exact Hf].
    split; [exact E|]. split; [exact Hl|]. split; [exact Hb|]. apply Hv. lia.
Qed.
End Enc.
