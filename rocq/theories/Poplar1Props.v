(** Poplar1: histories of aggregation parameters, state machine, message codecs
    and aggregation. *)
From Verif Require Export Poplar1Codec Poplar1Sound Poplar1End.
From Verif Require Import IdpfCodec ParseFacts VdafFacts VecFacts Prio3Run.
From Coq Require Import Permutation.
Open Scope nat_scope.

(** * The order on prefixes *)
Lemma bits_ltb_lex x y : bits_ltb x y = true <-> lex_lt x y.
Proof.
  revert y. induction x as [|a x IH]; intros [|b y]; cbn [bits_ltb].
  - split; [easy|]. intros (c & u & v & H1 & H2 & H). destruct c; [|easy]. cbn in H1, H2. subst u v.
    destruct H as [[_ H]|(a' & b' & H & _)]; easy.
  - split; [|easy]. intros _. exists [], [], (b :: y). split; [easy|]. split; [easy|]. now left.
  - split; [easy|]. intros (c & u & v & H1 & H2 & H). destruct c; [|easy]. cbn in H1, H2. subst u v.
    destruct H as [[H _]|(a' & b' & _ & H)]; easy.
  - destruct (Bool.eqb a b) eqn:E.
    + apply Bool.eqb_prop in E. subst b. rewrite IH. split.
      * intros (c & u & v & -> & -> & H). exists (a :: c), u, v. easy.
      * intros (c & u & v & H1 & H2 & H). destruct c as [|c0 c].
        -- cbn in H1, H2. subst u v. destruct H as [[H _]|(a' & b' & Ha & Hb)]; [easy|]. congruence.
        -- cbn in H1, H2. injection H1 as <- ->. injection H2 as ->. exists c, u, v. easy.
    + apply Bool.eqb_false_iff in E. split.
      * intros H. destruct a; [easy|]. destruct b; [|easy]. exists [], (false :: x), (true :: y). split; [easy|]. split; [easy|]. right. eauto.
      * intros (c & u & v & H1 & H2 & H). destruct c as [|c0 c].
        -- cbn in H1, H2. subst u v. destruct H as [[H _]|(a' & b' & Ha & Hb)]; [easy|]. now injection Ha as -> _.
        -- cbn in H1, H2. congruence.
Qed.

Lemma bits_ltb_trans x y z : bits_ltb x y = true -> bits_ltb y z = true -> bits_ltb x z = true.
Proof.
  revert y z. induction x as [|a x IH]; intros [|b y] [|c z]; cbn [bits_ltb]; try easy.
  destruct a, b, c; cbn; try easy; apply IH.
Qed.
Lemma bits_ltb_irrefl x : bits_ltb x x = false.
Proof. induction x as [|a x IH]; cbn [bits_ltb]; [easy|]. now rewrite Bool.eqb_reflx. Qed.

Lemma sorted_check prefixes : exists b,
  for_range 1 (length prefixes) true (fun ok i =>
    let* a := get prefixes (i - 1) in
    let* b := get prefixes i in
    Ok (ok && bits_ltb a b)) = Ok b /\
  (b = true <-> forall i, 1 <= i < length prefixes -> bits_ltb (nth (i - 1) prefixes []) (nth i prefixes []) = true).
Proof.
  destruct (Nat.le_gt_cases 1 (length prefixes)) as [Hl|Hl].
  2:{ exists true. split; [apply for_range_nil; lia|]. split; [intros _ i Hi; lia | easy]. }
  apply (for_range_inv (fun k ok => ok = true <-> forall i, 1 <= i < k -> bits_ltb (nth (i - 1) prefixes []) (nth i prefixes []) = true)); [easy| |].
  - split; [intros _ i Hi; lia | easy].
  - intros i r Hi HI. rewrite !(get_nth prefixes _ []) by lia. cbn [bind]. eexists. split; [reflexivity|].
    rewrite Bool.andb_true_iff, HI. split.
    + intros [H1 H2] k Hk. destruct (Nat.eq_dec k i) as [->|]; [easy|]. apply H1. lia.
    + intros H. split; [intros k Hk; apply H; lia | apply H; lia].
Qed.

Lemma sorted_adjacent prefixes :
  (forall i, 1 <= i < length prefixes -> bits_ltb (nth (i - 1) prefixes []) (nth i prefixes []) = true) <-> sorted_prefixes prefixes.
Proof.
  split.
  - intros H i j [Hij Hj]. apply bits_ltb_lex. induction Hij as [|j Hij IH].
    + specialize (H (S i) ltac:(lia)). now rewrite Nat.sub_succ, Nat.sub_0_r in H.
    + apply (bits_ltb_trans _ (nth j prefixes [])); [apply IH; lia|].
      specialize (H (S j) ltac:(lia)). now rewrite Nat.sub_succ, Nat.sub_0_r in H.
  - intros H i Hi. apply bits_ltb_lex. apply H. lia.
Qed.

Lemma sorted_NoDup prefixes : sorted_prefixes prefixes -> NoDup prefixes.
Proof.
  intros H. apply (NoDup_nth prefixes []). intros i j Hi Hj E.
  destruct (Nat.lt_trichotomy i j) as [L|[L|L]]; [|easy|].
  - pose proof (H i j ltac:(lia)) as X. apply bits_ltb_lex in X. rewrite E, bits_ltb_irrefl in X. discriminate.
  - pose proof (H j i ltac:(lia)) as X. apply bits_ltb_lex in X. rewrite E, bits_ltb_irrefl in X. discriminate.
Qed.

Theorem is_valid_spec ap h : exists b, p1_is_valid ap h = Ok b /\
  ((forall q, In q h -> 0 <= fst q)%Z -> b = true <->
   sorted_prefixes (snd ap) /\ (h = [] \/ may_follow (last h ap) ap)).
Proof.
  destruct ap as [level prefixes]. unfold p1_is_valid. destruct (sorted_check prefixes) as (s & -> & Hs). cbn [bind].
  rewrite sorted_adjacent in Hs. destruct s; cbn [negb].
  2:{ exists false. split; [easy|]. intros _. split; [easy|]. intros [H _]. cbn [snd] in H. now apply Hs in H. }
  pose proof (proj1 Hs eq_refl) as HS. clear Hs.
  destruct h as [|q h'] eqn:Eh.
  { exists true. split; [easy|]. intros _. split; [|easy]. intros _. split; [easy|now left]. }
  rewrite <- Eh in *. assert (Hne : h <> []) by (rewrite Eh; easy).
  replace (length h <? 1) with false by (symmetry; apply Nat.ltb_ge; rewrite Eh; simpl; lia).
  destruct (exists_last Hne) as (h0 & [ll lp] & El). rewrite El. rewrite last_last.
  assert (EG : @get_last Poplar1AggParam (h0 ++ [(ll, lp)]) = Ok (ll, lp)).
  { rewrite (get_last_nth _ (ll, lp)) by (now destruct h0). rewrite app_length, Nat.add_sub. now rewrite app_nth2, Nat.sub_diag by lia. }
  match goal with |- context [bind ?m _] => replace m with (Ok (A := Z * list (list bool)) (ll, lp)) by (symmetry; exact EG) end.
  cbn [bind]. clear EG.
  destruct (Z.leb_spec level ll) as [Hle|Hgt].
  { exists false. split; [easy|]. intros _. split; [easy|]. intros [_ [H|[H _]]]; [now destruct h0|]. cbn [fst] in H. lia. }
  eexists. split; [reflexivity|]. intros Hpos. rewrite forallb_forall.
  assert (Hll : (0 <= ll)%Z) by (apply (Hpos (ll, lp)); apply in_or_app; right; now left).
  assert (EA : forall x, get_ancestor x ll = firstn (Z.to_nat (ll + 1)) x).
  { intros x. unfold get_ancestor, slice_to. now rewrite (proj2 (Z.ltb_ge _ _)) by lia. }
  split.
  - intros H. split; [easy|]. right. split; [easy|]. cbn [fst snd]. intros x Hx. specialize (H x Hx).
    apply mem_bits_In in H. now rewrite EA in H.
  - intros [_ [H|[_ H]]] x Hx; [now destruct h0|]. apply mem_bits_In. rewrite EA. apply H. exact Hx.
Qed.

Theorem history_ok h : valid_history h -> (forall q, In q h -> 0 <= fst q)%Z ->
  (forall i, i < length h -> sorted_prefixes (snd (nth i h (0%Z, [])))) /\
  (forall i j, i < j < length h -> may_follow (nth i h (0%Z, [])) (nth j h (0%Z, []))).
Proof.
  intros HV. induction HV as [|h ap HV IH HI]; intros Hpos.
  { split; intros; simpl in *; lia. }
  assert (Hp' : forall q, In q h -> (0 <= fst q)%Z) by (intros q Hq; apply Hpos, in_or_app; now left).
  destruct (IH Hp') as [I1 I2].
  destruct (is_valid_spec ap h) as (b & Eb & Hb). rewrite Eb in HI. injection HI as ->.
  destruct (proj1 (Hb Hp') eq_refl) as [HS HF]. split.
  - intros i Hi. rewrite app_length in Hi. cbn [length] in Hi. destruct (Nat.eq_dec i (length h)) as [->|].
    + now rewrite app_nth2, Nat.sub_diag by lia.
    + rewrite app_nth1 by lia. apply I1. lia.
  - intros i j [Hij Hj]. rewrite app_length in Hj. cbn [length] in Hj. destruct (Nat.eq_dec j (length h)) as [->|].
    + rewrite app_nth1 by lia. rewrite (app_nth2 h [ap]), Nat.sub_diag by lia. cbn [nth].
      destruct HF as [->|HF]; [simpl in Hij; lia|].
      assert (EL : last h ap = nth (length h - 1) h (0%Z, [])).
      { destruct (exists_last (l := h)) as (h0 & q & ->); [intros ->; simpl in Hij; lia|].
        rewrite last_last, app_length, Nat.add_sub. now rewrite app_nth2, Nat.sub_diag by lia. }
      rewrite EL in HF. destruct (Nat.eq_dec i (length h - 1)) as [->|]; [easy|].
      destruct (I2 i (length h - 1) ltac:(lia)) as [L1 L2]. destruct HF as [L3 L4]. split; [lia|].
      intros x Hx. specialize (L4 x Hx). specialize (L2 _ L4). rewrite firstn_firstn in L2.
      now rewrite Nat.min_l in L2 by lia.
    + rewrite !app_nth1 by lia. apply I2. lia.
Qed.

(** At most one parameter per level. *)
Theorem history_bound h bits : valid_history h -> (forall q, In q h -> 0 <= fst q < Z.of_nat bits)%Z -> length h <= bits.
Proof.
  intros HV Hp. destruct (history_ok h HV) as [_ H]; [intros q Hq; apply Hp in Hq; lia|].
  assert (X : forall i, i < length h -> (Z.of_nat i <= fst (nth i h (0%Z, [])))%Z).
  { induction i as [|i IH]; intros Hi.
    - assert (In (nth 0 h (0%Z, [])) h) as Hin by now apply nth_In. apply Hp in Hin. lia.
    - destruct (H i (S i) ltac:(lia)) as [L _]. specialize (IH ltac:(lia)). lia. }
  destruct (Nat.eq_dec (length h) 0) as [|Hn]; [lia|].
  specialize (X (length h - 1) ltac:(lia)).
  assert (In (nth (length h - 1) h (0%Z, [])) h) as Hin by (apply nth_In; lia). apply Hp in Hin. lia.
Qed.

(** * The state machine *)
Section State.
Context (p : Poplar1).
Notation FVec := (FieldVec (id_field_inner (p1_idpf p)) (id_field_leaf (p1_idpf p))).

Lemma step_distinct : bytes_eqb REVEAL_SKETCH EVALUATE_SKETCH = false.
Proof. reflexivity. Qed.

Notation fv_skip := (fv_skip p).

Theorem next_evaluate ctx lv mem m r : p1_verify_next p ctx (EVALUATE_SKETCH, lv, mem) m = Ok r ->
  exists v sh, m = Some v /\ fv_len v = 3 /\ 3 <= fv_len mem /\ fv_len sh = 1 /\
    r = inl ((REVEAL_SKETCH, lv, fv_skip 3 mem), sh).
Proof.
  unfold p1_verify_next. rewrite bytes_eqb_refl. destruct m as [v|]; [|discriminate].
  intros H. apply bind_Ok in H. destruct H as (? & Hc & H). apply check_Ok, Nat.eqb_eq in Hc.
  apply bind_Ok in H. destruct H as ([z0 t] & _ & H). exists v.
  destruct mem as [l|l]; apply bind_Ok in H; destruct H as ([l' sh] & He & H); injection H as <-;
  unfold evaluate_in in He; destruct l as [|A [|B [|j d]]]; cbn [get nth_error bind] in He; try discriminate;
  injection He as <- <-; cbn [fv_skip skipn]; [exists (Inner [fadd (fadd (fmul j (fof t)) (fmul A (fof z0))) B]) | exists (Leaf [fadd (fadd (fmul j (fof t)) (fmul A (fof z0))) B])];
  repeat apply conj; try easy; cbn [fv_len length]; lia.
Qed.

Theorem next_evaluate_ok ctx lv mem v : fv_len v = 3 -> 3 <= fv_len mem ->
  exists sh, p1_verify_next p ctx (EVALUATE_SKETCH, lv, mem) (Some v) = Ok (inl ((REVEAL_SKETCH, lv, fv_skip 3 mem), sh)).
Proof.
  intros Hv Hm. unfold p1_verify_next. rewrite bytes_eqb_refl, Hv. cbn [Nat.eqb check bind].
  assert (HT : exists z0 t, sketch_terms p v = Ok (z0, t)).
  { destruct v as [l|l]; destruct l as [|a [|b [|c l]]]; cbn [fv_len length] in Hv; try lia; unfold sketch_terms, sketch_terms_in; cbn [get nth_error bind]; eauto. }
  destruct HT as (z0 & t & ->). cbn [bind].
  destruct mem as [l|l]; destruct l as [|A [|B [|j d]]]; cbn [fv_len length] in Hm; try lia;
  unfold evaluate_in; cbn [get nth_error bind skipn fv_skip]; eauto.
Qed.

Theorem next_reveal ctx lv mem m : p1_verify_next p ctx (REVEAL_SKETCH, lv, mem) m =
  match m with None => Ok (inr mem) | Some _ => Raise (ValueError "invalid verifier message") end.
Proof. unfold p1_verify_next. now rewrite step_distinct, bytes_eqb_refl. Qed.

Theorem next_other ctx step lv mem m : step <> EVALUATE_SKETCH -> step <> REVEAL_SKETCH ->
  p1_verify_next p ctx (step, lv, mem) m = Raise (ValueError "invalid verification state").
Proof.
  intros H1 H2. unfold p1_verify_next.
  destruct (bytes_eqb step EVALUATE_SKETCH) eqn:E1; [apply bytes_eqb_eq in E1; contradiction|].
  destruct (bytes_eqb step REVEAL_SKETCH) eqn:E2; [apply bytes_eqb_eq in E2; contradiction|]. easy.
Qed.

Theorem next_none ctx lv mem : p1_verify_next p ctx (EVALUATE_SKETCH, lv, mem) None = Raise (ValueError "expected value, got none").
Proof. unfold p1_verify_next. now rewrite bytes_eqb_refl. Qed.

Theorem next_len ctx lv mem v : fv_len v <> 3 ->
  p1_verify_next p ctx (EVALUATE_SKETCH, lv, mem) (Some v) = Raise (ValueError "incorrect sketch length").
Proof. intros H. unfold p1_verify_next. rewrite bytes_eqb_refl. now rewrite (proj2 (Nat.eqb_neq _ _) H). Qed.

Lemma fv_add_len (a b s : FVec) : fv_add a b = Ok s -> fv_len a = fv_len b /\ fv_len s = fv_len a.
Proof.
  destruct a as [a|a], b as [b|b]; cbn [fv_add fv_as]; intros H; apply bind_Ok in H; destruct H as (v & Hv & H); injection H as <-;
  unfold vec_add in Hv; cbn [fv_len]; rewrite map_length in Hv; destruct (Nat.eqb_spec (length a) (length b)) as [E|E]; try discriminate;
  injection Hv as <-; (split; [easy|]); rewrite zip_with_length, map_length; lia.
Qed.

Theorem shares_to_message ctx ap shs m : p1_verifier_shares_to_message p ctx ap shs = Ok m ->
  exists a b s, shs = [a; b] /\ fv_add a b = Ok s /\ fv_len a = fv_len b /\
   (fv_len a = 3 /\ m = Some s \/ fv_len a = 1 /\ m = None /\ fv_vals s = [0%Z]).
Proof.
  unfold p1_verifier_shares_to_message. intros H. apply bind_Ok in H. destruct H as (? & Hc & H). apply check_Ok, Nat.eqb_eq in Hc.
  destruct shs as [|a [|b [|]]]; try discriminate. clear Hc.
  change (get [a; b] 0) with (Ok a) in H. change (get [a; b] 1) with (Ok b) in H. cbn [bind] in H.
  apply bind_Ok in H. destruct H as (s & Hs & H). destruct (fv_add_len a b s Hs) as [L1 L2].
  exists a, b, s. split; [easy|]. split; [easy|]. split; [easy|].
  destruct (Nat.eqb_spec (fv_len s) 3) as [E|_]; [left; split; [congruence|]; now injection H as <-|].
  destruct (Nat.eqb_spec (fv_len s) 1) as [E|_]; [|discriminate]. right. split; [congruence|].
  assert (Lv : length (fv_vals s) = 1) by (destruct s; cbn [fv_vals fv_len] in *; now rewrite map_length).
  destruct (fv_vals s) as [|z [|]]; try (simpl in Lv; lia). cbn [nth] in H.
  destruct (z =? 0)%Z eqn:Ez; [|discriminate]. apply Z.eqb_eq in Ez. subst z. now injection H as <-.
Qed.

Theorem shares_to_message_errors ctx ap shs e : p1_verifier_shares_to_message p ctx ap shs = Raise e -> exists m, e = ValueError m.
Proof.
  unfold p1_verifier_shares_to_message.
  destruct shs as [|a [|b [|]]]; cbn [length Nat.eqb check bind]; intros H; try (injection H as <-; eauto).
  change (get [a; b] 0) with (Ok a) in H. change (get [a; b] 1) with (Ok b) in H. cbn [bind] in H.
  apply bind_Raise in H. destruct H as [H|(s & _ & H)].
  - destruct a as [a|a]; cbn [fv_add] in H; apply bind_Raise in H; destruct H as [H|(v & _ & H)]; try discriminate;
    unfold vec_add in H; destruct (_ =? _) in H; try discriminate; injection H as <-; eauto.
  - destruct (fv_len s =? 3); [discriminate|]. destruct (fv_len s =? 1); [|injection H as <-; eauto].
    destruct (_ =? 0)%Z in H; [discriminate|]. injection H as <-. eauto.
Qed.

(** The state and the share that verify_init returns. *)
Theorem init_state key ctx j ap nonce ps is st sh : p1_verify_init p key ctx j ap nonce ps is = Ok (st, sh) ->
  exists mem, st = (EVALUATE_SKETCH, fst ap, mem) /\ 3 <= fv_len mem /\ fv_len sh = 3 /\ of_class p (fst ap) mem /\ of_class p (fst ap) sh.
Proof.
  assert (HIn : forall P usage ff AB l n v (seed : bytes) mem s, verify_init_in p P usage ff AB key ctx j l n nonce seed v = Ok (mem, s) ->
     3 <= length mem /\ length s = 3).
  { intros P usage ff AB l n v seed mem s H. destruct (init_key p P usage ff AB ctx j l n nonce seed v) as [[e E]|(A & B & a & b & c & _ & E)].
    - rewrite E in H. discriminate.
    - rewrite E in H. apply bind_Ok in H. destruct H as (r & _ & H). apply bind_Ok in H. destruct H as ([s' o] & Hs & H).
      apply bind_Ok in H. destruct H as (id & _ & H). injection H as <- <-. split; [cbn; lia|].
      unfold sketch_loop in Hs. apply bind_Ok in Hs. destruct Hs as ([[[x y] z] w] & _ & Hs). now injection Hs as <- _. }
  destruct ap as [lv prefixes], is as [[[k seed] ci] cl]. unfold p1_verify_init. intros H.
  apply bind_Ok in H. destruct H as (out & _ & H). cbn [fst]. unfold of_class. destruct (level_is_inner p lv) eqn:El;
  apply bind_Ok in H; destruct H as ([mem s] & Hm & H); injection H as <- <-; apply HIn in Hm;
  eexists; (split; [reflexivity|]); easy.
Qed.

(** Output shares are released only after a three-element sketch and then the
    success message, which the two Aggregators' second-round shares produce only
    when they add up to zero. *)
Theorem release ctx lv mem m1 st1 sh1 m2 o :
  p1_verify_next p ctx (EVALUATE_SKETCH, lv, mem) m1 = Ok (inl (st1, sh1)) ->
  p1_verify_next p ctx st1 m2 = Ok (inr o) -> exists v, m1 = Some v /\ fv_len v = 3 /\ m2 = None /\ o = fv_skip 3 mem.
Proof.
  intros H1 H2. apply next_evaluate in H1. destruct H1 as (v & sh & -> & Lv & _ & _ & E). injection E as -> _.
  rewrite next_reveal in H2. destruct m2; [discriminate|]. injection H2 as <-. eauto.
Qed.
End State.

(** * Message codecs *)
Section Codecs.
Context (p : Poplar1) (HWi : wf_field (id_field_inner (p1_idpf p))) (HWl : wf_field (id_field_leaf (p1_idpf p))).
Notation Pi := (id_field_inner (p1_idpf p)).
Notation Pl := (id_field_leaf (p1_idpf p)).
Notation BITS := (id_BITS (p1_idpf p)).

Theorem p1_input_codec j : canonical_codec (p1_input_share_wf p) (p1_encode_input_share p) (p1_decode_input_share p j).
Proof.
  split.
  - intros [[[key seed] inner] leaf] (L1 & L2 & L3 & L4). unfold p1_encode_input_share, p1_decode_input_share.
    rewrite (encode_vec_bytes inner HWi), (encode_vec_bytes leaf HWl). cbn [bind]. eexists. split; [reflexivity|].
    rewrite front_app by exact L1. cbn [bind]. rewrite front_app by exact L2. cbn [bind].
    rewrite front_app by (rewrite vec_bytes_length by easy; rewrite L3; lia). cbn [bind].
    rewrite (proj2 (decode_vec_bytes _ inner HWi)) by easy. cbn [bind].
    rewrite <- (app_nil_r (vec_bytes leaf)).
    rewrite front_app by (rewrite vec_bytes_length by easy; rewrite L4; lia). cbn [bind].
    rewrite (proj2 (decode_vec_bytes _ leaf HWl)) by easy. easy.
  - intros b [[[key seed] inner] leaf] H. unfold p1_decode_input_share in H.
    apply bind_Ok in H. destruct H as ([k r1] & F1 & H). apply front_Ok in F1. destruct F1 as [L1 ->].
    apply bind_Ok in H. destruct H as ([s r2] & F2 & H). apply front_Ok in F2. destruct F2 as [L2 ->].
    apply bind_Ok in H. destruct H as ([bi r3] & F3 & H). apply front_Ok in F3. destruct F3 as [L3 ->].
    apply bind_Ok in H. destruct H as (vi & D1 & H). apply decode_vec_bytes in D1; [|easy].
    apply bind_Ok in H. destruct H as ([bl r4] & F4 & H). apply front_Ok in F4. destruct F4 as [L4 ->].
    apply bind_Ok in H. destruct H as (vl & D2 & H). apply decode_vec_bytes in D2; [|easy].
    apply bind_Ok in H. destruct H as (? & Hz & H). apply check_Ok, Nat.eqb_eq in Hz. destruct r4; [|discriminate].
    injection H as -> -> -> ->. subst bi bl. rewrite vec_bytes_length in L3 by easy. rewrite vec_bytes_length in L4 by easy.
    split.
    + repeat apply conj; try easy.
      * destruct HWi. apply (Nat.mul_cancel_l _ _ (ENCODED_SIZE Pi)); [lia|]. lia.
      * destruct HWl. apply (Nat.mul_cancel_l _ _ (ENCODED_SIZE Pl)); [lia|]. lia.
    + unfold p1_encode_input_share. rewrite (encode_vec_bytes inner HWi), (encode_vec_bytes leaf HWl). cbn [bind]. now rewrite app_nil_r.
Qed.

Lemma field_vec_codec lv : canonical_codec (of_class p lv) (encode_idpf_field_vec p) (decode_at p lv).
Proof.
  split.
  - intros [v|v] Hc; unfold of_class in Hc; unfold decode_at; rewrite Hc.
    + exists (vec_bytes v). split; [destruct v; [easy|now apply encode_vec_bytes]|].
      now rewrite (proj2 (decode_vec_bytes _ v HWi)) by easy.
    + exists (vec_bytes v). split; [destruct v; [easy|now apply encode_vec_bytes]|].
      now rewrite (proj2 (decode_vec_bytes _ v HWl)) by easy.
  - intros b v H. unfold decode_at in H. destruct (level_is_inner p lv) eqn:El;
    apply bind_Ok in H; destruct H as (w & Hw & H); injection H as <-.
    + apply decode_vec_bytes in Hw; [|easy]. subst b. split; [exact El|]. destruct w; [easy | now apply encode_vec_bytes].
    + apply decode_vec_bytes in Hw; [|easy]. subst b. split; [exact El|]. destruct w; [easy | now apply encode_vec_bytes].
Qed.

Theorem p1_message_codec (st : Poplar1VerifyState p) : canonical_codec
  (fun m => match m with None => True | Some v => of_class p (snd (fst st)) v /\ 0 < fv_len v end)
  (p1_encode_verifier_message p) (p1_decode_verifier_message p st).
Proof.
  destruct (field_vec_codec (snd (fst st))) as [C1 C2]. split.
  - intros [v|] Hv; [|exists []; easy]. destruct Hv as [Hv Hl]. destruct (C1 v Hv) as (b & E1 & E2). exists b. split; [exact E1|].
    unfold p1_decode_verifier_message.
    destruct b as [|x b].
    + exfalso. destruct v as [[|y v]|[|y v]]; cbn [fv_len length] in Hl; try lia; cbn [encode_idpf_field_vec] in E1.
      * rewrite (encode_vec_bytes _ HWi) in E1. injection E1 as E1. pose proof (vec_bytes_length (y :: v) HWi) as L. rewrite E1 in L.
        destruct HWi. cbn [length] in L. lia.
      * rewrite (encode_vec_bytes _ HWl) in E1. injection E1 as E1. pose proof (vec_bytes_length (y :: v) HWl) as L. rewrite E1 in L.
        destruct HWl. cbn [length] in L. lia.
    + cbn [length Nat.eqb]. now rewrite E2.
  - intros b m H. unfold p1_decode_verifier_message in H. destruct b as [|x b].
    + injection H as <-. easy.
    + cbn [length Nat.eqb] in H. apply bind_Ok in H. destruct H as (v & Hv & H). injection H as <-.
      destruct (C2 _ _ Hv) as [W E]. split; [|exact E]. split; [exact W|].
      destruct v as [[|y v]|[|y v]]; cbn [fv_len length]; try lia; discriminate.
Qed.
End Codecs.

(** * Aggregation *)
Section Agg.
Context (p : Poplar1) {P : FieldClass} (inj : list (F P) -> FieldVec (id_field_inner (p1_idpf p)) (id_field_leaf (p1_idpf p))).
Context (V : View p P inj) (ap : Poplar1AggParam).
Notation n := (length (snd ap)).
Context (Hinit : p1_agg_init p ap = Ok (inj (fzeros n))).
Add Ring FringPA : (@F_ring P).

Lemma fsuml_perm1 (l l' : list (F P)) : Permutation l l' -> fsuml l = fsuml l'.
Proof. induction 1; simpl; try congruence. ring. Qed.
Lemma vsum_perm1 k (l l' : list (list (F P))) : Permutation l l' -> vsum k l = vsum k l'.
Proof.
  intros H. apply (vec_eq k); try apply vsum_length. intros i Hi. rewrite !nth_vsum by easy.
  apply fsuml_perm1. now apply Permutation_map.
Qed.
Lemma vec_add_vsum1 k (l : list (list (F P))) o : length o = k -> vec_add (vsum k l) o = Ok (vsum k (l ++ [o])).
Proof.
  intros H. unfold vec_add. rewrite vsum_length, (proj2 (Nat.eqb_eq _ _)) by easy.
  now rewrite vsum_app, vsum_one.
Qed.
Lemma vsum_map_vsum1 k (ll : list (list (list (F P)))) : vsum k (map (vsum k) ll) = vsum k (concat ll).
Proof.
  induction ll as [|l ll IH]; [easy|]. cbn [map concat]. rewrite vsum_cons, vsum_app by apply vsum_length. now rewrite IH.
Qed.

Lemma inj_inj a b : inj a = inj b -> a = b.
Proof. intros H. rewrite <- (vw_as _ _ _ V a), <- (vw_as _ _ _ V b). now rewrite H. Qed.

Lemma merge_vsum (shs : list (list (F P))) : Forall (fun s => length s = n) shs ->
  p1_merge p ap (map inj shs) = Ok (inj (vsum n shs)).
Proof.
  intros HF. unfold p1_merge. rewrite Hinit. cbn [bind].
  replace (inj (fzeros n)) with (inj (vsum n [])) by (rewrite vsum_nil; easy).
  enough (X : forall acc, foldM (fun agg agg_share => fv_add agg agg_share) (map inj shs) (inj (vsum n acc)) = Ok (inj (vsum n (acc ++ shs)))) by exact (X []).
  induction HF as [|s shs Hs HF IH]; intros acc; cbn [map foldM].
  - now rewrite app_nil_r.
  - rewrite (vw_add _ _ _ V), vec_add_vsum1 by easy. cbn [bind]. rewrite IH. now rewrite <- app_assoc.
Qed.

Lemma map_inj_app os o os' : map inj os = os' ++ [o] -> exists v vs, os = vs ++ [v] /\ inj v = o /\ map inj vs = os'.
Proof.
  intros H. destruct os as [|x os] using rev_ind; [now destruct os'|].
  rewrite map_app in H. apply app_inj_tail in H. destruct H as [H1 H2]. exists x, os. easy.
Qed.

Theorem p1_aggregated os a : aggregated (p1_vdaf p) ap os a -> forall vs, os = map inj vs -> Forall (fun v => length v = n) vs ->
  a = inj (vsum n vs).
Proof.
  revert os a.
  apply (aggregated_mind (p1_vdaf p) ap
    (fun os a _ => forall vs, os = map inj vs -> Forall (fun v => length v = n) vs -> a = inj (vsum n vs))
    (fun oss shares _ => forall vss, oss = map (map inj) vss -> Forall (Forall (fun v => length v = n)) vss ->
       shares = map inj (map (vsum n) vss))).
  - intros a e vs Hvs _. change (p1_agg_init p ap = Ok a) in e. rewrite Hinit in e. injection e as <-.
    destruct vs; [|discriminate]. now rewrite vsum_nil.
  - intros os a o a' _ IH e vs Hvs HF. symmetry in Hvs. apply map_inj_app in Hvs. destruct Hvs as (v & ws & -> & Ev & Ews).
    apply Forall_app in HF. destruct HF as [F1 F2]. apply Forall_inv in F2.
    rewrite (IH ws (eq_sym Ews) F1) in e. change (p1_agg_update p ap (inj (vsum n ws)) o = Ok a') in e.
    unfold p1_agg_update in e. rewrite <- Ev in e.
    rewrite (vw_add _ _ _ V), vec_add_vsum1 in e by easy. now injection e as <-.
  - intros oss shares a _ IH e vs Hvs HF.
    assert (HS : exists vss, oss = map (map inj) vss /\ vs = concat vss /\ Forall (Forall (fun v => length v = n)) vss).
    { clear -Hvs HF V. revert vs Hvs HF. induction oss as [|x oss IH]; intros vs Hvs HF.
      - exists []. cbn [concat] in Hvs. destruct vs; [|discriminate]. easy.
      - cbn [concat] in Hvs. symmetry in Hvs. apply map_eq_app in Hvs. destruct Hvs as (v1 & v2 & -> & E1 & E2).
        apply Forall_app in HF. destruct HF as [F1 F2]. destruct (IH v2 (eq_sym E2) F2) as (vss & -> & -> & G).
        exists (v1 :: vss). cbn [map concat]. split; [f_equal; now symmetry|]. split; [easy|]. now constructor. }
    destruct HS as (vss & -> & -> & G). rewrite (IH vss eq_refl G) in e.
    change (p1_merge p ap (map inj (map (vsum n) vss)) = Ok a) in e. rewrite merge_vsum in e.
    + injection e as <-. now rewrite vsum_map_vsum1.
    + apply Forall_forall. intros x Hx. apply in_map_iff in Hx. destruct Hx as (y & <- & _). apply vsum_length.
  - intros vss H _. destruct vss; [easy|discriminate].
  - intros os a oss shares _ IH1 _ IH2 vss Hv HF. destruct vss as [|vs vss]; [discriminate|]. injection Hv as E1 E2.
    apply Forall_cons_iff in HF. destruct HF as [F1 F2]. cbn [map].
    now rewrite (IH1 vs E1 F1), (IH2 vss E2 F2).
Qed.

Theorem p1_agg_total :
  (exists a, p1_agg_init p ap = Ok a) /\
  (forall vs v, Forall (fun v => length v = n) vs -> length v = n -> p1_agg_update p ap (inj (vsum n vs)) (inj v) = Ok (inj (vsum n (vs ++ [v])))) /\
  (forall shs, Forall (fun s => length s = n) shs -> p1_merge p ap (map inj shs) = Ok (inj (vsum n shs))).
Proof.
  split; [eauto|]. split; [|exact merge_vsum]. intros vs v _ Hv. unfold p1_agg_update.
  now rewrite (vw_add _ _ _ V), vec_add_vsum1 by easy.
Qed.

Theorem p1_unshard_sum shs k : Forall (fun s => length s = n) shs ->
  p1_unshard p ap (map inj shs) k = Ok (map fint (vsum n shs)).
Proof. intros H. unfold p1_unshard. rewrite merge_vsum by easy. cbn [bind]. now rewrite (vw_vals _ _ _ V). Qed.
End Agg.
