(** Poplar1 objects returned by the constructor, adversarial executions, size
    checks and totality of verification. *)
From Verif Require Export Poplar1Props.
From Verif Require Import IdpfInst IdpfCodec IdpfFacts XofFacts PostFacts CommonFacts.
Open Scope nat_scope.

Definition p1_obj (ts : TurboShake) (aes : BlockCipher) (bound bits : nat) : Poplar1 :=
  {| p1_idpf := idpf_obj ts aes bound 2 bits; p1_xof := XofTurboShake128 ts bound |}.

Lemma p1_obj_ok ts aes bound bits : (forall k b, length b = 16 -> length (aes k b) = 16) -> (Z.of_nat bound < 2 ^ 120)%Z ->
  0 < bits -> exists lim, Poplar1Ok (p1_obj ts aes bound bits) lim.
Proof.
  intros Ha Hb Hbits. eexists. constructor.
  - exists (2 ^ 132)%Z. assert (E : IdpfBBCGGI21_init ts aes bound 2 (Z.of_nat bits) = Ok (idpf_obj ts aes bound 2 bits)).
    { unfold IdpfBBCGGI21_init. rewrite (proj2 (Z.ltb_lt 0 (Z.of_nat bits))) by lia. cbn [Z.ltb Z.compare check bind]. now rewrite Nat2Z.id. }
    apply (idpf_init_ok ts aes bound 2 (Z.of_nat bits) _ Ha Hb) in E. apply E.
  - apply turboshake_ok.
  - match goal with |- (?x < _)%Z => apply (Z.lt_succ_diag_r x) end.
  - cbn. lia.
  - easy.
  - easy.
  - split; [apply idpf_fields_wf | reflexivity].
  - split; [apply idpf_fields_wf | reflexivity].
Qed.

Lemma p1_init_cases ts aes bound bits :
  Poplar1_init ts aes bound bits =
  if (0 <? bits)%Z then Ok (p1_obj ts aes bound (Z.to_nat bits)) else Raise AssertionError.
Proof. unfold Poplar1_init, IdpfBBCGGI21_init. cbn [Z.ltb Z.compare check bind]. now destruct (0 <? bits)%Z. Qed.

(** * Adversarial executions *)
Section Exec.
Context (p : Poplar1) (lim : Z) (HO : Poplar1Ok p lim).
Notation Pi := (id_field_inner (p1_idpf p)).
Notation Pl := (id_field_leaf (p1_idpf p)).

Lemma verify_rand_len P key ctx nonce lv k r : verify_rand_of p P key ctx nonce lv k = Ok r -> length r = k.
Proof.
  unfold verify_rand_of. intros H. apply bind_Ok in H. destruct H as (d & _ & H). apply bind_Ok in H. destruct H as (e & _ & H).
  apply bind_Ok in H. destruct H as (st & _ & H). apply bind_Ok in H. destruct H as ([v st'] & Hv & H). injection H as <-.
  now apply next_vec_len in Hv.
Qed.

Lemma exec_gen {P : FieldClass} inj (V : View p P inj) (Hskip : forall a b c d, fv_skip p 3 (inj (a :: b :: c :: d)) = inj d)
  ctx lv prefixes nonce ps is0 is1 :
  (forall j is, (j, is) = (0, is0) \/ (j, is) = (1, is1) ->
   (exists e, forall key, p1_verify_init p key ctx j (lv, prefixes) nonce ps is = Raise e) \/
   (exists A B a b c value, length value = length prefixes /\ Forall (fun v => length v = 2) value /\
    forall key, p1_verify_init p key ctx j (lv, prefixes) nonce ps is =
     let* r := verify_rand_of p P key ctx nonce lv (length prefixes) in
     let* (s, o) := sketch_loop r value a b c in
     Ok ((EVALUATE_SKETCH, lv, inj ([A; B; fof (Z.of_nat j)] ++ o)), inj s))) ->
  (forall key, exists e, p1_execute p key ctx (lv, prefixes) nonce ps is0 is1 = Raise e) \/
  (exists AB0 AB1 abc0 abc1 v0 v1, length v0 = length prefixes /\ length v1 = length prefixes /\
   Forall (fun v => length v = 2) v0 /\ Forall (fun v => length v = 2) v1 /\
   forall key, p1_execute p key ctx (lv, prefixes) nonce ps is0 is1 =
     let* r := verify_rand_of p P key ctx nonce lv (length prefixes) in
     let* _ := sketch_run p inj ctx (lv, prefixes) AB0 AB1 abc0 abc1 v0 v1 r in
     Ok (inj (data_parts v0), inj (data_parts v1))).
Proof.
  intros H. destruct (H 0 is0 (or_introl eq_refl)) as [[e H0]|(A0 & B0 & a0 & b0 & c0 & v0 & L0 & F0 & H0)].
  { left. intros key. exists e. unfold p1_execute. now rewrite H0. }
  destruct (H 1 is1 (or_intror eq_refl)) as [[e H1]|(A1 & B1 & a1 & b1 & c1 & v1 & L1 & F1 & H1)].
  { left. intros key. unfold p1_execute. destruct (p1_verify_init p key ctx 0 (lv, prefixes) nonce ps is0) as [[st s]|e']; cbn [bind]; [|eauto].
    exists e. now rewrite H1. }
  right. exists (A0, B0), (A1, B1), (a0, b0, c0), (a1, b1, c1), v0, v1. repeat (split; [easy|]). intros key.
  unfold p1_execute. rewrite H0, H1. destruct (verify_rand_of p P key ctx nonce lv (length prefixes)) as [r|e] eqn:Er; [|easy].
  apply verify_rand_len in Er. cbn [bind]. unfold sketch_run. cbn [fst snd].
  rewrite (sketch_loop_ok r v0), (sketch_loop_ok r v1) by (try easy; congruence). cbn [bind].
  match goal with |- context [p1_verifier_shares_to_message p ctx (lv, prefixes) [inj ?x; inj ?y]] => destruct (p1_verifier_shares_to_message p ctx (lv, prefixes) [inj x; inj y]) as [msg|e] end; [|easy]. cbn [bind].
  change (Z.of_nat 0) with 0%Z. change (Z.of_nat 1) with 1%Z.
  destruct (p1_verify_next p ctx (EVALUATE_SKETCH, lv, inj ([A0; B0; fof 0] ++ data_of v0)) msg) as [n0|e] eqn:E0; [|easy]. cbn [bind].
  destruct (p1_verify_next p ctx (EVALUATE_SKETCH, lv, inj ([A1; B1; fof 1] ++ data_of v1)) msg) as [n1|e] eqn:E1; [|easy]. cbn [bind].
  apply next_evaluate in E0. destruct E0 as (m0 & t0 & _ & _ & _ & Lt & ->).
  apply next_evaluate in E1. destruct E1 as (m1 & t1 & _ & _ & _ & _ & ->).
  destruct (p1_verifier_shares_to_message p ctx (lv, prefixes) [t0; t1]) as [m2|e] eqn:E2; [|easy]. cbn [bind].
  assert (m2 = None).
  { apply shares_to_message in E2. destruct E2 as (x & y & s & Exy & _ & _ & [[Hl ->]|[_ [-> _]]]); [|easy].
    injection Exy as <- <-. exfalso. clear -Hl Lt. congruence. }
  subst m2. rewrite !next_reveal. cbn [bind app]. now rewrite !Hskip.
Qed.

Theorem exec_inner ctx lv prefixes nonce ps is0 is1 : ctx_ok ctx -> idpf_public_wf (p1_idpf p) ps ->
  length (fst (fst (fst is0))) = id_KEY_SIZE (p1_idpf p) -> length (fst (fst (fst is1))) = id_KEY_SIZE (p1_idpf p) ->
  level_is_inner p lv = true ->
  (forall key, exists e, p1_execute p key ctx (lv, prefixes) nonce ps is0 is1 = Raise e) \/
  (exists AB0 AB1 abc0 abc1 v0 v1, length v0 = length prefixes /\ length v1 = length prefixes /\
   Forall (fun v => length v = 2) v0 /\ Forall (fun v => length v = 2) v1 /\
   forall key, p1_execute p key ctx (lv, prefixes) nonce ps is0 is1 =
     let* r := verify_rand_of p Pi key ctx nonce lv (length prefixes) in
     let* _ := sketch_run p Inner ctx (lv, prefixes) AB0 AB1 abc0 abc1 v0 v1 r in
     Ok (Inner (data_parts v0), Inner (data_parts v1))).
Proof.
  intros Hc Hw K0 K1 Hl. apply (exec_gen Inner (view_inner p lim HO)); [easy|].
  intros j is [E|E]; injection E as -> ->; now apply (verify_init_key_inner p lim HO).
Qed.

Theorem exec_leaf ctx lv prefixes nonce ps is0 is1 : ctx_ok ctx -> idpf_public_wf (p1_idpf p) ps ->
  length (fst (fst (fst is0))) = id_KEY_SIZE (p1_idpf p) -> length (fst (fst (fst is1))) = id_KEY_SIZE (p1_idpf p) ->
  level_is_inner p lv = false ->
  (forall key, exists e, p1_execute p key ctx (lv, prefixes) nonce ps is0 is1 = Raise e) \/
  (exists AB0 AB1 abc0 abc1 v0 v1, length v0 = length prefixes /\ length v1 = length prefixes /\
   Forall (fun v => length v = 2) v0 /\ Forall (fun v => length v = 2) v1 /\
   forall key, p1_execute p key ctx (lv, prefixes) nonce ps is0 is1 =
     let* r := verify_rand_of p Pl key ctx nonce lv (length prefixes) in
     let* _ := sketch_run p Leaf ctx (lv, prefixes) AB0 AB1 abc0 abc1 v0 v1 r in
     Ok (Leaf (data_parts v0), Leaf (data_parts v1))).
Proof.
  intros Hc Hw K0 K1 Hl. apply (exec_gen Leaf (view_leaf p lim HO)); [easy|].
  intros j is [E|E]; injection E as -> ->; now apply (verify_init_key_leaf p lim HO).
Qed.

(** * Levels above 2^16 *)
Theorem level_too_large key ctx j lv prefixes nonce ps is : (65536 <= lv)%Z ->
  exists e, p1_verify_init p key ctx j (lv, prefixes) nonce ps is = Raise e.
Proof.
  intros Hl. assert (HV : forall P k, exists e, verify_rand_of p P key ctx nonce lv k = Raise e).
  { intros P k. unfold verify_rand_of. destruct (p1_dst USAGE_VERIFY_RAND ctx) as [d|e]; cbn [bind]; [|eauto].
    unfold to_be_bytes. replace (Z.shiftl 1 (8 * Z.of_nat 2) <=? lv)%Z with true by (symmetry; apply Z.leb_le; exact Hl).
    rewrite Bool.orb_true_r. eexists. reflexivity. }
  assert (HI : forall P u ff AB k seed v, exists e, verify_init_in p P u ff AB key ctx j lv k nonce seed v = Raise e).
  { intros. destruct (init_key p P u ff AB ctx j lv k nonce seed v) as [[e E]|(A & B & a & b & c & _ & E)]; rewrite E; [eauto|].
    destruct (HV P k) as [e ->]. exists e. reflexivity. }
  destruct is as [[[k seed] ci] cl]. unfold p1_verify_init.
  destruct (idpf_eval (p1_idpf p) j ps k lv prefixes ctx nonce) as [out|e]; cbn [bind]; [|eauto].
  destruct (level_is_inner p lv).
  - destruct (HI Pi USAGE_CORR_INNER (Some (3 * Z.to_nat lv)) (slice ci (2 * Z.to_nat lv) (2 * (Z.to_nat lv + 1))) (length prefixes) seed (map (fv_as Pi) out)) as [e ->]. exists e. reflexivity.
  - destruct (HI Pl USAGE_CORR_LEAF None cl (length prefixes) seed (map (fv_as Pl) out)) as [e ->]. exists e. reflexivity.
Qed.

(** * Sizes *)
Theorem shard_sizes ctx m nonce rand :
  (length nonce <> p1_NONCE_SIZE -> p1_shard p ctx m nonce rand = Raise (ValueError "incorrect nonce size")) /\
  (length nonce = p1_NONCE_SIZE -> length rand <> p1_RAND_SIZE p ->
   p1_shard p ctx m nonce rand = Raise (ValueError "incorrect size of random bytes argument")).
Proof.
  split.
  - intros H. unfold p1_shard. now rewrite (proj2 (Nat.eqb_neq _ _) H).
  - intros H H'. unfold p1_shard. now rewrite H, Nat.eqb_refl, (proj2 (Nat.eqb_neq _ _) H').
Qed.

Theorem shard_meas ctx m nonce rand r : p1_shard p ctx m nonce rand = Ok r -> length m = id_BITS (p1_idpf p).
Proof.
  unfold p1_shard. intros H.
  repeat (match type of H with
  | bind (idpf_gen _ _ _ _ _ _ _) _ = Ok _ => fail 1
  | bind ?x _ = Ok _ => let a := fresh "a" in apply bind_Ok in H; destruct H as (a & ? & H); try destruct a as [? ?]; cbv zeta beta in H
  end).
  apply bind_Ok in H. destruct H as (g & Hg & _). unfold idpf_gen in Hg. apply bind_Ok in Hg. destruct Hg as (u & Hu & _).
  now apply check_Ok, Nat.eqb_eq in Hu.
Qed.

(** * Totality of verification on decoded messages *)
Lemma nv_total P st s at_ q len : streams (p1_xof p) lim st s at_ ->
  (Z.of_nat (q + loop_bound (p1_xof p) * ENCODED_SIZE P) < lim)%Z ->
  post (next_vec (p1_xof p) P (at_ q) len)
    (fun '(v, st') => length v = len /\ exists k, k <= loop_bound (p1_xof p) * ENCODED_SIZE P /\ st' = at_ (q + k)) (fun e => e = OutOfFuel).
Proof.
  intros Hs Hlim. pose proof (next_vec_cases (p1_xof p) P lim st s at_ Hs len q Hlim) as [(v & k & Hk & -> & Hl)|Hr].
  - split; [easy|]. exists (k * ENCODED_SIZE P). split; [now apply Nat.mul_le_mono_r | easy].
  - now rewrite Hr.
Qed.

Lemma init_in_total P usage ff AB key ctx j lv n nonce seed value : P = Pi \/ P = Pl -> (0 <= usage < 2 ^ 16)%Z -> ctx_ok ctx -> j < 2 ->
  length key = SEED_SIZE (p1_xof p) -> length seed = SEED_SIZE (p1_xof p) -> (0 <= lv < 65536)%Z -> length AB = 2 ->
  length value = n -> Forall (fun v => length v = 2) value ->
  (2 < MODULUS P)%Z ->
  (Z.of_nat (loop_bound (p1_xof p) * ENCODED_SIZE P + loop_bound (p1_xof p) * ENCODED_SIZE P) < lim)%Z ->
  post (verify_init_in p P usage ff AB key ctx j lv n nonce seed value) (fun '(mem, s) => length mem = 3 + n /\ length s = 3) (fun e => e = OutOfFuel).
Proof.
  intros HP Hu Hc Hj Hk Hs Hl HAB Hv HF HM Hlim. unfold verify_init_in.
  destruct (p1_dst_ok usage ctx Hu Hc) as (d & -> & Ld). cbn [bind].
  rewrite byte_of_ok by lia. cbn [bind].
  destruct (xo_init _ _ (pk_xof _ _ HO) seed d ([z2b (Z.of_nat j)] ++ nonce) Hs Ld) as [st Hst]. rewrite Hst. cbn [bind].
  destruct (xo_stream _ _ (pk_xof _ _ HO) _ _ _ _ Hst) as (s & at_ & Hstr).
  assert (Hat : at_ 0 = st) by (now destruct Hstr).
  apply (post_bind _ _ (fun st' => exists q, q <= loop_bound (p1_xof p) * ENCODED_SIZE P /\ st' = at_ q)).
  { destruct ff as [k|].
    - rewrite <- Hat. eapply post_bind; [apply (nv_total P st s at_ 0 k Hstr); lia|].
      intros [v st'] _ (_ & q & Hq & ->). exists q. split; [exact Hq|reflexivity].
    - exists 0. split; [lia|now symmetry]. }
  intros st' _ (q & Hq & ->). eapply post_bind; [apply (nv_total P st s at_ q 3 Hstr); lia|].
  intros [abc st2] _ [Labc _]. destruct abc as [|a [|b [|c [|]]]]; try (simpl in Labc; lia).
  destruct AB as [|A [|B [|]]]; try (simpl in HAB; lia).
  pose proof (verify_rand_post p lim HO n P key ctx nonce lv HP Hc Hk Hl) as HR.
  eapply post_bind.
  { destruct (verify_rand_of p P key ctx nonce lv n); [exact HR | exact (proj1 HR)]. }
  cbn beta. intros r _ Hr. rewrite (sketch_loop_ok r value) by (try easy; congruence). cbn [bind].
  rewrite field_init_ok by lia. cbn [bind post length app]. unfold data_of. now rewrite map_length, Hv.
Qed.

Theorem verify_init_total key ctx j level prefixes nonce ps is : ctx_ok ctx -> j < 2 ->
  length key = p1_VERIFY_KEY_SIZE p -> id_KEY_SIZE (p1_idpf p) = SEED_SIZE (id_xof_inner (p1_idpf p)) ->
  idpf_public_wf (p1_idpf p) ps -> p1_input_share_wf p is ->
  level < id_BITS (p1_idpf p) -> (Z.of_nat level < 65536)%Z -> NoDup prefixes -> Forall (fun x => length x = S level) prefixes ->
  match p1_verify_init p key ctx j (Z.of_nat level, prefixes) nonce ps is with
  | Ok ((step, lv, mem), share) => step = EVALUATE_SKETCH /\ lv = Z.of_nat level /\ fv_len mem = 3 + length prefixes /\ fv_len share = 3
  | Raise e => e = OutOfFuel
  end.
Proof.
  intros Hc Hj Hk HKS Hps His Hl H16 Hnd Hpl. destruct is as [[[k seed] ci] cl]. destruct His as (L1 & L2 & L3 & L4).
  unfold p1_verify_init. rewrite <- HKS in L1. destruct (pk_idpf _ _ HO) as [lim' HI].
  pose proof (eval_args (p1_idpf p) lim' HI j ps k (Z.of_nat level) prefixes ctx nonce Hc L1 Hps) as HE.
  destruct (idpf_eval (p1_idpf p) j ps k (Z.of_nat level) prefixes ctx nonce) as [out|e] eqn:Ev; cbn [bind].
  2:{ destruct e; try exact (proj1 HE). exfalso. apply HE. repeat apply conj; try easy; try lia. clear -Hpl. revert Hpl. apply Forall_impl. intros a Ha. lia. }
  destruct (eval_shapes p lim HO j ps k (Z.of_nat level) prefixes ctx nonce out Hc L1 Hps Ev) as (_ & Lo & Fo).
  rewrite level_is_inner_nat. pose proof (pk_lim _ _ HO) as HL. pose proof (pk_inner _ _ HO) as [_ Mi]. pose proof (pk_leaf _ _ HO) as [_ Ml].
  assert (HLi : (Z.of_nat (loop_bound (p1_xof p) * ENCODED_SIZE Pi + loop_bound (p1_xof p) * ENCODED_SIZE Pi) < lim)%Z).
  { revert HL. generalize (loop_bound (p1_xof p) * ENCODED_SIZE Pi) as x. intros x HL.
    assert (x + x <= S (id_BITS (p1_idpf p)) * x) by nia. lia. }
  destruct (level <? id_BITS (p1_idpf p) - 1) eqn:El.
  - apply Nat.ltb_lt in El. rewrite Nat2Z.id.
    pose proof (init_in_total Pi USAGE_CORR_INNER (Some (3 * level)) (slice ci (2 * level) (2 * (level + 1))) key ctx j (Z.of_nat level) (length prefixes) nonce seed
      (map (fv_as Pi) out) (or_introl eq_refl) ltac:(unfold USAGE_CORR_INNER; lia) Hc Hj Hk L2 ltac:(lia)) as HT.
    specialize (HT ltac:(unfold slice; rewrite firstn_length, skipn_length; lia) ltac:(now rewrite map_length) (Fo Pi) Mi HLi).
    destruct (verify_init_in _ _ _ _ _ _ _ _ _ _ _ _ _) as [[mem s]|e]; cbn [bind]; [|exact HT].
    destruct HT as [T1 T2]. repeat apply conj; easy.
  - pose proof (init_in_total Pl USAGE_CORR_LEAF None cl key ctx j (Z.of_nat level) (length prefixes) nonce seed
      (map (fv_as Pl) out) (or_intror eq_refl) ltac:(unfold USAGE_CORR_LEAF; lia) Hc Hj Hk L2 ltac:(lia) L4 ltac:(now rewrite map_length) (Fo Pl) Ml ltac:(lia)) as HT.
    destruct (verify_init_in _ _ _ _ _ _ _ _ _ _ _ _ _) as [[mem s]|e]; cbn [bind]; [|exact HT].
    destruct HT as [T1 T2]. repeat apply conj; easy.
Qed.
End Exec.

(** * Aggregation at any level *)
Section AggL.
Context (p : Poplar1) (lim : Z) (HO : Poplar1Ok p lim) (ap : Poplar1AggParam).
Notation Pi := (id_field_inner (p1_idpf p)).
Notation Pl := (id_field_leaf (p1_idpf p)).
Notation n := (length (snd ap)).

(** Everything at level [ap] happens in one class. *)
Lemma at_class : exists (P : FieldClass) (inj : list (F P) -> FieldVec Pi Pl), View p P inj /\
  p1_agg_init p ap = Ok (inj (fzeros n)) /\
  (forall outs, Forall (p1_out_wf p ap) outs -> exists vs, outs = map inj vs /\ Forall (fun v => length v = n) vs) /\
  (forall vs, p1_total p ap (map inj vs) = inj (vsum n vs)).
Proof.
  destruct ap as [level prefixes] eqn:Eap. unfold p1_agg_init, p1_total, p1_out_wf, of_class. cbn [fst snd].
  destruct (level_is_inner p level) eqn:El.
  - exists Pi, Inner. split; [apply (view_inner p lim HO)|]. split; [easy|]. split.
    + induction 1 as [|o outs Ho _ (vs & -> & HF)]; [now exists []|]. destruct o as [v|v]; [|now destruct Ho].
      exists (v :: vs). split; [easy|]. constructor; [apply Ho | exact HF].
    + intros vs. rewrite map_map. rewrite (map_ext _ (fun v => v)) by apply (vw_as _ _ _ (view_inner p lim HO)). now rewrite map_id.
  - exists Pl, Leaf. split; [apply (view_leaf p lim HO)|]. split; [easy|]. split.
    + induction 1 as [|o outs Ho _ (vs & -> & HF)]; [now exists []|]. destruct o as [v|v]; [now destruct Ho|].
      exists (v :: vs). split; [easy|]. constructor; [apply Ho | exact HF].
    + intros vs. rewrite map_map. rewrite (map_ext _ (fun v => v)) by apply (vw_as _ _ _ (view_leaf p lim HO)). now rewrite map_id.
Qed.

Theorem agg_value outs share : aggregated (p1_vdaf p) ap outs share -> Forall (p1_out_wf p ap) outs -> share = p1_total p ap outs.
Proof.
  intros HA HF. destruct at_class as (P & inj & V & Hi & Hc & Ht). destruct (Hc _ HF) as (vs & -> & Lv).
  rewrite Ht. exact (p1_aggregated p inj V ap Hi _ _ HA vs eq_refl Lv).
Qed.

Theorem agg_order outs outs' share share' : aggregated (p1_vdaf p) ap outs share -> aggregated (p1_vdaf p) ap outs' share' ->
  Permutation outs outs' -> Forall (p1_out_wf p ap) outs -> share = share'.
Proof.
  intros H1 H2 HP HF. rewrite (agg_value _ _ H1 HF). rewrite (agg_value outs' share' H2).
  - unfold p1_total. destruct (level_is_inner p (fst ap)); f_equal; apply vsum_perm1; now apply Permutation_map.
  - apply Forall_forall. intros x Hx. rewrite Forall_forall in HF. apply HF. now apply (Permutation_in x (Permutation_sym HP)).
Qed.

Theorem agg_total outs : Forall (p1_out_wf p ap) outs ->
  (let* agg := p1_agg_init p ap in foldM (p1_agg_update p ap) outs agg) = Ok (p1_total p ap outs) /\
  aggregated (p1_vdaf p) ap outs (p1_total p ap outs).
Proof.
  intros HF. destruct at_class as (P & inj & V & Hi & Hc & Ht). destruct (Hc _ HF) as (vs & -> & Lv). clear HF.
  rewrite Ht, Hi. cbn [bind].
  assert (X : foldM (p1_agg_update p ap) (map inj vs) (inj (fzeros n)) = Ok (inj (vsum n vs)) /\ aggregated (p1_vdaf p) ap (map inj vs) (inj (vsum n vs))).
  { induction vs as [|v vs IH] using rev_ind.
    - split; [now rewrite vsum_nil|]. apply ag_init. change (p1_agg_init p ap = Ok (inj (vsum n []))). rewrite Hi. now rewrite vsum_nil.
    - apply Forall_app in Lv. destruct Lv as [L1 L2]. apply Forall_inv in L2. destruct (IH L1) as [I1 I2].
      assert (EU : p1_agg_update p ap (inj (vsum n vs)) (inj v) = Ok (inj (vsum n (vs ++ [v])))).
      { unfold p1_agg_update. now rewrite (vw_add _ _ _ V), vec_add_vsum1 by easy. }
      rewrite map_app. split.
      + rewrite foldM_app, I1. cbn [bind map foldM]. now rewrite EU.
      + cbn [map]. apply (ag_update (p1_vdaf p) ap (map inj vs) (inj (vsum n vs)) (inj v)); [exact I2|exact EU]. }
  exact X.
Qed.

Lemma vsum_wf outs : p1_out_wf p ap (p1_total p ap outs).
Proof.
  unfold p1_out_wf, p1_total, of_class. destruct (level_is_inner p (fst ap)) eqn:E; (split; [easy|]); cbn [fv_len]; apply vsum_length.
Qed.

Theorem unshard_total1 outss shares k : aggregated_all (p1_vdaf p) ap outss shares -> Forall (Forall (p1_out_wf p ap)) outss ->
  p1_merge p ap shares = Ok (p1_total p ap (concat outss)) /\
  p1_unshard p ap shares k = Ok (fv_vals (p1_total p ap (concat outss))).
Proof.
  intros HA HF. unfold p1_unshard.
  assert (X : p1_merge p ap shares = Ok (p1_total p ap (concat outss))); [|now rewrite X].
  destruct at_class as (P & inj & V & Hi & Hc & Ht).
  assert (HS : exists vss, outss = map (map inj) vss /\ shares = map inj (map (vsum n) vss) /\ Forall (Forall (fun v => length v = n)) vss).
  { revert HF. induction HA as [|os a oss shares H1 HA IH]; intros HF; [now exists []|].
    apply Forall_cons_iff in HF. destruct HF as [F1 F2]. destruct (IH F2) as (vss & -> & -> & G).
    destruct (Hc _ F1) as (vs & -> & Lv). exists (vs :: vss). split; [easy|]. split; [|now constructor].
    cbn [map]. f_equal. exact (p1_aggregated p inj V ap Hi _ _ H1 vs eq_refl Lv). }
  destruct HS as (vss & -> & -> & G). rewrite <- concat_map, Ht.
  rewrite (merge_vsum p inj V ap Hi).
  - now rewrite vsum_map_vsum1.
  - apply Forall_forall. intros x Hx. apply in_map_iff in Hx. destruct Hx as (y & <- & _). apply vsum_length.
Qed.
End AggL.

(** * Soundness of an adversarial execution *)
Section ExecSound.
Context (p : Poplar1) (lim : Z) (HO : Poplar1Ok p lim).
Notation Pi := (id_field_inner (p1_idpf p)).
Notation Pl := (id_field_leaf (p1_idpf p)).

Theorem exec_sound_inner : prime (MODULUS Pi) -> forall ctx lv prefixes nonce ps is0 is1, ctx_ok ctx -> idpf_public_wf (p1_idpf p) ps ->
  length (fst (fst (fst is0))) = id_KEY_SIZE (p1_idpf p) -> length (fst (fst (fst is1))) = id_KEY_SIZE (p1_idpf p) ->
  level_is_inner p lv = true ->
  (forall key, exists e, p1_execute p key ctx (lv, prefixes) nonce ps is0 is1 = Raise e) \/
  (exists (out0 out1 : list (F Pi)) (accept : list (F Pi) -> bool),
   length out0 = length prefixes /\ length out1 = length prefixes /\
   (forall key, p1_execute p key ctx (lv, prefixes) nonce ps is0 is1 =
     let* r := verify_rand_of p Pi key ctx nonce lv (length prefixes) in
     if accept r then Ok (Inner out0, Inner out1) else Raise (ValueError "sketch verification failed")) /\
   (~ one_hot (length prefixes) (fun i => fadd (nth i out0 f0) (nth i out1 f0)) ->
    forall Q, NoDup Q -> (forall r, In r Q -> length r = length prefixes /\ accept r = true) ->
    (Z.of_nat (length Q) <= 2 * MODULUS Pi ^ (Z.of_nat (length prefixes) - 1))%Z)).
Proof.
  intros Hp ctx lv prefixes nonce ps is0 is1 Hc Hw K0 K1 Hl.
  destruct (exec_inner p lim HO ctx lv prefixes nonce ps is0 is1 Hc Hw K0 K1 Hl) as [H|(AB0 & AB1 & abc0 & abc1 & v0 & v1 & L0 & L1 & F0 & F1 & H)]; [now left|].
  right. exists (data_parts v0), (data_parts v1),
    (fun r => is_ok (sketch_run p Inner ctx (lv, prefixes) AB0 AB1 abc0 abc1 v0 v1 r)).
  unfold data_parts. rewrite !map_length. split; [easy|]. split; [easy|]. split.
  - intros key. rewrite H. destruct (verify_rand_of p Pi key ctx nonce lv (length prefixes)) as [r|e] eqn:Er; [|easy]. cbn [bind].
    apply verify_rand_len in Er. destruct AB0 as [A0 B0], AB1 as [A1 B1], abc0 as [[a0 b0] c0], abc1 as [[a1 b1] c1].
    rewrite (sketch_run_poly p Inner (view_inner p lim HO)) by (try easy; congruence). now destruct (_ =? 0)%Z.
  - intros HN Q HNd HQ. apply (sketch_sound p Inner (view_inner p lim HO) Hp ctx (lv, prefixes) AB0 AB1 abc0 abc1 v0 v1 (length prefixes) Q); try easy.
    + intros [t Ht]. apply HN. exists t. intros i Hi. rewrite <- Ht by easy. unfold sum_part. now rewrite !(nth_map' _ _ _ []) by lia.
    + intros r Hr. destruct (HQ r Hr) as [Hlr Hok]. split; [easy|].
      destruct (sketch_run p Inner ctx (lv, prefixes) AB0 AB1 abc0 abc1 v0 v1 r) as [m|e]; [eauto|discriminate].
Qed.

Theorem exec_sound_leaf : prime (MODULUS Pl) -> forall ctx lv prefixes nonce ps is0 is1, ctx_ok ctx -> idpf_public_wf (p1_idpf p) ps ->
  length (fst (fst (fst is0))) = id_KEY_SIZE (p1_idpf p) -> length (fst (fst (fst is1))) = id_KEY_SIZE (p1_idpf p) ->
  level_is_inner p lv = false ->
  (forall key, exists e, p1_execute p key ctx (lv, prefixes) nonce ps is0 is1 = Raise e) \/
  (exists (out0 out1 : list (F Pl)) (accept : list (F Pl) -> bool),
   length out0 = length prefixes /\ length out1 = length prefixes /\
   (forall key, p1_execute p key ctx (lv, prefixes) nonce ps is0 is1 =
     let* r := verify_rand_of p Pl key ctx nonce lv (length prefixes) in
     if accept r then Ok (Leaf out0, Leaf out1) else Raise (ValueError "sketch verification failed")) /\
   (~ one_hot (length prefixes) (fun i => fadd (nth i out0 f0) (nth i out1 f0)) ->
    forall Q, NoDup Q -> (forall r, In r Q -> length r = length prefixes /\ accept r = true) ->
    (Z.of_nat (length Q) <= 2 * MODULUS Pl ^ (Z.of_nat (length prefixes) - 1))%Z)).
Proof.
  intros Hp ctx lv prefixes nonce ps is0 is1 Hc Hw K0 K1 Hl.
  destruct (exec_leaf p lim HO ctx lv prefixes nonce ps is0 is1 Hc Hw K0 K1 Hl) as [H|(AB0 & AB1 & abc0 & abc1 & v0 & v1 & L0 & L1 & F0 & F1 & H)]; [now left|].
  right. exists (data_parts v0), (data_parts v1),
    (fun r => is_ok (sketch_run p Leaf ctx (lv, prefixes) AB0 AB1 abc0 abc1 v0 v1 r)).
  unfold data_parts. rewrite !map_length. split; [easy|]. split; [easy|]. split.
  - intros key. rewrite H. destruct (verify_rand_of p Pl key ctx nonce lv (length prefixes)) as [r|e] eqn:Er; [|easy]. cbn [bind].
    apply verify_rand_len in Er. destruct AB0 as [A0 B0], AB1 as [A1 B1], abc0 as [[a0 b0] c0], abc1 as [[a1 b1] c1].
    rewrite (sketch_run_poly p Leaf (view_leaf p lim HO)) by (try easy; congruence). now destruct (_ =? 0)%Z.
  - intros HN Q HNd HQ. apply (sketch_sound p Leaf (view_leaf p lim HO) Hp ctx (lv, prefixes) AB0 AB1 abc0 abc1 v0 v1 (length prefixes) Q); try easy.
    + intros [t Ht]. apply HN. exists t. intros i Hi. rewrite <- Ht by easy. unfold sum_part. now rewrite !(nth_map' _ _ _ []) by lia.
    + intros r Hr. destruct (HQ r Hr) as [Hlr Hok]. split; [easy|].
      destruct (sketch_run p Leaf ctx (lv, prefixes) AB0 AB1 abc0 abc1 v0 v1 r) as [m|e]; [eauto|discriminate].
Qed.
End ExecSound.

(** * Exact counts *)
Theorem run_exact p lim : Poplar1Ok p lim -> forall key ctx level prefixes ms,
  NoDup prefixes -> Forall (fun x => length x = S level) prefixes ->
  ctx_ok ctx -> length key = p1_VERIFY_KEY_SIZE p -> level < id_BITS (p1_idpf p) -> (Z.of_nat level < 65536)%Z ->
  p1_sizes_ok p ms -> Forall (fun r => length (fst (fst r)) = id_BITS (p1_idpf p)) ms ->
  (Z.of_nat (length ms) < level_modulus p level)%Z ->
  run_vdaf (p1_vdaf p) key (Z.of_nat level, prefixes) ctx ms
  = Ok (map (fun x => Z.of_nat (count_prefix x (map (fun r => fst (fst r)) ms))) prefixes) \/
  (run_vdaf (p1_vdaf p) key (Z.of_nat level, prefixes) ctx ms = Raise OutOfFuel /\ p1_ran_out p (length prefixes)).
Proof.
  intros HO key ctx level prefixes ms Hnd Hpl Hc Hk Hl H16 Hs Hm Hsmall.
  destruct (run_ok1 p lim HO (length prefixes) key ctx level prefixes ms) as [H|H]; try easy; [left|now right].
  rewrite H. f_equal. apply map_ext. intros x. apply Z.mod_small. split; [lia|].
  unfold count_prefix. pose proof (filter_split (fun m => if list_eq_dec Bool.bool_dec x (firstn (length x) m) then true else false) (map (fun r => fst (fst r)) ms)) as X.
  rewrite map_length in X. lia.
Qed.
