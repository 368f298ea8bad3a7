(** What the Collector sees of a Prio3 batch: proofs. *)
From Verif Require Import CollectSpec RunSpec RunFacts Prio3 Prio3Spec Prio3Facts Prio3Run Prio3Inst Prio3ViewSpec Prio3ViewFacts VdafFacts Vdaf.
From Verif Require Import FlpSpec FlpBBCGGI19 Flp Field Spec FieldFacts VecFacts BaseFacts Circuits CircuitSpec MeasSpec FlpInstances PostFacts XofSpec Xof.
From Coq Require Import Lia.
Open Scope nat_scope.

(** ** One report *)
Section Report.
Context (p : Prio3) (lim : Z) (HO : Prio3Ok p lim).
Notation flp := (p3_flp p).
Notation S_ := (p3_SHARES p).
Notation F := (F (p3_field p)).
Context (good : list F -> Prop) (valid : list F -> list F -> Prop) (HF : FlpOk flp good valid).
Context (Henc : forall m meas, flp_encode flp m = Ok meas -> length meas = MEAS_LEN flp).

Lemma skip_blocks {A} n (l : list (list A)) k tail : Forall (fun x => length x = n) l -> k < length l ->
  firstn n (skipn (k * n) (concat l ++ tail)) = nth k l [].
Proof.
  revert k. induction l as [|x l IH]; intros k HL Hk; [cbn in Hk; lia|]. inversion HL as [|? ? Hx HL']; subst. cbn [concat].
  destruct k as [|k].
  - cbn [Nat.mul skipn nth]. rewrite <- app_assoc, firstn_app, Nat.sub_diag, firstn_all. cbn. now rewrite app_nil_r.
  - cbn [nth length] in *. rewrite <- app_assoc, skipn_app, skipn_all2 by lia. cbn [app].
    replace (S k * length x - length x) with (k * length x) by lia. apply IH; [easy|lia].
Qed.

Lemma report_helper ctx meas nonce rand public iss ms prs blinds prove_seed pr jr proofs j share blind :
  Report p ctx meas nonce rand public iss ms prs blinds prove_seed pr jr proofs ->
  1 <= j < S_ -> nth j iss (Helper [] None) = Helper share blind -> helper_seed p rand j = share.
Proof.
  intros R Hj Ej. pose proof (rp_wf _ _ _ _ _ _ _ _ _ _ _ _ _ _ R) as W. rewrite (rp_rand _ _ _ _ _ _ _ _ _ _ _ _ _ _ R).
  set (g := fun j => _). set (l := SEED_SIZE (p3_xof p)). set (st := if 0 <? JOINT_RAND_LEN flp then 2 else 1).
  assert (HG : forall i, 1 <= i < S_ -> exists s b, nth i iss (Helper [] None) = Helper s b /\ length s = l /\ blind_wf p b).
  { intros i Hi. specialize (W i (Helper [] None) ltac:(lia)). unfold input_share_wf in W. destruct (nth i iss _) as [a b c|s b]; [lia|].
    exists s, b. tauto. }
  assert (HB : Forall (fun x => length x = st * l) (map g (seq 1 (S_ - 1)))).
  { apply Forall_forall. intros x Hx. apply in_map_iff in Hx. destruct Hx as (i & <- & Hi). apply in_seq in Hi.
    destruct (HG i ltac:(lia)) as (s & b & E & Ls & Wb). unfold g. rewrite E. unfold blind_wf in Wb. unfold st.
    destruct (0 <? JOINT_RAND_LEN flp).
    - destruct Wb as (bb & -> & Lb). rewrite app_length, Ls. unfold l in *. lia.
    - subst b. rewrite Ls. lia. }
  unfold helper_seed. fold l. fold st. unfold slice.
  replace ((j - 1) * st * l + l - (j - 1) * st * l) with l by lia.
  replace ((j - 1) * st * l) with ((j - 1) * (st * l)) by lia.
  assert (E : firstn (st * l) (skipn ((j - 1) * (st * l)) (concat (map g (seq 1 (S_ - 1))) ++ match nth 0 blinds None with Some b => b | None => [] end ++ prove_seed)) = g j).
  { rewrite skip_blocks; [|exact HB|rewrite map_length, seq_length; lia].
    rewrite (nth_map' _ _ _ 0), seq_nth by (rewrite ?seq_length; lia). f_equal. lia. }
  destruct (HG j Hj) as (s & b & E' & Ls & _). rewrite Ej in E'. injection E' as <- <-.
  assert (E2 : firstn l (g j) = share).
  { unfold g. rewrite Ej. destruct blind as [b|]; [rewrite firstn_app, <- Ls, Nat.sub_diag, firstn_all; cbn; apply app_nil_r|rewrite <- Ls; apply firstn_all]. }
  rewrite <- E2, <- E, firstn_firstn. f_equal. unfold st. destruct (0 <? JOINT_RAND_LEN flp); lia.
Qed.

Lemma report_outputs key ctx m nonce rand (outs : list (list F)) : ctx_ok ctx ->
  vdaf_outputs (Prio3Vdaf p) ctx tt key (m, nonce, rand) = Ok outs ->
  vecs S_ (OUTPUT_LEN flp) outs /\ forall j, 1 <= j < S_ -> helper_out p ctx rand j = Ok (nth j outs []).
Proof.
  intros Hc H. unfold vdaf_outputs in H. apply bind_Ok in H. destruct H as ([public iss] & ES & H).
  change (vd_shard (Prio3Vdaf p)) with (p3_shard p) in ES.
  change (vd_InputShare (Prio3Vdaf p)) with (Prio3InputShare (p3_field p)) in *.
  assert (exists meas, flp_encode flp m = Ok meas /\ length nonce = p3_NONCE_SIZE /\ length rand = RAND_SIZE p) as (meas & EM & Ln & Lr).
  { unfold p3_shard in ES. destruct (Nat.eqb_spec (length nonce) p3_NONCE_SIZE) as [Ln|]; [|discriminate ES]. cbn [check bind] in ES.
    destruct (Nat.eqb_spec (length rand) (RAND_SIZE p)) as [Lr|]; [|discriminate ES]. cbn [check bind] in ES.
    apply bind_Ok in ES. destruct ES as (starts & _ & ES). apply bind_Ok in ES. destruct ES as (meas & EM & _). eauto. }
  pose proof (shard_post p lim HO good valid HF ctx m meas nonce rand Hc Ln Lr EM (Henc m meas EM)) as PS.
  rewrite ES in PS. cbn [post] in PS. destruct PS as (ms & prs & blinds & prove_seed & pr & jr & proofs & R).
  pose proof (rp_meas_vecs _ _ _ _ _ _ _ _ _ _ _ _ _ _ R) as HV.
  destruct (fo_truncate _ _ _ HF S_ ms HV) as (outs' & Houts & Hmap & _).
  unfold verify_report in H. apply bind_Ok in H. destruct H as (init & EI & H).
  change (vd_ROUNDS (Prio3Vdaf p)) with 1 in H. cbn [Nat.sub verify_rounds] in H. apply bind_Ok in H. destruct H as (msg & _ & EN).
  change (vd_SHARES (Prio3Vdaf p)) with S_ in EI.
  change (vd_verify_init (Prio3Vdaf p)) with (p3_verify_init p) in EI.
  change (vd_verify_next (Prio3Vdaf p)) with (p3_verify_next p) in EN.
  pose proof (mapM_Ok_length _ _ _ EI) as LI. rewrite length_range, Nat.sub_0_r in LI.
  pose proof (mapM_Ok_length _ _ _ EN) as LN. rewrite map_length, LI in LN.
  change (length outs = S_) in LN.
  assert (X : forall j, j < S_ -> nth j outs [] = nth j outs' []).
  { intros j Hj. destruct (nth_error init j) as [r|] eqn:Er; [|apply nth_error_None in Er; lia].
    assert (EIj : (let* is := get iss j in p3_verify_init p key ctx j tt nonce public is) = Ok r).
    { apply mapM_nth_Ok in EI. apply (proj2 EI j j r); [|exact Er]. rewrite nth_error_range by lia. reflexivity. }
    apply bind_Ok in EIj. destruct EIj as (is & Gi & EV).
    assert (ENj : p3_verify_next p ctx (fst r) msg = Ok (inr (nth j outs []))).
    { apply mapM_nth_Ok in EN. destruct EN as [_ EN]. assert (Eo : nth_error outs j = Some (nth j outs [])) by (apply nth_error_nth'; lia).
      change (vd_OutShare (Prio3Vdaf p)) with (list F) in *.
      specialize (EN j (fst r) (nth j outs [])). rewrite nth_error_map, Er in EN. specialize (EN eq_refl Eo).
      apply bind_Ok in EN. destruct EN as ([x|o] & E1 & E2); [discriminate E2|]. now injection E2 as <-. }
    unfold p3_verify_init in EV. pose proof (rp_expand _ _ _ _ _ _ _ _ _ _ _ _ _ _ R j Hj is) as EX.
    apply get_Ok in Gi. rewrite (nth_error_nth _ _ is Gi) in EX. rewrite EX in EV. cbn [bind] in EV.
    rewrite (mapM_Ok_nth _ _ _ [] [] Hmap j) in EV by (destruct HV; lia). cbn [bind] in EV.
    apply bind_Ok in EV. destruct EV as ([[s part] jrs] & _ & EV). apply bind_Ok in EV. destruct EV as (qr & _ & EV).
    apply bind_Ok in EV. destruct EV as ([[[vs a] b] c] & _ & EV). injection EV as <-.
    cbn [fst] in ENj. unfold p3_verify_next in ENj. apply bind_Ok in ENj. destruct ENj as (t & _ & ENj). injection ENj as ENj. symmetry. exact ENj. }
  assert (EO : outs = outs').
  { apply (nth_ext outs outs' [] []); [exact (eq_trans LN (eq_sym (proj1 Houts)))|]. intros j Hj. apply X. exact (eq_ind _ (fun n => j < n) Hj _ LN). }
  rewrite EO. split; [exact Houts|]. intros j Hj.
  pose proof (rp_wf _ _ _ _ _ _ _ _ _ _ _ _ _ _ R j (Helper [] None) ltac:(lia)) as W. unfold input_share_wf in W.
  pose proof (rp_expand _ _ _ _ _ _ _ _ _ _ _ _ _ _ R j ltac:(lia) (Helper [] None)) as EX.
  destruct (nth j iss (Helper [] None)) as [a b c|share blind] eqn:Ej; [lia|].
  unfold helper_out. rewrite (report_helper _ _ _ _ _ _ _ _ _ _ _ _ _ j share blind R Hj Ej).
  unfold expand_input_share in EX. rewrite (proj2 (Nat.ltb_lt 0 j)) in EX by lia.
  apply bind_Ok in EX. destruct EX as (h & Eh & EX). apply bind_Ok in EX. destruct EX as (hp & _ & EX). injection EX as EX _ _. subst h. rewrite Eh. cbn [bind].
  apply (mapM_Ok_nth _ _ _ [] [] Hmap). destruct HV. lia.
Qed.

(** ** A batch *)
Lemma fold_column j : forall outs a a', j < S_ -> length a = OUTPUT_LEN flp -> Forall (vecs S_ (OUTPUT_LEN flp)) outs ->
  foldM (fun a o => let* o := get o j in p3_agg_update p tt a o) outs a = Ok a' ->
  a' = zip_with fadd a (vsum (OUTPUT_LEN flp) (map (fun o => nth j o []) outs)) /\ length a' = OUTPUT_LEN flp.
Proof.
  induction outs as [|o outs IH]; intros a a' Hj La HL; cbn [foldM map].
  - intros [= <-]. rewrite vsum_nil. split; [symmetry; apply zip_fadd_0_r; lia|easy].
  - inversion HL as [|? ? Ho HL']; subst. intros H. apply bind_Ok in H. destruct H as (a1 & E1 & H).
    apply bind_Ok in E1. destruct E1 as (x & Gx & E1). unfold p3_agg_update in E1. apply vec_add_Ok in E1. destruct E1 as [Lx ->].
    apply get_Ok in Gx. assert (Ex : nth j o [] = x) by now apply nth_error_nth.
    assert (Lz : length (zip_with fadd a x) = OUTPUT_LEN flp) by (apply zip_length_eq; lia).
    destruct (IH _ _ Hj Lz HL' H) as [-> L]. split; [|exact L].
    rewrite vsum_cons by (rewrite Ex; lia). rewrite Ex. now rewrite zip_fadd_assoc.
Qed.

Theorem batch_shares key ctx ms (aggs : list (list F)) : ctx_ok ctx -> aggregate_shares (Prio3Vdaf p) ctx tt key ms = Ok aggs ->
  vecs S_ (OUTPUT_LEN flp) aggs /\
  forall j, 1 <= j < S_ -> exists hs, mapM (fun r => helper_out p ctx (rand_of r) j) ms = Ok hs /\ nth j aggs [] = vsum (OUTPUT_LEN flp) hs.
Proof.
  intros Hc H. unfold aggregate_shares in H. apply bind_Ok in H. destruct H as (outs & EM & EF).
  assert (HV : Forall (vecs S_ (OUTPUT_LEN flp)) outs /\ forall j, 1 <= j < S_ -> mapM (fun r => helper_out p ctx (rand_of r) j) ms = Ok (map (fun o => nth j o []) outs)).
  { clear EF. revert outs EM. induction ms as [|[[m nonce] rand] ms' IH]; intros outs EM; cbn [mapM] in EM.
    - injection EM as <-. split; [constructor|easy].
    - apply bind_Ok in EM. destruct EM as (o & Eo & EM). apply bind_Ok in EM. destruct EM as (os & Eos & EM). injection EM as <-.
      destruct (report_outputs key ctx m nonce rand o Hc Eo) as [Vo Ho]. destruct (IH os Eos) as [V1 H1]. split; [now constructor|].
      intros j Hj. cbn [mapM map]. unfold rand_of at 1. cbn [snd]. rewrite (Ho j Hj). cbn [bind]. rewrite (H1 j Hj). reflexivity. }
  destruct HV as [HV HH]. unfold fold_all in EF. change (vd_SHARES (Prio3Vdaf p)) with S_ in EF.
  pose proof (mapM_Ok_length _ _ _ EF) as LA. rewrite length_range, Nat.sub_0_r in LA. change (length aggs = S_) in LA.
  assert (X : forall j, j < S_ -> nth j aggs [] = vsum (OUTPUT_LEN flp) (map (fun o => nth j o []) outs)).
  { intros j Hj. assert (Ej : fold_outputs (p3_agg_init p tt) (p3_agg_update p tt) outs j = Ok (nth j aggs [])).
    { apply mapM_nth_Ok in EF. apply (proj2 EF j j); [rewrite nth_error_range by lia; reflexivity|]. apply nth_error_nth'. lia. }
    unfold fold_outputs, p3_agg_init in Ej. cbn [bind] in Ej.
    destruct (fold_column j outs _ _ Hj (repeat_length _ _) HV Ej) as [E _]. rewrite E. apply zip_fadd_0_l. rewrite vsum_length. lia. }
  split.
  - split; [exact LA|]. apply Forall_forall. intros x Hx. destruct (In_nth _ _ [] Hx) as (j & Hj & <-). rewrite X by lia. apply vsum_length.
  - intros j Hj. exists (map (fun o => nth j o []) outs). split; [now apply HH|]. apply X. lia.
Qed.

Theorem batch_independent key key' ctx ms ms' (aggs aggs' : list (list F)) : ctx_ok ctx -> map rand_of ms = map rand_of ms' ->
  aggregate_shares (Prio3Vdaf p) ctx tt key ms = Ok aggs -> aggregate_shares (Prio3Vdaf p) ctx tt key' ms' = Ok aggs' ->
  vsum (OUTPUT_LEN flp) aggs = vsum (OUTPUT_LEN flp) aggs' -> aggs = aggs'.
Proof.
  intros Hc HR E E' HS. destruct (batch_shares _ _ _ _ Hc E) as [V H], (batch_shares _ _ _ _ Hc E') as [V' H'].
  pose proof (po_shares _ _ HO) as HSh.
  assert (HT : tl aggs = tl aggs').
  { destruct V as [L _], V' as [L' _]. destruct aggs as [|a aggs], aggs' as [|a' aggs']; cbn [length] in *; try lia. cbn [tl].
    apply (nth_ext _ _ [] []); [lia|]. intros i Hi. destruct (H (S i) ltac:(lia)) as (hs & M & X), (H' (S i) ltac:(lia)) as (hs' & M' & X').
    cbn [nth] in X, X'. rewrite X, X'. f_equal.
    assert (G : forall N (l : list (N * bytes * bytes)), mapM (fun r => helper_out p ctx (rand_of r) (S i)) l = mapM (fun r => helper_out p ctx r (S i)) (map rand_of l)).
    { intros N l. induction l as [|r l IH]; [easy|]. cbn [mapM map]. now rewrite IH. }
    rewrite G in M. rewrite G in M'. rewrite HR in M. rewrite M in M'. now injection M'. }
  assert (ES : S_ = S (S_ - 1)) by lia. rewrite ES in V, V'.
  rewrite (leader_unique _ _ _ V), (leader_unique _ _ _ V'). now rewrite HS, HT.
Qed.

(** run_vdaf() and the sum of the aggregate shares. *)
Lemma run_shares key ctx ms r : ctx_ok ctx -> run_vdaf (Prio3Vdaf p) key tt ctx ms = Ok r ->
  exists aggs : list (list F), aggregate_shares (Prio3Vdaf p) ctx tt key ms = Ok aggs /\ flp_decode flp (vsum (OUTPUT_LEN flp) aggs) (length ms) = Ok r.
Proof.
  intros Hc H. apply run_vdaf_Ok in H. destruct H as (_ & outs & aggs & EM & EF & EU). exists aggs.
  assert (EA : aggregate_shares (Prio3Vdaf p) ctx tt key ms = Ok aggs) by (unfold aggregate_shares; rewrite EM; exact EF).
  split; [exact EA|]. change (vd_unshard (Prio3Vdaf p)) with (p3_unshard p) in EU.
  unfold p3_unshard, p3_merge, p3_agg_init in EU. cbn [bind] in EU. rewrite fold_vec_add_0 in EU; [exact EU|].
  apply (batch_shares _ _ _ _ Hc EA).
Qed.
End Report.

(** ** The five circuits *)
Section Std.
Context {P : NttFieldClass}.
Notation F := (F P).

Lemma erc_length value max (e : list F) : (0 < max)%Z -> encode_range_checked_int value max = Ok e -> length e = bit_length max.
Proof.
  intros Hm H. unfold encode_range_checked_int in H. destruct (max <? value)%Z; [discriminate|].
  assert (B : bit_length max <> 0).
  { unfold bit_length. destruct max; try lia. cbn. pose proof (Pos2Nat.is_pos (Pos.size p)). lia. }
  rewrite (proj2 (Nat.eqb_neq _ _) B) in H. destruct (if (_ <=? _)%Z then _ else _) as [rest last].
  apply bind_Ok in H. destruct H as (enc & E & H). injection H as <-. rewrite app_length, (mapM_Ok_length _ _ _ E), length_range. cbn. lia.
Qed.

Lemma std_encode_length v : std_circuit P v -> forall m (meas : list F), valid_encode v m = Ok meas -> length meas = vMEAS_LEN v.
Proof.
  intros [Hf|len chunk v' E Hf|len mw chunk v' E Hf|len max chunk v' E Hf|max v' E H0 Hf] m meas H.
  - cbn [valid_encode Count] in H. destruct (_ && _); [|discriminate]. apply bind_Ok in H. destruct H as (x & _ & H). now injection H as <-.
  - apply Histogram_init_Ok in E. destruct E as (_ & _ & ->). cbn [valid_encode Histogram vMEAS_LEN] in *.
    destruct (0 <=? m)%Z; [|destruct (_ <=? _)%Z; [|discriminate]]; apply set_Ok in H; destruct H as [_ ->]; rewrite length_upd; apply repeat_length.
  - apply MultihotCountVec_init_Ok in E. destruct E as (_ & Hw & _ & _ & ->). cbn [valid_encode MultihotCountVec vMEAS_LEN] in *.
    destruct (Nat.eqb_spec (length m) (Z.to_nat len)) as [L|]; [|discriminate]. cbn [negb] in H.
    apply bind_Ok in H. destruct H as (cv & E1 & H). apply bind_Ok in H. destruct H as (w & E2 & H). injection H as <-.
    rewrite app_length, (mapM_Ok_length _ _ _ E1). apply erc_length in E2; [|lia]. unfold Multihot_bits. lia.
  - apply SumVec_init_Ok in E. destruct E as (_ & _ & Hm & _ & ->). cbn [valid_encode SumVec vMEAS_LEN] in *.
    destruct (Nat.eqb_spec (length m) (Z.to_nat len)) as [L|]; [|discriminate]. cbn [negb] in H. rewrite <- L. clear L Hf.
    assert (G : forall acc, foldM (fun encoded val => if (val <? 0)%Z || (max <? val)%Z then Raise (ValueError "entry of measurement vector is out of range")
        else let* e := encode_range_checked_int val max in Ok (encoded ++ e)) m acc = Ok meas -> length meas = length acc + length m * bit_length max).
    { clear H. induction m as [|x m IH]; intros acc H; cbn [foldM] in H; [injection H as <-; cbn; lia|].
      apply bind_Ok in H. destruct H as (acc' & E & H). apply IH in H. destruct (_ || _); [discriminate|].
      apply bind_Ok in E. destruct E as (e & E & Ea). injection Ea as <-. apply erc_length in E; [|easy]. rewrite app_length in H. cbn [length]. lia. }
    apply G in H. cbn [length] in H. lia.
  - apply Sum_init_Ok in E. destruct E as (_ & ->). cbn [valid_encode Sum vMEAS_LEN] in *. now apply erc_length in H.
Qed.

Lemma map_fint_inj (o o' : list F) : map fint o = map fint o' -> o = o'.
Proof.
  revert o'. induction o as [|x o IH]; intros [|x' o'] H; try discriminate; [easy|]. cbn [map] in H. injection H as H1 H2.
  f_equal; [now apply F_eq|now apply IH].
Qed.
Lemma std_decode_inj v : std_circuit P v -> forall o o' n n' r, length o = vOUTPUT_LEN v -> length o' = vOUTPUT_LEN v ->
  valid_decode v o n = Ok r -> valid_decode v o' n' = Ok r -> o = o'.
Proof.
  assert (ONE : forall x x' : list F, length x = 1 -> length x' = 1 -> forall z, (let* y := get x 0 in Ok (fint y)) = Ok z -> (let* y := get x' 0 in Ok (fint y)) = Ok z -> x = x').
  { intros [|x [|]] [|x' [|]] L L' z; try discriminate. cbn. intros [= <-] [= E]. f_equal. now apply F_eq. }
  intros [Hf|len chunk v' E Hf|len mw chunk v' E Hf|len max chunk v' E Hf|max v' E H0 Hf] o o' n n' r L L' H H'.
  - exact (ONE _ _ L L' _ H H').
  - apply Histogram_init_Ok in E. destruct E as (_ & _ & ->). cbn [valid_decode Histogram] in *. apply map_fint_inj. congruence.
  - apply MultihotCountVec_init_Ok in E. destruct E as (_ & _ & _ & _ & ->). cbn [valid_decode MultihotCountVec] in *. apply map_fint_inj. congruence.
  - apply SumVec_init_Ok in E. destruct E as (_ & _ & _ & _ & ->). cbn [valid_decode SumVec] in *. apply map_fint_inj. congruence.
  - apply Sum_init_Ok in E. destruct E as (_ & ->). exact (ONE _ _ L L' _ H H').
Qed.
End Std.
