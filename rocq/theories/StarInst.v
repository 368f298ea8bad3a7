(** The star topology with Prio3 and Poplar1. *)
From Verif Require Import CircuitFacts StarSpec StarFacts RobustSpec RobustFacts RobustInst DeploySpec DeployFacts DeployInst RunSpec RunFacts PingPongSpec PingPongInst Prio3 Prio3Spec FlpSpec Poplar1 Poplar1Spec.
From Verif Require Import MeasFacts CircuitInstances FlpInstances FlpProofs CircuitSpec Circuits Flp FlpBBCGGI19 Field Spec Roots RangeInt VecFacts BaseFacts PostFacts Prio3Facts Prio3Run Prio3Props Prio3Inst IdpfSpec IdpfFacts IdpfInst Poplar1Props Poplar1Facts Poplar1Run Poplar1End.
Open Scope nat_scope.

Lemma star_public_wf (p : Prio3) b ps : p3_decode_public_share p b = Ok ps -> public_share_wf p ps.
Proof.
  intros D. destruct (Nat.eq_dec (JOINT_RAND_LEN (p3_flp p)) 0) as [J|J].
  - destruct (public_share_codec_none p J) as (_ & N). rewrite N in D. injection D as <-.
    unfold public_share_wf. rewrite J. reflexivity.
  - exact (proj1 (proj2 (public_share_codec p ltac:(lia)) b ps D)).
Qed.

Lemma star_public_carries (p : Prio3) ps : public_share_wf p ps -> exists b, p3_encode_public_share ps = Ok b /\ p3_decode_public_share p b = Ok ps.
Proof.
  intros W. destruct (Nat.eq_dec (JOINT_RAND_LEN (p3_flp p)) 0) as [J|J].
  - unfold public_share_wf in W. rewrite J in W. cbn [Nat.ltb Nat.leb] in W. subst ps.
    destruct (public_share_codec_none p J) as (E & D). eauto.
  - exact (proj1 (public_share_codec p ltac:(lia)) ps W).
Qed.

Section P3.
Context (p : Prio3) (lim : Z) (HO : Prio3Ok p lim).
Notation flp := (p3_flp p).
Notation S_ := (p3_SHARES p).
Notation F := (F (p3_field p)).
Notation Rep := (Measurement (p3_flp p) * bytes * bytes)%type.
Context (good : list F -> Prop) (valid : list F -> list F -> Prop) (HF : FlpOk flp good valid).
Context (key ctx : bytes) (Hc : ctx_ok ctx) (Hk : length key = p3_VERIFY_KEY_SIZE p).
Notation V := (Prio3Vdaf p).
Notation OL := (OUTPUT_LEN flp).
Definition star_inv (l : list ((list F * option bytes) * (list F * option bytes))) : Prop := Forall (fun x => verifier_share_wf p (snd x)) l.

Lemma p3_star_exchangeable : StarExchangeable V ctx tt star_inv.
Proof.
  split.
  - intros l hs h H Hin. unfold star_inv in H. inversion H as [|? ? _ H1]; subst. rewrite Forall_forall in H1.
    exact (proj1 (verifier_share_codec p (po_field _ _ HO) (fst l)) (snd h) (H1 h Hin)).
  - intros l hs msg _ M. change (p3_verifier_shares_to_message p ctx tt (map snd (l :: hs)) = Ok msg) in M.
    assert (W : msg <> Some []).
    { unfold p3_verifier_shares_to_message in M. apply bind_Ok in M as ((vs & parts) & _ & M); cbv beta iota in M. apply bind_Ok in M as (r & _ & M).
      destruct (0 <? JOINT_RAND_LEN flp).
      - apply bind_Ok in M as (seed & E & M). destruct (joint_rand_seed_ok p lim HO ctx parts Hc) as (seed' & E' & L).
        assert (seed' = seed) by congruence; subst seed'. injection M as <-.
        intros X; injection X as ->. pose proof (po_seed _ _ HO). cbn in L. lia.
      - injection M as <-. discriminate. }
    destruct (proj1 (message_codec p (fst l)) msg W) as (b & E & D). exists b. split; [exact E|]. intros h _. exact D.
  - intros l hs msg next _ _ N. exfalso. cbn [mapM] in N. apply bind_Ok in N. destruct N as (x & N & _).
    unfold star_continue in N. apply bind_Ok in N. destruct N as (r & N & Nr). change (p3_verify_next p ctx (fst l) msg = Ok r) in N.
    unfold p3_verify_next in N. destruct (fst l) as (o & c). apply bind_Ok in N as (u & _ & N). injection N as <-. discriminate.
Qed.

Lemma shares_pos : 1 <= vd_SHARES V.
Proof. change (vd_SHARES V) with S_. pose proof (po_shares _ _ HO). lia. Qed.

Lemma p3_init_inv nonce ps iss : public_share_wf p ps -> (forall j is, nth_error iss j = Some is -> j < S_ -> input_share_wf p j is) ->
  forall init, mapM (fun j => let* is := get iss j in vd_verify_init V key ctx j tt nonce ps is) (range 0 (vd_SHARES V)) = Ok init -> star_inv init.
Proof.
  intros WP WI init M. apply mapM_range_Ok in M. destruct M as (L & M). apply Forall_forall. intros x Hx.
  apply In_nth_error in Hx. destruct Hx as (j & Hj). pose proof (M j x Hj) as E. apply bind_Ok in E. destruct E as (is & G & E).
  assert (Hl : j < length init) by (apply nth_error_Some; intros X; refine (eq_ind None (fun o => match o with None => True | Some _ => False end) I _ (eq_trans (eq_sym X) Hj))). rewrite L in Hl.
  unfold get in G. destruct (nth_error iss j) as [is'|] eqn:Gi; [|discriminate]. injection G as ->.
  destruct x as (st & sh). exact (proj1 (p3_init_wf p lim HO good valid HF key ctx Hc Hk j nonce ps is st sh Hl (WI j is Gi Hl) WP E)).
Qed.

(** Any strings: the star topology verifies exactly what direct verification of
    the decoded shares verifies. *)
Theorem p3_star_bytes nonce bps bs outs :
  star_run V ctx key [] nonce bps bs = Ok outs <->
  exists ps iss, p3_decode_public_share p bps = Ok ps /\ length iss = S_ /\ S_ <= length bs /\
    (forall j b is, nth_error bs j = Some b -> nth_error iss j = Some is -> p3_decode_input_share p j b = Ok is) /\
    verify_report V ctx tt key nonce ps iss = Ok outs.
Proof.
  assert (Q : forall ps iss, p3_decode_public_share p bps = Ok ps -> length iss = S_ -> S_ <= length bs ->
    (forall j b is, nth_error bs j = Some b -> nth_error iss j = Some is -> p3_decode_input_share p j b = Ok is) ->
    star_run V ctx key [] nonce bps bs = verify_report V ctx tt key nonce ps iss).
  { intros ps iss DP L Lb DI.
    assert (Ef : star_run V ctx key [] nonce bps bs = star_run V ctx key [] nonce bps (firstn S_ bs)).
    { unfold star_run. f_equal. apply mapM_ext_in. intros j Hj. apply in_range in Hj. change (vd_SHARES V) with S_ in Hj. unfold get.
      rewrite nth_error_firstn || (rewrite <- (firstn_skipn S_ bs) at 1; rewrite nth_error_app1 by (rewrite firstn_length; lia)). reflexivity. }
    rewrite Ef. apply (star_run_eq V ctx key [] tt eq_refl star_inv p3_star_exchangeable nonce bps (firstn S_ bs) ps iss shares_pos DP).
    - exact (eq_trans (eq_trans (firstn_length _ _) (Nat.min_l _ _ Lb)) (eq_sym L)).
    - intros j b is Hj Eb. apply DI. change (vd_SHARES V) with S_ in Hj. rewrite <- (firstn_skipn S_ bs). rewrite nth_error_app1 by (rewrite firstn_length; lia). exact Eb.
    - apply p3_init_inv.
      + exact (star_public_wf p bps ps DP).
      + intros j is Ei Hj. destruct (nth_error bs j) as [b|] eqn:Eb; [|apply nth_error_None in Eb; lia].
        exact (proj1 (proj2 (input_share_codec p (po_field _ _ HO) j) b is (DI j b is Eb Ei))). }
  split.
  - intros H. destruct (star_run_decodes V ctx key [] tt eq_refl nonce bps bs outs shares_pos H) as (ps & iss & DP & L & Lb & DI).
    exists ps, iss. split; [exact DP|]. split; [exact L|]. split; [exact Lb|]. split; [exact DI|]. rewrite <- (Q ps iss DP L Lb DI). exact H.
  - intros (ps & iss & DP & L & Lb & DI & E). rewrite (Q ps iss DP L Lb DI). exact E.
Qed.

Theorem p3_star_robust nonce bps bs outs : star_run V ctx key [] nonce bps bs = Ok outs ->
  vecs S_ OL outs /\ flp_accepted p key ctx nonce (vsum OL outs).
Proof.
  intros H. apply p3_star_bytes in H. destruct H as (ps & iss & DP & L & Lb & DI & E).
  refine (report_robust p lim HO good valid HF key ctx Hc Hk nonce ps iss outs (star_public_wf p bps ps DP) _ E).
  intros j is Ei. assert (Hj : j < length iss) by (apply nth_error_Some; congruence).
  destruct (nth_error bs j) as [b|] eqn:Eb; [|apply nth_error_None in Eb; lia].
  exact (proj1 (proj2 (input_share_codec p (po_field _ _ HO) j) b is (DI j b is Eb Ei))).
Qed.

Lemma star_outputs_vecs us : Forall (vecs S_ OL) (star_outputs V ctx key [] us).
Proof.
  induction us as [|u us IH]; [constructor|]. cbn [star_outputs]. destruct (star_verified V ctx key [] u) as [o|] eqn:E; [|exact IH].
  constructor; [|exact IH]. destruct u as ((nonce & bps) & bs). unfold star_verified in E.
  destruct (star_run V ctx key [] nonce bps bs) as [outs|e] eqn:R; [|discriminate]. injection E as <-. exact (proj1 (p3_star_robust _ _ _ _ R)).
Qed.

Lemma star_column (os : list (list (list F))) j : Forall (vecs S_ OL) os -> j < S_ ->
  star_collect V tt os j = Ok (vsum OL (map (fun o => nth j o []) os)).
Proof.
  intros FO Hj. unfold star_collect.
  assert (E : fold_outputs (vd_agg_init V tt) (vd_agg_update V tt) os j = foldM vec_add (map (fun o => nth j o []) os) (fzeros OL)).
  { assert (E : forall a : list F, foldM (fun a (o : list (list F)) => let* o := get o j in vec_add a o) os a = foldM vec_add (map (fun o => nth j o []) os) a).
    { induction FO as [|o os W _ IH]; intros a; [reflexivity|]. cbn [foldM map]. rewrite (get_nth o j []) by (destruct W as [-> _]; exact Hj). cbn [bind].
      destruct (vec_add a (nth j o [])) as [a'|e]; [apply IH | reflexivity]. }
    exact (E (fzeros OL)). }
  assert (FL : Forall (fun o : list F => length o = OL) (map (fun o => nth j o []) os)).
  { apply Forall_map. eapply Forall_impl; [|exact FO]. intros o (L & W). rewrite Forall_forall in W. apply W, nth_In. lia. }
  rewrite E. pose proof (fold_vec_add_0 OL _ FL) as E0.
  destruct (proj1 (proj1 (share_codec p (po_field _ _ HO))) (vsum OL (map (fun o => nth j o []) os)) I) as (b & E1 & D1).
  refine (eq_trans (f_equal (fun r => bind r _) E0) _). cbn [bind].
  refine (eq_trans (f_equal (fun r => bind r _) E1) _). exact D1.
Qed.

(** The Collector obtains the decoding of the sum of all output shares. *)
Theorem p3_star_aggregate us : let os := star_outputs V ctx key [] us in
  star_aggregate V ctx key [] tt us = flp_decode flp (vsum OL (map (vsum OL) os)) (length os).
Proof.
  intros os. pose proof (star_outputs_vecs us) as FO. fold os in FO. unfold star_aggregate. fold os.
  assert (E : mapM (star_collect V tt os) (range 0 (vd_SHARES V)) = Ok (map (fun j => vsum OL (map (fun o => nth j o []) os)) (seq 0 S_))).
  { change (vd_SHARES V) with S_. unfold range. rewrite Nat.sub_0_r.
    assert (H : forall l, (forall j, In j l -> j < S_) -> mapM (star_collect V tt os) l = Ok (map (fun j => vsum OL (map (fun o => nth j o []) os)) l)).
    { induction l as [|j l IH]; intros Hl; [reflexivity|]. cbn [mapM map]. rewrite (star_column os j FO) by (apply Hl; now left). cbn [bind].
      rewrite IH by (intros; apply Hl; now right). reflexivity. }
    apply H. intros j Hj. apply in_seq in Hj. lia. }
  rewrite E. cbn [bind]. set (aggs := map _ (seq 0 S_)).
  assert (FA : Forall (fun o : list F => length o = OL) aggs).
  { unfold aggs. apply Forall_map, Forall_forall. intros j _. apply vsum_length. }
  pose proof (fold_vec_add_0 OL aggs FA) as E0.
  change ((let* agg := foldM vec_add aggs (fzeros OL) in flp_decode flp agg (length os)) = flp_decode flp (vsum OL (map (vsum OL) os)) (length os)).
  rewrite E0. cbn [bind]. f_equal. apply (vec_eq OL); [apply vsum_length | apply vsum_length |]. intros i Hi.
  rewrite !nth_vsum by exact Hi. unfold aggs. rewrite !fsuml_map_fsum. rewrite !map_length, seq_length.
  rewrite (fsum_ext S_ _ (fun j => fsum (length os) (fun s => nth i (nth j (nth s os []) []) f0))).
  2: { intros j Hj. rewrite nth_map_seq by exact Hj. rewrite nth_vsum, fsuml_map_fsum, map_length by exact Hi. apply fsum_ext.
       intros s Hs. now rewrite (nth_map' _ _ _ []) by exact Hs. }
  rewrite fsum_exchange. apply fsum_ext. intros s Hs. rewrite (nth_map' _ _ _ []) by exact Hs. rewrite nth_vsum, fsuml_map_fsum by exact Hi.
  rewrite Forall_forall in FO. exact (eq_sym (f_equal (fun n => fsum n _) (proj1 (FO (nth s os []) (nth_In _ _ Hs))))).
Qed.

Lemma p3_star_wire r : encodable p r -> star_wire_ok V ctx key tt star_inv r.
Proof.
  destruct r as ((m & nonce) & rand). intros EN ps iss S.
  change (p3_shard p ctx m nonce rand = Ok (ps, iss)) in S.
  destruct (shard_wf p lim HO good valid HF ctx m nonce rand ps iss Hc EN S) as (L & WP & WI).
  destruct (star_public_carries p ps WP) as (bps & E1 & D1).
  assert (WI' : forall j is, nth_error iss j = Some is -> input_share_wf p j is).
  { intros j is Ei. rewrite <- (nth_error_nth iss j is Ei). apply WI. rewrite <- L. apply nth_error_Some. intros X. refine (eq_ind None (fun o => match o with None => True | Some _ => False end) I _ (eq_trans (eq_sym X) Ei)). }
  assert (B : exists bs, mapM (p3_encode_input_share p) iss = Ok bs /\
    forall j b is, nth_error bs j = Some b -> nth_error iss j = Some is -> p3_decode_input_share p j b = Ok is).
  { clear -HO WI'. 
    assert (H : forall l k, (forall j is, nth_error l j = Some is -> input_share_wf p (k + j) is) -> exists bs, mapM (p3_encode_input_share p) l = Ok bs /\
      forall j b is, nth_error bs j = Some b -> nth_error l j = Some is -> p3_decode_input_share p (k + j) b = Ok is).
    { induction l as [|is l IH]; intros k H.
      - exists []. split; [reflexivity|]. intros [|j] b is [=].
      - destruct (IH (S k)) as (bs & E & D). { intros j x Hx. replace (S k + j) with (k + S j) by lia. now apply H. }
        destruct (proj1 (input_share_codec p (po_field _ _ HO) k) is) as (b & Eb & Db). { rewrite <- (Nat.add_0_r k). now apply H. }
        exists (b :: bs). cbn [mapM]. rewrite Eb, E. split; [reflexivity|]. intros [|j] b' is' Hb Hi; cbn [nth_error] in Hb, Hi.
        + injection Hb as <-. injection Hi as <-. now rewrite Nat.add_0_r.
        + replace (k + S j) with (S k + j) by lia. now apply D. }
    exact (H iss 0 WI'). }
  destruct B as (bs & E2 & D2). exists bps, bs. split; [exact L|]. split; [exact E1|]. split; [exact D1|]. split; [exact E2|]. split; [exact D2|].
  apply p3_init_inv; [exact WP|]. intros j is Ei _. now apply WI'.
Qed.

Lemma star_accepted_not_bad m nonce rand : encodable p (m, nonce, rand) ->
  report_accepted V ctx key tt (m, nonce, rand) = true -> ~ bad_query p good key ctx nonce.
Proof.
  intros EN A. unfold report_accepted, vdaf_outputs in A.
  destruct (vd_shard V ctx m nonce rand) as [[ps iss]|e] eqn:S; cbn [bind] in A; [|discriminate A].
  change (p3_shard p ctx m nonce rand = Ok (ps, iss)) in S.
  destruct (shard_wf p lim HO good valid HF ctx m nonce rand ps iss Hc EN S) as (L & WP & WI).
  destruct (verify_report V ctx tt key nonce ps iss) as [outs|] eqn:R; [|discriminate]. unfold verify_report in R.
  apply bind_Ok in R. destruct R as (init & M & _). apply mapM_range_Ok in M. destruct M as (Li & M). pose proof shares_pos as Hp.
  destruct init as [|[st sh] init]; [exfalso; rewrite <- Li in Hp; cbn in Hp; lia|]. specialize (M 0 (st, sh) eq_refl). apply bind_Ok in M. destruct M as (is & G & E).
  destruct iss as [|is0 iss]; [discriminate|]. assert (is0 = is) by (cbn in G; congruence). subst is0.
  exact (proj2 (p3_init_wf p lim HO good valid HF key ctx Hc Hk 0 nonce ps is st sh Hp (WI 0 is Hp) WP E)).
Qed.

Theorem p3_star_deploy (expected : list Rep -> AggResult flp) ms : Forall (encodable p) ms ->
  (forall ms', incl ms' ms -> run_result p good key ctx ms' (expected ms')) ->
  star_result p good key ctx ms expected.
Proof.
  intros EN R.
  destruct (rejected_all p good key ctx expected ms EN) as [O|RB]; [intros r I; apply R; intros x [<-|[]]; exact I|now left|].
  pose proof (R (filter (report_accepted V ctx key tt) ms) ltac:(intros x I; apply filter_In in I; tauto)) as RF.
  assert (NB : forall m nonce rand, In (m, nonce, rand) ms -> report_accepted V ctx key tt (m, nonce, rand) = false <-> bad_query p good key ctx nonce).
  { intros m nonce rand I. split; [exact (RB _ I)|]. intros B. destruct (report_accepted V ctx key tt (m, nonce, rand)) eqn:A; [|reflexivity].
    exfalso. rewrite Forall_forall in EN. exact (star_accepted_not_bad m nonce rand (EN _ I) A B). }
  destruct RF as [RF|[(_ & RF)|(msg & _ & m & nonce & rand & I & B)]]; [|now left|].
  - right. exists (report_accepted V ctx key tt). split; [|exact NB].
    refine (proj2 (star_deploy_run V ctx key [] tt eq_refl star_inv p3_star_exchangeable shares_pos Hk ms _ _ _) RF).
    + eapply Forall_impl; [|exact EN]. exact p3_star_wire.
    + intros outs j a _. exact (proj1 (proj1 (share_codec p (po_field _ _ HO))) a I).
  - apply filter_In in I as (I & A). pose proof (proj2 (NB m nonce rand I) B) as X. congruence.
Qed.
End P3.

Section P1.
Context (p : Poplar1) (HWi : wf_field (id_field_inner (p1_idpf p))) (HWl : wf_field (id_field_leaf (p1_idpf p))) (Hfit : p1_message_fits p).
Notation V := (p1_vdaf p).
Definition p1_star_inv (l : list (Poplar1VerifyState p * FieldVec (id_field_inner (p1_idpf p)) (id_field_leaf (p1_idpf p)))) : Prop :=
  exists x y, l = [x; y] /\ p1_inv p (fst x) (snd x) (fst y) (snd y).

Lemma p1_star_exchangeable ctx ap : StarExchangeable V ctx ap p1_star_inv.
Proof.
  pose proof (p1_exchangeable p HWi HWl ctx ap Hfit) as EX. split.
  - intros l hs h (x & y & [= -> ->] & H) [<-|[]]. destruct (ex_share1 _ _ _ _ EX _ _ _ _ H) as (b & E & D & _). now exists b.
  - intros l hs msg (x & y & [= -> ->] & H) M. destruct (ex_msg1 _ _ _ _ EX _ _ _ _ msg H M) as (b & E & D & _). exists b.
    split; [exact E|]. intros h [<-|[]]. exact D.
  - intros l hs msg next (x & y & [= -> ->] & H) M N. cbn [mapM] in N.
    apply bind_Ok in N. destruct N as ((st0 & s0) & N0 & N). apply bind_Ok in N. destruct N as (ys & N1 & N). apply bind_Ok in N1. destruct N1 as ((st1 & s1) & N1 & N2).
    unfold star_continue in N0, N1. apply bind_Ok in N0. destruct N0 as ([z0|o0] & N0 & Z0); [|discriminate]. injection Z0 as ->.
    apply bind_Ok in N1. destruct N1 as ([z1|o1] & N1 & Z1); [|discriminate]. injection Z1 as ->.
    cbn [bind] in N2. injection N2 as <-. injection N as <-. exists (st0, s0), (st1, s1). split; [reflexivity|].
    exact (ex_next _ _ _ _ EX _ _ _ _ msg _ _ _ _ H M N0 N1).
Qed.

Theorem p1_star key ctx agg_param nonce bps b0 b1 ap ps is0 is1 o0 o1 :
  p1_decode_agg_param agg_param = Ok ap -> p1_decode_public_share p bps = Ok ps ->
  p1_decode_input_share p 0 b0 = Ok is0 -> p1_decode_input_share p 1 b1 = Ok is1 ->
  star_run V ctx key agg_param nonce bps [b0; b1] = Ok [o0; o1] <-> p1_execute p key ctx ap nonce ps is0 is1 = Ok (o0, o1).
Proof.
  intros DA DP D0 D1. rewrite <- p1_execute_broadcast.
  rewrite (broadcast_report V ctx ap key nonce ps is0 is1 o0 o1 eq_refl).
  rewrite (star_run_eq V ctx key agg_param ap DA p1_star_inv (p1_star_exchangeable ctx ap) nonce bps [b0; b1] ps [is0; is1]); [reflexivity | exact (le_S _ _ (le_n 1)) | exact DP | reflexivity | |].
  - intros [|[|j]] b is _ Hb Hi; cbn [nth_error] in Hb, Hi; [injection Hb as <-; injection Hi as <-; exact D0 | injection Hb as <-; injection Hi as <-; exact D1 | destruct j; discriminate].
  - intros init M. change (range 0 (vd_SHARES V)) with [0; 1] in M. cbn [mapM] in M. cbn [get nth_error bind] in M.
    apply bind_Ok in M. destruct M as ((st0 & s0) & V0 & M). apply bind_Ok in M. destruct M as (ys & M1 & M). apply bind_Ok in M1. destruct M1 as ((st1 & s1) & V1 & M2).
    cbn [bind] in M2. injection M2 as <-. injection M as <-. exists (st0, s0), (st1, s1). split; [reflexivity|]. cbn [fst snd].
    change (p1_verify_init p key ctx 0 ap nonce ps is0 = Ok (st0, s0)) in V0. change (p1_verify_init p key ctx 1 ap nonce ps is1 = Ok (st1, s1)) in V1.
    apply init_state in V0 as (m0 & -> & _ & L0 & C0 & D0'). apply init_state in V1 as (m1 & -> & _ & L1 & C1 & D1').
    exists (fst ap). cbn [fst snd]. repeat split; try assumption; lia.
Qed.
End P1.

Section Std.
Context (P : NttFieldClass) (HP : NttOk P) (HW : wf_field P).
Context (ID : Z) (HID : (0 <= ID < 2 ^ 32)%Z) (ts : TurboShake) (bound shares proofs : nat).
Context (Hshares : 2 <= shares < 256) (HsM : (Z.of_nat shares < MODULUS P)%Z) (Hpr : proofs < 256).
Context (key ctx : bytes) (Hc : ctx_ok ctx) (Hk : length key = 32).
Notation obj v := (prio3_obj P ID v ts bound shares proofs).

Lemma std_star v (ok : vMeasurement v -> Prop) expected ms : std_circuit P v ->
  (forall m, ok m -> exists enc, valid_encode v m = Ok enc /\ length enc = vMEAS_LEN v) ->
  (forall ms', sizes_ok (obj v) ms' -> Forall ok (map meas_of ms') -> run_result (obj v) (test_points_ok v) key ctx ms' (expected ms')) ->
  sizes_ok (obj v) ms -> Forall ok (map meas_of ms) ->
  star_result (obj v) (test_points_ok v) key ctx ms expected.
Proof.
  intros Hv EN R SZ OK.
  apply (p3_star_deploy (obj v) (obj_lim P bound) (obj_ok P HW ID HID ts bound shares proofs Hshares HsM Hpr v)
    (test_points_ok v) (circuit_zero v) (std_flp P HP ID ts bound shares proofs v Hv) key ctx Hc Hk expected ms).
  - rewrite Forall_map in OK. unfold sizes_ok in SZ. rewrite Forall_forall in *. intros ((m & nonce) & rand) I.
    specialize (SZ _ I). specialize (OK _ I). cbn in SZ. destruct SZ as (S1 & S2).
    destruct (EN m OK) as (enc & E & L). split; [exact S1|]. split; [exact S2|]. exists enc. split; [exact E|exact L].
  - intros ms' I. apply R.
    + unfold sizes_ok in *. rewrite Forall_forall in *. intros x Hx. exact (SZ x (I x Hx)).
    + rewrite Forall_map in *. rewrite Forall_forall in *. intros x Hx. exact (OK x (I x Hx)).
Qed.

Theorem star_count ms : fits P Mul 1 -> sizes_ok (obj (Count P)) ms ->
  Forall (fun m => m = 0 \/ m = 1)%Z (map meas_of ms) ->
  star_result (obj (Count P)) (test_points_ok (Count P)) key ctx ms (fun ms' => zsuml (map meas_of ms') mod MODULUS P)%Z.
Proof.
  intros Hf SZ OK. apply (std_star (Count P) (fun m => m = 0 \/ m = 1)%Z); try assumption.
  - now apply std_Count.
  - intros m H. exists [fof m]. destruct (Count_encode HP m H) as (A & _). now split.
  - intros ms' S' O'. exact (run_count P HP HW ID HID ts bound shares proofs Hshares HsM Hpr key ctx Hc Hk ms' Hf S' O').
Qed.

Theorem star_sum max ms : (0 < max)%Z -> (2 ^ Z.of_nat (bit_length max) < MODULUS P)%Z ->
  fits P (Sum_gadget (bit_length max)) (bit_length max) ->
  sizes_ok (obj (Sum P max)) ms -> Forall (fun m => 0 <= m <= max)%Z (map meas_of ms) ->
  star_result (obj (Sum P max)) (test_points_ok (Sum P max)) key ctx ms (fun ms' => zsuml (map meas_of ms') mod MODULUS P)%Z.
Proof.
  intros H0 H1 Hf SZ OK. apply (std_star (Sum P max) (fun m => 0 <= m <= max)%Z); try assumption.
  - eapply std_Sum; [apply Sum_init_Ok; split; [exact H1 | reflexivity] | easy | easy].
  - intros m H. destruct (Sum_encode HP max H0 H1 m H) as (enc & A & B & _). exists enc. now split.
  - intros ms' S' O'. exact (run_sum P HP HW ID HID ts bound shares proofs Hshares HsM Hpr key ctx Hc Hk max ms' H0 H1 Hf S' O').
Qed.

Theorem star_sumvec len max chunk ms : 1 <= len -> 1 <= chunk ->
  (0 < max)%Z -> (2 ^ Z.of_nat (bit_length max) < MODULUS P)%Z ->
  fits P (ParallelSum Mul chunk) (SumVec_calls len (bit_length max) chunk) ->
  sizes_ok (obj (SumVec P len max chunk)) ms ->
  Forall (fun m => length m = len /\ Forall (fun x => 0 <= x <= max)%Z m) (map meas_of ms) ->
  star_result (obj (SumVec P len max chunk)) (test_points_ok (SumVec P len max chunk)) key ctx ms
    (fun ms' => map (fun x => x mod MODULUS P)%Z (col_totals len (map meas_of ms'))).
Proof.
  intros Hl Hch H0 H1 Hf SZ OK.
  apply (std_star (SumVec P len max chunk) (fun m => length m = len /\ Forall (fun x => 0 <= x <= max)%Z m)); try assumption.
  - apply (std_SumVec P (Z.of_nat len) max (Z.of_nat chunk)).
    + apply SumVec_init_Ok. rewrite !Nat2Z.id. repeat split; try easy; lia.
    + now rewrite !Nat2Z.id.
  - intros m (L & H). destruct (SumVec_encode HP len max chunk Hl Hch H0 H1 m L H) as (enc & A & B & _). exists enc. now split.
  - intros ms' S' O'. exact (run_sumvec P HP HW ID HID ts bound shares proofs Hshares HsM Hpr key ctx Hc Hk len max chunk ms' Hl Hch H0 H1 Hf S' O').
Qed.

Theorem star_histogram len chunk ms : 1 <= len -> 1 <= chunk ->
  fits P (ParallelSum Mul chunk) (Histogram_calls len chunk) ->
  sizes_ok (obj (Histogram P len chunk)) ms ->
  Forall (fun m => 0 <= m < Z.of_nat len)%Z (map meas_of ms) ->
  star_result (obj (Histogram P len chunk)) (test_points_ok (Histogram P len chunk)) key ctx ms
    (fun ms' => map (fun i => Z.of_nat (count_occ Z.eq_dec (map meas_of ms') (Z.of_nat i)) mod MODULUS P)%Z (seq 0 len)).
Proof.
  intros Hl Hch Hf SZ OK.
  apply (std_star (Histogram P len chunk) (fun m => 0 <= m < Z.of_nat len)%Z); try assumption.
  - apply (std_Histogram P (Z.of_nat len) (Z.of_nat chunk)).
    + apply Histogram_init_Ok. rewrite !Nat2Z.id. repeat split; try easy; lia.
    + now rewrite !Nat2Z.id.
  - intros m H. destruct (Histogram_encode HP len chunk Hl Hch m H) as (A & _). exists (onehot len (Z.to_nat m)). split; [exact A|apply onehot_length].
  - intros ms' S' O'. exact (run_histogram P HP HW ID HID ts bound shares proofs Hshares HsM Hpr key ctx Hc Hk len chunk ms' Hl Hch Hf S' O').
Qed.

Theorem star_multihot len mw chunk ms : 1 <= len -> 1 <= mw <= len -> (Z.of_nat len < MODULUS P)%Z -> 1 <= chunk ->
  fits P (ParallelSum Mul chunk) (Multihot_calls len mw chunk) ->
  sizes_ok (obj (MultihotCountVec P len mw chunk)) ms ->
  Forall (fun m => length m = len /\ (weight m <= Z.of_nat mw)%Z) (map meas_of ms) ->
  star_result (obj (MultihotCountVec P len mw chunk)) (test_points_ok (MultihotCountVec P len mw chunk)) key ctx ms
    (fun ms' => map (fun i => Z.of_nat (length (filter (fun m => nth i m false) (map meas_of ms'))) mod MODULUS P)%Z (seq 0 len)).
Proof.
  intros Hl Hmw HlM Hch Hf SZ OK.
  apply (std_star (MultihotCountVec P len mw chunk) (fun m => length m = len /\ (weight m <= Z.of_nat mw)%Z)); try assumption.
  - apply (std_MultihotCountVec P (Z.of_nat len) (Z.of_nat mw) (Z.of_nat chunk)).
    + apply MultihotCountVec_init_Ok. rewrite !Nat2Z.id. repeat split; try easy; lia.
    + now rewrite !Nat2Z.id.
  - intros m (L & H). destruct (MultihotCountVec_encode HP len mw chunk Hl (proj1 Hmw) ltac:(lia) Hch m L H) as (enc & A & B & _). exists enc. now split.
  - intros ms' S' O'. exact (run_multihot P HP HW ID HID ts bound shares proofs Hshares HsM Hpr key ctx Hc Hk len mw chunk ms' Hl Hmw HlM Hch Hf S' O').
Qed.
End Std.
