(** Proofs for C93: forged reports. *)
From Verif Require Import ForgeSpec ForgeFacts Prio3Run Prio3Facts VdafFacts PostFacts BaseFacts.
Open Scope nat_scope.

Section Run.
Context (p : Prio3) (lim : Z) (HO : Prio3Ok p lim).
Notation field := (p3_field p).
Notation flp := (p3_flp p).
Notation xof := (p3_xof p).
Notation S_ := (p3_SHARES p).
Notation PR := (p3_PROOFS p).
Notation F := (F (p3_field p)).
Context (good : list F -> Prop) (valid : list F -> list F -> Prop) (HF : FlpOk flp good valid).

(** Verification of any report whose proofs are accepted. *)
Theorem verified_run key ctx nonce public iss ms prs blinds jr seed parts qr out aggs :
  length iss = S_ -> vecs S_ (MEAS_LEN flp) ms -> vecs S_ (PROOF_LEN flp * PR) prs ->
  (forall j, j < S_ -> forall d, expand_input_share p ctx j (nth j iss d) = Ok (nth j ms [], nth j prs [], nth j blinds None)) ->
  length jr = JOINT_RAND_LEN flp * PR ->
  (forall j, j < S_ -> verify_joint_rand p ctx j (nth j blinds None) (nth j ms []) nonce public = Ok (seed, parts j, jr)) ->
  (if 0 <? JOINT_RAND_LEN flp
   then exists s ps, seed = Some s /\ length ps = S_ /\ (forall j, j < S_ -> parts j = Some (nth j ps [])) /\
          joint_rand_seed p ctx ps = Ok s
   else seed = None) ->
  query_rands p key ctx nonce = Ok qr -> length qr = QUERY_RAND_LEN flp * PR ->
  (forall k, k < PR -> good (piece (QUERY_RAND_LEN flp) k qr)) ->
  (forall k, k < PR -> exists ver,
     flp_query flp (vsum (MEAS_LEN flp) ms) (vsum (PROOF_LEN flp) (map (piece (PROOF_LEN flp) k) prs))
       (piece (QUERY_RAND_LEN flp) k qr) (piece (JOINT_RAND_LEN flp) k jr) 1 = Ok ver /\ flp_decide flp ver = Ok true) ->
  flp_truncate flp (vsum (MEAS_LEN flp) ms) = Ok out ->
  vecs S_ (OUTPUT_LEN flp) aggs ->
  exists outs, vecs S_ (OUTPUT_LEN flp) outs /\ vsum (OUTPUT_LEN flp) outs = out /\
    run_report (sending (Prio3Vdaf p)) key ctx tt aggs ((public, iss), nonce, []) = Ok (zip_with (zip_with fadd) aggs outs).
Proof.
  intros Liss HmsV HprV HE Ljr Hvj Hseed Eqr Hqr Hgood Hdec Htr Hagg.
  pose proof (po_shares _ _ HO) as HS. pose proof (po_shares_field _ _ HO) as HSF.
  destruct (fo_truncate _ _ _ HF S_ ms HmsV) as (outs & Houts & Hmap & Hsum).
  rewrite Htr in Hsum. injection Hsum as Hsum.
  exists outs. split; [exact Houts|]. split; [symmetry; exact Hsum|].
  unfold run_report. change (vd_shard (sending (Prio3Vdaf p)) ctx (public, iss) nonce []) with (Ok (public, iss)). cbn [bind].
  change (run_verify_init (sending (Prio3Vdaf p))) with (run_verify_init (Prio3Vdaf p)).
  change (run_rounds (sending (Prio3Vdaf p))) with (run_rounds (Prio3Vdaf p)).
  change (run_finish (sending (Prio3Vdaf p))) with (run_finish (Prio3Vdaf p)).
  assert (Hout : forall j, j < S_ -> flp_truncate flp (nth j ms []) = Ok (nth j outs [])).
  { intros j Hj. apply (mapM_Ok_nth _ _ _ [] [] Hmap). destruct HmsV. lia. }
  assert (Hps : forall j, j < S_ -> length (nth j prs []) = PROOF_LEN flp * PR).
  { intros j Hj. destruct HprV as [L1 L2].
    apply (Forall_nth_len (fun x => length x = PROOF_LEN flp * PR)); [easy | lia]. }
  assert (Hvi : forall j is, j < S_ -> get iss j = Ok is ->
    p3_verify_init p key ctx j tt nonce public is =
    let* query_rands := query_rands p key ctx nonce in
    let* (verifiers_share, _, _, _) := for_range 0 PR ([], nth j prs [], query_rands, jr)
    (fun '(verifiers_share, proofs_share, query_rands, joint_rands) _ =>
      let* (proof_share, proofs_share) := front (PROOF_LEN flp) proofs_share in
      let* (query_rand, query_rands) := front (QUERY_RAND_LEN flp) query_rands in
      let* (joint_rand, joint_rands) :=
        (if 0 <? JOINT_RAND_LEN flp then front (JOINT_RAND_LEN flp) joint_rands else Ok ([], joint_rands)) in
      let* v := flp_query flp (nth j ms []) proof_share query_rand joint_rand S_ in
      Ok (verifiers_share ++ v, proofs_share, query_rands, joint_rands)) in
    Ok ((nth j outs [], seed), (verifiers_share, parts j))).
  { intros j is Hj Hg. unfold p3_verify_init.
    pose proof (HE j Hj is) as HE'.
    apply get_Ok in Hg. rewrite (nth_error_nth _ _ is Hg) in HE'. rewrite HE'. cbn [bind].
    rewrite Hout by easy. cbn [bind]. rewrite Hvj by easy. cbn [bind]. easy. }
  assert (HprP : forall k, k < PR -> vecs S_ (PROOF_LEN flp) (map (piece (PROOF_LEN flp) k) prs)).
  { intros k Hk. destruct HprV as [L1 L2]. split; [now rewrite map_length|].
    apply Forall_forall. intros x Hx. apply in_map_iff in Hx. destruct Hx as (y & <- & Hy).
    apply piece_length with PR; [|easy]. rewrite Forall_forall in L2. now apply L2. }
  assert (Hnth : forall k j, j < S_ -> nth j (map (piece (PROOF_LEN flp) k) prs) [] = piece (PROOF_LEN flp) k (nth j prs [])).
  { intros k j Hj. apply nth_map'. destruct HprV. lia. }
  destruct (finite_choice (@nil (list F)) (fun k VS => vecs S_ (VERIFIER_LEN flp) VS /\
        (forall j, j < S_ -> flp_query flp (nth j ms []) (piece (PROOF_LEN flp) k (nth j prs []))
           (piece (QUERY_RAND_LEN flp) k qr) (piece (JOINT_RAND_LEN flp) k jr) S_ = Ok (nth j VS [])) /\
        flp_decide flp (vsum (VERIFIER_LEN flp) VS) = Ok true) PR) as (VS & LVS & HVS).
  { intros k Hk.
      destruct (fo_query _ _ _ HF S_ ms (map (piece (PROOF_LEN flp) k) prs) (piece (QUERY_RAND_LEN flp) k qr)
        (piece (JOINT_RAND_LEN flp) k jr)) as (VS & H1 & H2 & H3); try easy; try lia.
      + now apply HprP.
      + now apply piece_length with PR.
      + now apply piece_length with PR.
      + now apply Hgood.
      + exists VS. split; [easy|]. split.
        * intros j Hj. rewrite <- Hnth by easy. now apply H2.
        * destruct (Hdec k Hk) as (ver & Q1 & Q2). congruence. }
    set (sh := fun j => concat (map (fun k => nth j (nth k VS []) []) (seq 0 PR))).
    rewrite (run_verify_init_ok (Prio3Vdaf p) key ctx tt nonce public iss
      (fun j => (nth j outs [], seed)) (fun j => (sh j, parts j))).
    2:{ intros j Hj. change (vd_SHARES (Prio3Vdaf p)) with S_ in Hj.
        destruct (get_default iss j S_ Liss Hj) as (is & Hg & _). exists is. split; [exact Hg|].
        change (vd_verify_init (Prio3Vdaf p)) with (p3_verify_init p).
        rewrite Hvi by easy. rewrite Eqr. cbn [bind].
        destruct (verify_init_loop p (nth j ms []) (nth j prs []) qr jr (fun k => nth j (nth k VS []) [])) as (st & Est);
          try easy.
        - now apply Hps.
        - intros k Hk. now apply HVS.
        - rewrite Est. cbn [bind]. easy. }
    cbn [bind]. unfold run_rounds. change (vd_ROUNDS (Prio3Vdaf p) - 1) with 0.
    rewrite for_range_nil by lia. cbn [bind].
    change (vd_SHARES (Prio3Vdaf p)) with S_.
    assert (Lag : length aggs = S_) by apply Hagg.
    assert (Hmk : forall k j, k < PR -> j < S_ -> length (nth j (nth k VS []) []) = VERIFIER_LEN flp).
    { intros k j Hk Hj. destruct (HVS k Hk) as ([L1 L2] & _).
      apply (Forall_nth_len (fun x => length x = VERIFIER_LEN flp)); [easy | lia]. }
    assert (Hmsg : p3_verifier_shares_to_message p ctx tt (map (fun j => (sh j, parts j)) (seq 0 S_)) = Ok seed).
    { unfold p3_verifier_shares_to_message.
      rewrite (shares_loop p S_ sh parts).
      - cbn [bind].
        unfold sh at 1. rewrite (vsum_concat _ PR S_ (fun k j => nth j (nth k VS []) [])) by easy.
        destruct (decide_loop p PR (fun k => vsum (VERIFIER_LEN flp) (map (fun j => nth j (nth k VS []) []) (seq 0 S_)))) as (r & Er).
        + easy.
        + intros. apply vsum_length.
        + intros k Hk. destruct (HVS k Hk) as (HV1 & _ & HV3).
          assert (EV : map (fun j => nth j (nth k VS []) []) (seq 0 S_) = nth k VS []).
          { destruct HV1 as [L1 _]. rewrite <- L1. symmetry. apply list_as_map. }
          rewrite EV.
          exact HV3.
        + rewrite Er. cbn [bind].
          destruct (0 <? JOINT_RAND_LEN flp) eqn:EJ; [|now subst seed].
          destruct Hseed as (s & ps & -> & Lps & Hparts & Hs).
          rewrite (map_ext_in _ (fun j => nth j ps [])).
          * match goal with |- context [map ?f (seq 0 S_)] => assert (Eps : map f (seq 0 S_) = ps) by (rewrite <- Lps; symmetry; apply (list_as_map ([] : bytes) ps)) end. rewrite Eps, Hs. easy.
          * intros j Hj. apply in_seq in Hj. now rewrite Hparts by lia.
      - intros j Hj. unfold sh. rewrite (length_concat_const _ (VERIFIER_LEN flp)).
        + rewrite map_length, seq_length. lia.
        + apply Forall_forall. intros x Hx. apply in_map_iff in Hx. destruct Hx as (k & <- & Hk).
          apply in_seq in Hk. apply Hmk; lia.
      - intros EJ j Hj. rewrite (proj2 (Nat.ltb_lt _ _) EJ) in Hseed.
        destruct Hseed as (s & ps & -> & Lps & Hparts & Hs). rewrite Hparts by easy. eauto. }
    assert (Eag : aggs = map (fun j => nth j aggs []) (seq 0 S_)) by (rewrite <- Lag; apply list_as_map).
    rewrite Eag at 1.
    match goal with |- ?m = _ =>
      assert (EM : m = Ok (map (fun j => zip_with fadd (nth j aggs []) (nth j outs [])) (seq 0 S_))) end.
    { apply (run_finish_ok (Prio3Vdaf p) ctx tt (fun j => (nth j outs [], seed))
      (map (fun j => (sh j, parts j)) (seq 0 S_)) seed (fun j => nth j aggs []) (fun j => nth j outs [])
      (fun j => zip_with fadd (nth j aggs []) (nth j outs []))).
    + exact Hmsg.
    + intros j Hj. cbn. unfold p3_verify_next.
      rewrite (proj2 (opt_bytes_eqb_eq seed seed) eq_refl). easy.
    + intros j Hj. cbn. unfold p3_agg_update, vec_add. change (vd_SHARES (Prio3Vdaf p)) with S_ in Hj.
      destruct Hagg as [_ A2], Houts as [Lo O2].
      assert (length (nth j aggs []) = OUTPUT_LEN flp).
      { apply (Forall_nth_len (fun x => length x = OUTPUT_LEN flp)); [easy | lia]. }
      assert (length (nth j outs []) = OUTPUT_LEN flp).
      { apply (Forall_nth_len (fun x => length x = OUTPUT_LEN flp)); [easy | lia]. }
      rewrite (proj2 (Nat.eqb_eq _ _)) by congruence. easy. }
    etransitivity; [exact EM|]. f_equal.
      destruct Houts as [Lo _].
      apply (nth_ext' []).
      * change (vd_SHARES (Prio3Vdaf p)) with S_. rewrite map_length, seq_length.
        rewrite zip_with_length, Lo, Lag. symmetry. apply Nat.min_id.
      * intros i Hi. rewrite map_length, seq_length in Hi. change (vd_SHARES (Prio3Vdaf p)) with S_ in Hi |- *.
        rewrite nth_seq_map by easy. rewrite (nth_zip_with _ _ _ _ [] []) by lia. easy.
Qed.
End Run.

Lemma raw_ok p lim : Prio3Ok p lim -> Prio3Ok (raw p) lim.
Proof. intros []. now constructor. Qed.

Lemma raw_flp_ok {P : FieldClass} (flp : Flp P) good valid : FlpOk flp good valid -> FlpOk (raw_flp flp) good valid.
Proof. intros []. now constructor. Qed.

Lemma raw_report p ctx meas nonce rand public iss ms prs blinds prove_seed pr jr proofs :
  Report (raw p) ctx meas nonce rand public iss ms prs blinds prove_seed pr jr proofs ->
  Report p ctx meas nonce rand public iss ms prs blinds prove_seed pr jr proofs.
Proof. intros []. now constructor. Qed.

Section Forged.
Context (P : NttFieldClass) (HP : NttOk P) (v : Valid P) (HV : ValidOk v) (g : gadget)
  (HG : GADGETS v = [g]).
Context (X : XofClass) (ID : Z) (vks n m : nat) (lim : Z).
Notation F := (F P).
Notation p := {| p3_field := P; p3_flp := FlpBBCGGI19 v; p3_xof := X; p3_ID := ID;
                 p3_VERIFY_KEY_SIZE := vks; p3_SHARES := n; p3_PROOFS := m |}.
Context (HO : Prio3Ok p lim) (valid : list F -> list F -> Prop) (HF : FlpOk (FlpBBCGGI19 v) (test_points_ok v) valid).

Theorem forged_report key ctx enc nonce rand public iss qr out aggs :
  ctx_ok ctx -> length key = vks -> length nonce = p3_NONCE_SIZE -> length rand = RAND_SIZE p ->
  length enc = vMEAS_LEN v -> (forall jr, length jr = vJOINT_RAND_LEN v -> answerable v enc jr) ->
  valid_truncate v enc = Ok out ->
  p3_shard (raw p) ctx enc nonce rand = Ok (public, iss) ->
  query_rands p key ctx nonce = Ok qr -> (forall k, k < m -> test_points_ok v (piece (query_rand_len v) k qr)) ->
  vecs n (vOUTPUT_LEN v) aggs ->
  exists proofs outs, length proofs = proof_len v * m /\ vecs n (vOUTPUT_LEN v) outs /\ vsum (vOUTPUT_LEN v) outs = out /\
    run_report (sending (Prio3Vdaf p)) key ctx tt aggs ((public, with_proofs proofs iss), nonce, [])
    = Ok (zip_with (zip_with fadd) aggs outs).
Proof.
  intros Hc Hk Hn Hr Le Ha Ht Es Eq Hg Va.
  pose proof (po_shares _ _ HO) as HS. pose proof (po_shares_field _ _ HO) as HSF. cbn in HS, HSF.
  pose proof (shard_post (raw p) lim (raw_ok p lim HO) (test_points_ok v) valid (raw_flp_ok _ _ _ HF) ctx enc enc nonce rand Hc Hn Hr eq_refl Le) as SP.
  rewrite Es in SP. cbn [post] in SP. destruct SP as (ms & prs & blinds & prove_seed & pr & jr & proofs & R).
  apply raw_report in R.
  destruct (report_joint p lim HO _ _ _ _ _ _ _ _ _ _ _ _ _ Hc R) as (Ljr & seed & parts & Hvj & Hseed).
  pose proof (rp_meas_vecs _ _ _ _ _ _ _ _ _ _ _ _ _ _ R) as HmsV.
  pose proof (rp_proof_vecs _ _ _ _ _ _ _ _ _ _ _ _ _ _ R) as HprV.
  pose proof (rp_meas _ _ _ _ _ _ _ _ _ _ _ _ _ _ R) as Hm.
  pose proof (rp_len _ _ _ _ _ _ _ _ _ _ _ _ _ _ R) as Liss.
  pose proof (rp_wf _ _ _ _ _ _ _ _ _ _ _ _ _ _ R) as Hwf.
  pose proof (rp_expand _ _ _ _ _ _ _ _ _ _ _ _ _ _ R) as Hex.
  cbn in HmsV, HprV, Liss, Hwf, Hex, Ljr. change (vsum (vMEAS_LEN v) ms = enc) in Hm.
  destruct iss as [|is0 helpers]; [cbn in Liss; lia|].
  specialize (Hwf 0 is0 ltac:(lia)) as W0. cbn in W0. destruct is0 as [m0 p0 b0|]; [|now destruct W0].
  pose proof (Hex 0 ltac:(lia) (Leader m0 p0 b0)) as E0. cbn in E0. injection E0 as Em0 Ep0 Eb0.
  destruct prs as [|p0' prs]; [destruct HprV as [L _]; cbn in L; lia|].
  assert (Lqr : length qr = query_rand_len v * m).
  { assert (Lkey : length key = SEED_SIZE X) by (rewrite Hk; exact (po_key _ _ HO)).
    pose proof (query_rands_post p lim HO key ctx nonce Hc Lkey) as Hqr. rewrite Eq in Hqr. exact Hqr. }
  assert (Vh : forall k, k < m -> vecs (n - 1) (proof_len v) (map (piece (proof_len v) k) prs)).
  { intros k Hk'. destruct HprV as [L1 L2]. cbn in L1. apply Forall_inv_tail in L2. split; [rewrite map_length; change (S (@length (list F) prs) = n) in L1; rewrite <- L1; cbn; now rewrite Nat.sub_0_r|].
    apply Forall_map. eapply Forall_impl; [|exact L2]. intros x Hx. now apply piece_length with m. }
  destruct (finite_choice (@nil F) (fun k q => length q = proof_len v /\ exists vs,
      mapM (fun '(x, y) => bbcggi19_query v x y (piece (query_rand_len v) k qr) (piece (vJOINT_RAND_LEN v) k jr) n)
        (combine ms (q :: map (piece (proof_len v) k) prs)) = Ok vs /\
      bbcggi19_decide v (vsum (verifier_len v) vs) = Ok true) m) as (qs & Lqs & Hqs).
  { intros k Hk'.
    assert (Lj : length (piece (vJOINT_RAND_LEN v) k jr) = vJOINT_RAND_LEN v) by now apply piece_length with m.
    destruct (forge_shares HP v HV g HG n ms (map (piece (proof_len v) k) prs) (piece (vJOINT_RAND_LEN v) k jr)
      (piece (query_rand_len v) k qr)) as (q & vs & A1 & A2 & A3); try assumption; try lia.
    - now apply Vh.
    - now apply piece_length with m.
    - now apply Hg.
    - assert (A := Ha _ Lj). rewrite <- Hm in A. exact A.
    - exists q. split; [exact A1|]. now exists vs. }
  set (np := concat qs).
  assert (Fq : Forall (fun x => length x = proof_len v) qs).
  { apply Forall_forall. intros x Ix. apply (In_nth _ _ []) in Ix. destruct Ix as (i & Hi & <-). apply Hqs. lia. }
  assert (Lnp : length np = proof_len v * m) by (unfold np; rewrite (length_concat_const _ (proof_len v)) by exact Fq; lia).
  assert (Vn : vecs n (proof_len v * m) (np :: prs)).
  { destruct HprV as [L1 L2]. apply Forall_inv_tail in L2. split; [exact L1|]. now constructor. }
  destruct (verified_run p lim HO (test_points_ok v) valid HF key ctx nonce public (with_proofs np (Leader m0 p0 b0 :: helpers))
    ms (np :: prs) blinds jr seed parts qr out aggs) as (outs & O1 & O2 & O3); try assumption.
  - intros j Hj d. destruct j as [|j].
    + cbn. congruence.
    + exact (Hex (S j) Hj d).
  - intros k Hk'. destruct (Hqs k Hk') as (Lq & vs & E1 & E2).
    destruct (query_linear_mapM HP v HV n ms (nth k qs [] :: map (piece (proof_len v) k) prs) (piece (query_rand_len v) k qr)
      (piece (vJOINT_RAND_LEN v) k jr)) as (vs' & _ & E3 & E4); try assumption; try lia.
    + destruct (Vh k Hk') as [V1 V2]. split; [transitivity (S (n - 1)); [exact (f_equal S V1)|lia]|]. now constructor.
    + now apply piece_length with m.
    + now apply piece_length with m.
    + now apply Hg.
    + pose proof (eq_trans (eq_sym E3) E1) as Q. injection Q as ->.
      exists (vsum (verifier_len v) vs). split; [|exact E2]. cbn [map].
      assert (EP : piece (proof_len v) k np = nth k qs []) by (unfold np; apply piece_concat; [exact Fq|rewrite Lqs; exact Hk']).
      rewrite <- EP in E4. exact E4.
  - change (valid_truncate v (vsum (vMEAS_LEN v) ms) = Ok out). rewrite <- Hm in Ht. exact Ht.
  - exists np, outs. split; [exact Lnp|]. split; [exact O1|]. split; [exact O2|exact O3].
Qed.
End Forged.

Lemma unshard_vsum p shares k : Forall (fun s => length s = OUTPUT_LEN (p3_flp p)) shares ->
  p3_unshard p tt shares k = flp_decode (p3_flp p) (vsum (OUTPUT_LEN (p3_flp p)) shares) k.
Proof. intros H. unfold p3_unshard, p3_merge. cbn [p3_agg_init bind]. now rewrite fold_vec_add_0. Qed.

(** * Aggregators *)
Section Upd.
Context {P : FieldClass}.
Add Ring FringUpd : (@F_ring P).
Lemma fsuml_upd (l : list (F P)) j x : j < length l -> fsuml (upd l j x) = fadd (fsub (fsuml l) (nth j l f0)) x.
Proof.
  revert j. induction l as [|a l IH]; intros [|j] Hj; cbn [length] in Hj; try lia; cbn [upd nth];
    change (fsuml (?a :: ?b)) with (fadd a (fsuml b)).
  - ring.
  - rewrite IH by lia. ring.
Qed.
Lemma map_upd {A B} (f : A -> B) (l : list A) j x : map f (upd l j x) = upd (map f l) j (f x).
Proof. revert j. induction l as [|a l IH]; intros [|j]; cbn [upd map]; try reflexivity. now rewrite IH. Qed.

(** One entry of a list of vectors, chosen last, gives the sum any value. *)
Definition completing len (l : list (list (F P))) j (t : list (F P)) : list (F P) :=
  zip_with fadd (zip_with fsub t (vsum len l)) (nth j l []).
Lemma vsum_completing len (l : list (list (F P))) j t : j < length l -> Forall (fun s => length s = len) l -> length t = len ->
  length (completing len l j t) = len /\ vsum len (upd l j (completing len l j t)) = t.
Proof.
  intros Hj HF Ht. assert (Lj : length (nth j l []) = len) by (apply (proj1 (Forall_forall _ _) HF), nth_In, Hj).
  assert (Lc : length (completing len l j t) = len) by (unfold completing; rewrite !zip_with_length, vsum_length; lia).
  split; [exact Lc|]. apply (nth_ext' (f0 : F P)); [rewrite vsum_length; lia|]. intros i Hi. rewrite vsum_length in Hi.
  rewrite nth_vsum by exact Hi. rewrite map_upd, fsuml_upd by (rewrite map_length; exact Hj).
  unfold completing. rewrite (nth_zip_with _ _ _ _ f0 f0) by (rewrite ?zip_with_length, ?vsum_length; lia).
  rewrite (nth_zip_with _ _ _ _ f0 f0) by (rewrite ?vsum_length; lia). rewrite nth_vsum by exact Hi.
  rewrite (nth_indep _ f0 (nth i (@nil (F P)) f0)) by (rewrite map_length; exact Hj).
  rewrite (map_nth (fun x : list (F P) => nth i x f0)). ring.
Qed.
Lemma zadd_0_l len (out : list (F P)) (l : list (list (F P))) : length out = len -> (forall i, i < len -> fsuml (map (fun x => nth i x f0) l) = f0) ->
  zip_with fadd (vsum len l) out = out.
Proof.
  intros Lo Z. apply (nth_ext' (f0 : F P)); [rewrite zip_with_length, vsum_length; lia|]. intros i Hi.
  rewrite zip_with_length, vsum_length in Hi.
  rewrite (nth_zip_with _ _ _ _ f0 f0) by (rewrite ?vsum_length; lia). rewrite nth_vsum by lia. rewrite Z by lia. ring.
Qed.
Lemma fsuml_nth_zeros {A} len i (l : list A) : fsuml (map (fun x => nth i x f0) (map (fun _ : A => repeat (f0 : F P) len) l)) = f0.
Proof.
  induction l as [|x l IH]; [reflexivity|]. cbn [map].
  change (fsuml (?a :: ?b)) with (fadd a (fsuml b)). rewrite IH, nth_repeat. ring.
Qed.

Lemma vsum_shift len (l : list (list (F P))) j d : j < length l -> Forall (fun s => length s = len) l -> length d = len ->
  vsum len (upd l j (zip_with fadd (nth j l []) d)) = zip_with fadd (vsum len l) d.
Proof.
  intros Hj HF Hd. assert (Lj : length (nth j l []) = len) by (apply (proj1 (Forall_forall _ _) HF), nth_In, Hj).
  apply (nth_ext' (f0 : F P)); [rewrite zip_with_length, !vsum_length; lia|]. intros i Hi. rewrite vsum_length in Hi.
  rewrite nth_vsum by exact Hi. rewrite map_upd, fsuml_upd by (rewrite map_length; exact Hj).
  rewrite !(nth_zip_with _ _ _ _ f0 f0) by (rewrite ?vsum_length; lia). rewrite nth_vsum by exact Hi.
  rewrite (nth_indep _ f0 (nth i (@nil (F P)) f0)) by (rewrite map_length; exact Hj).
  rewrite (map_nth (fun x : list (F P) => nth i x f0)). ring.
Qed.
Lemma complement (s : list (F P)) (counts : list Z) len : length s = len -> length counts = len -> residues (MODULUS P) counts ->
  exists t, length t = len /\ map fint (vsum len [s; t]) = counts /\ map fint (vsum len [t; s]) = counts.
Proof.
  intros Ls Lc Hr. set (c := map (fun x => fof x : F P) counts). assert (Lcc : length c = len) by (unfold c; now rewrite map_length).
  assert (Ec : map fint c = counts).
  { unfold c. rewrite map_map. rewrite <- (map_id counts) at 2. apply map_ext_in. intros x I.
    unfold residues in Hr. rewrite Forall_forall in Hr. specialize (Hr x I). unfold fint. now apply val_fof_small. }
  exists (zip_with fsub c s). split; [rewrite zip_with_length; lia|].
  split; rewrite <- Ec; f_equal; (apply (nth_ext' (f0 : F P)); [rewrite vsum_length; lia|]); intros i Hi; rewrite vsum_length in Hi;
    rewrite nth_vsum by exact Hi; cbn [map]; rewrite (nth_zip_with _ _ _ _ f0 f0) by lia;
    cbn [fsuml fold_right]; ring.
Qed.
End Upd.

Section ForgedRun.
Context (P : NttFieldClass) (HP : NttOk P) (v : Valid P) (HV : ValidOk v) (g : gadget)
  (HG : GADGETS v = [g]).
Context (X : XofClass) (ID : Z) (vks n m : nat) (lim : Z).
Notation F := (F P).
Notation p := {| p3_field := P; p3_flp := FlpBBCGGI19 v; p3_xof := X; p3_ID := ID;
                 p3_VERIFY_KEY_SIZE := vks; p3_SHARES := n; p3_PROOFS := m |}.
Context (HO : Prio3Ok p lim) (valid : list F -> list F -> Prop) (HF : FlpOk (FlpBBCGGI19 v) (test_points_ok v) valid).

Theorem forged_run key ctx vec r : ctx_ok ctx -> length key = vks -> forges v vec r ->
  forall nonce rand public iss qr, length nonce = p3_NONCE_SIZE -> length rand = RAND_SIZE p ->
  p3_shard (raw p) ctx vec nonce rand = Ok (public, iss) ->
  query_rands p key ctx nonce = Ok qr -> (forall k, k < m -> test_points_ok v (piece (query_rand_len v) k qr)) ->
  exists proofs, length proofs = proof_len v * m /\
    run_vdaf (sending (Prio3Vdaf p)) key tt ctx [((public, with_proofs proofs iss), nonce, [])] = Ok r.
Proof.
  intros Hc Hk (out & Lv & Ha & Ht & Hd).
  intros nonce rand public iss qr Hn Hr Es Eq Hg.
  set (aggs := map (fun _ : nat => repeat (f0 : F) (vOUTPUT_LEN v)) (range 0 n)).
  assert (Va : vecs n (vOUTPUT_LEN v) aggs).
  { split; [unfold aggs; rewrite map_length, length_range; lia|]. apply Forall_map, Forall_forall. intros x _. apply repeat_length. }
  destruct (forged_report P HP v HV g HG X ID vks n m lim HO valid HF key ctx vec nonce rand public iss qr out aggs)
    as (proofs & outs & Lp & Vo & So & E); try assumption.
  exists proofs. split; [exact Lp|]. unfold run_vdaf.
  change (vd_VERIFY_KEY_SIZE (sending (Prio3Vdaf p))) with vks. rewrite (proj2 (Nat.eqb_eq _ _) Hk). cbn [check bind].
  change (vd_SHARES (sending (Prio3Vdaf p))) with n.
  assert (Ei : mapM (fun _ : nat => vd_agg_init (sending (Prio3Vdaf p)) tt) (range 0 n) = Ok aggs) by (apply mapM_map; easy).
  rewrite Ei. cbn [bind foldM]. rewrite E. cbn [bind length].
  change (p3_unshard p tt (zip_with (zip_with fadd) aggs outs) 1 = Ok r).
  assert (Vz : Forall (fun s => length s = vOUTPUT_LEN v) (zip_with (zip_with fadd) aggs outs)).
  { destruct Va as [A1 A2], Vo as [O1 O2]. clear -A2 O2. revert outs O2. induction A2 as [|a l Ha HA IH]; intros [|o os] HO2; cbn [zip_with]; try constructor.
    + inversion HO2; subst. now apply zip_length_eq.
    + inversion HO2; subst. now apply IH. }
  rewrite unshard_vsum by exact Vz.
  change (valid_decode v (vsum (vOUTPUT_LEN v) (zip_with (zip_with fadd) aggs outs)) 1 = Ok r).
  rewrite vsum_zip_add.
  - rewrite So. rewrite zadd_0_l; [exact Hd | rewrite <- So; apply vsum_length |]. intros i _. apply fsuml_nth_zeros.
  - destruct Va, Vo. congruence.
  - apply Va.
  - apply Vo.
Qed.
End ForgedRun.

