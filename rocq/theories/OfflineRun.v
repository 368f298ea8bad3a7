(** Proofs for C99: honest proofs of arbitrary vectors. *)
From Verif Require Import OfflineSpec ForgeSpec ForgeFacts ForgeRun Prio3Run Prio3Facts VdafFacts PostFacts BaseFacts
  FlpTestsFacts FlpProofs FlpFacts RobustFacts.
Open Scope nat_scope.

Section Run.
Context (p : Prio3) (lim : Z) (HO : Prio3Ok p lim).
Notation field := (p3_field p).
Notation flp := (p3_flp p).
Notation xof := (p3_xof p).
Notation S_ := (p3_SHARES p).
Notation PR := (p3_PROOFS p).
Notation F := (F (p3_field p)).
Context (good : list F -> Prop) (valid : list F -> list F -> Prop) (HF : FlpOk flp good valid).

Lemma decide_loop_false n (vks : nat -> list F) (d : nat -> bool) :
  (forall k, k < n -> length (vks k) = VERIFIER_LEN flp) ->
  (forall k, k < n -> flp_decide flp (vks k) = Ok (d k)) ->
  forallb d (seq 0 n) = false ->
  for_range 0 n (concat (map vks (seq 0 n))) (fun verifiers _ =>
    let* (verifier, verifiers) := front (VERIFIER_LEN flp) verifiers in
    let* ok := flp_decide flp verifier in
    let* _ := check ok (ValueError "proof verifier check failed") in
    Ok verifiers) = Raise (ValueError "proof verifier check failed").
Proof.
  set (body := fun verifiers (_ : nat) => _). unfold for_range.
  assert (R : forall n a (f : nat -> nat), (forall k, k < n -> length (vks (a + k)) = VERIFIER_LEN flp) ->
    (forall k, k < n -> flp_decide flp (vks (a + k)) = Ok (d (a + k))) -> forallb d (seq a n) = false ->
    foldM body (map f (seq a n)) (concat (map vks (seq a n))) = Raise (ValueError "proof verifier check failed")).
  { induction n0 as [|n' IH]; intros a f L D E; [discriminate E|]. cbn [seq map concat foldM].
    assert (Eb : body (vks a ++ concat (map vks (seq (S a) n'))) (f a) =
      if d a then Ok (concat (map vks (seq (S a) n'))) else Raise (ValueError "proof verifier check failed")).
    { unfold body. specialize (L 0 ltac:(lia)). specialize (D 0 ltac:(lia)). rewrite Nat.add_0_r in L, D.
      rewrite front_app by exact L. cbn [bind]. rewrite D. cbn [bind]. now destruct (d a). }
    rewrite Eb. cbn [seq forallb] in E. destruct (d a); [|reflexivity]. cbn [bind]. cbn [andb] in E. apply IH.
    - intros k Hk. rewrite Nat.add_succ_comm. apply L. lia.
    - intros k Hk. rewrite Nat.add_succ_comm. apply D. lia.
    - exact E. }
  intros L D E. rewrite <- (map_id (range 0 n)). unfold range. rewrite Nat.sub_0_r. now apply R.
Qed.

Theorem refused_run key ctx nonce public iss ms prs blinds jr seed parts qr dec aggs :
  length iss = S_ -> vecs S_ (MEAS_LEN flp) ms -> vecs S_ (PROOF_LEN flp * PR) prs ->
  (forall j, j < S_ -> forall d, expand_input_share p ctx j (nth j iss d) = Ok (nth j ms [], nth j prs [], nth j blinds None)) ->
  length jr = JOINT_RAND_LEN flp * PR ->
  (forall j, j < S_ -> verify_joint_rand p ctx j (nth j blinds None) (nth j ms []) nonce public = Ok (seed, parts j, jr)) ->
  (if 0 <? JOINT_RAND_LEN flp
   then exists s ps, seed = Some s /\ length ps = S_ /\ (forall j, j < S_ -> parts j = Some (nth j ps [])) /\
          joint_rand_seed p ctx ps = Ok s
   else seed = None) ->
  query_rands p key ctx nonce = Ok qr -> length qr = QUERY_RAND_LEN flp * PR ->
  (forall k, k < PR -> good (piece (QUERY_RAND_LEN flp) k qr)) ->
  (forall k, k < PR -> exists ver,
     flp_query flp (vsum (MEAS_LEN flp) ms) (vsum (PROOF_LEN flp) (map (piece (PROOF_LEN flp) k) prs))
       (piece (QUERY_RAND_LEN flp) k qr) (piece (JOINT_RAND_LEN flp) k jr) 1 = Ok ver /\ flp_decide flp ver = Ok (dec k)) ->
  forallb dec (seq 0 PR) = false ->
  vecs S_ (OUTPUT_LEN flp) aggs ->
  run_report (sending (Prio3Vdaf p)) key ctx tt aggs ((public, iss), nonce, [])
  = Raise (ValueError "proof verifier check failed").
Proof.
  intros Liss HmsV HprV HE Ljr Hvj Hseed Eqr Hqr Hgood Hdec Hrej Hagg.
  pose proof (po_shares _ _ HO) as HS. pose proof (po_shares_field _ _ HO) as HSF.
  destruct (fo_truncate _ _ _ HF S_ ms HmsV) as (outs & Houts & Hmap & Hsum).
  unfold run_report. change (vd_shard (sending (Prio3Vdaf p)) ctx (public, iss) nonce []) with (Ok (public, iss)). cbn [bind].
  change (run_verify_init (sending (Prio3Vdaf p))) with (run_verify_init (Prio3Vdaf p)).
  change (run_rounds (sending (Prio3Vdaf p))) with (run_rounds (Prio3Vdaf p)).
  change (run_finish (sending (Prio3Vdaf p))) with (run_finish (Prio3Vdaf p)).
  assert (Hout : forall j, j < S_ -> flp_truncate flp (nth j ms []) = Ok (nth j outs [])).
  { intros j Hj. apply (mapM_Ok_nth _ _ _ [] [] Hmap). destruct HmsV. lia. }
  assert (Hps : forall j, j < S_ -> length (nth j prs []) = PROOF_LEN flp * PR).
  { intros j Hj. destruct HprV as [L1 L2].
    apply (Forall_nth_len (fun x => length x = PROOF_LEN flp * PR)); [easy | lia]. }
  assert (Hvi : forall j is, j < S_ -> get iss j = Ok is ->
    p3_verify_init p key ctx j tt nonce public is =
    let* query_rands := query_rands p key ctx nonce in
    let* (verifiers_share, _, _, _) := for_range 0 PR ([], nth j prs [], query_rands, jr)
    (fun '(verifiers_share, proofs_share, query_rands, joint_rands) _ =>
      let* (proof_share, proofs_share) := front (PROOF_LEN flp) proofs_share in
      let* (query_rand, query_rands) := front (QUERY_RAND_LEN flp) query_rands in
      let* (joint_rand, joint_rands) :=
        (if 0 <? JOINT_RAND_LEN flp then front (JOINT_RAND_LEN flp) joint_rands else Ok ([], joint_rands)) in
      let* v := flp_query flp (nth j ms []) proof_share query_rand joint_rand S_ in
      Ok (verifiers_share ++ v, proofs_share, query_rands, joint_rands)) in
    Ok ((nth j outs [], seed), (verifiers_share, parts j))).
  { intros j is Hj Hg. unfold p3_verify_init.
    pose proof (HE j Hj is) as HE'.
    apply get_Ok in Hg. rewrite (nth_error_nth _ _ is Hg) in HE'. rewrite HE'. cbn [bind].
    rewrite Hout by easy. cbn [bind]. rewrite Hvj by easy. cbn [bind]. easy. }
  assert (HprP : forall k, k < PR -> vecs S_ (PROOF_LEN flp) (map (piece (PROOF_LEN flp) k) prs)).
  { intros k Hk. destruct HprV as [L1 L2]. split; [now rewrite map_length|].
    apply Forall_forall. intros x Hx. apply in_map_iff in Hx. destruct Hx as (y & <- & Hy).
    apply piece_length with PR; [|easy]. rewrite Forall_forall in L2. now apply L2. }
  assert (Hnth : forall k j, j < S_ -> nth j (map (piece (PROOF_LEN flp) k) prs) [] = piece (PROOF_LEN flp) k (nth j prs [])).
  { intros k j Hj. apply nth_map'. destruct HprV. lia. }
  destruct (finite_choice (@nil (list F)) (fun k VS => vecs S_ (VERIFIER_LEN flp) VS /\
        (forall j, j < S_ -> flp_query flp (nth j ms []) (piece (PROOF_LEN flp) k (nth j prs []))
           (piece (QUERY_RAND_LEN flp) k qr) (piece (JOINT_RAND_LEN flp) k jr) S_ = Ok (nth j VS [])) /\
        flp_decide flp (vsum (VERIFIER_LEN flp) VS) = Ok (dec k)) PR) as (VS & LVS & HVS).
  { intros k Hk.
      destruct (fo_query _ _ _ HF S_ ms (map (piece (PROOF_LEN flp) k) prs) (piece (QUERY_RAND_LEN flp) k qr)
        (piece (JOINT_RAND_LEN flp) k jr)) as (VS & H1 & H2 & H3); try easy; try lia.
      + now apply HprP.
      + now apply piece_length with PR.
      + now apply piece_length with PR.
      + now apply Hgood.
      + exists VS. split; [easy|]. split.
        * intros j Hj. rewrite <- Hnth by easy. now apply H2.
        * destruct (Hdec k Hk) as (ver & Q1 & Q2). congruence. }
    set (sh := fun j => concat (map (fun k => nth j (nth k VS []) []) (seq 0 PR))).
    rewrite (run_verify_init_ok (Prio3Vdaf p) key ctx tt nonce public iss
      (fun j => (nth j outs [], seed)) (fun j => (sh j, parts j))).
    2:{ intros j Hj. change (vd_SHARES (Prio3Vdaf p)) with S_ in Hj.
        destruct (get_default iss j S_ Liss Hj) as (is & Hg & _). exists is. split; [exact Hg|].
        change (vd_verify_init (Prio3Vdaf p)) with (p3_verify_init p).
        rewrite Hvi by easy. rewrite Eqr. cbn [bind].
        destruct (verify_init_loop p (nth j ms []) (nth j prs []) qr jr (fun k => nth j (nth k VS []) [])) as (st & Est);
          try easy.
        - now apply Hps.
        - intros k Hk. now apply HVS.
        - rewrite Est. cbn [bind]. easy. }
    cbn [bind]. unfold run_rounds. change (vd_ROUNDS (Prio3Vdaf p) - 1) with 0.
    rewrite for_range_nil by lia. cbn [bind].
    change (vd_SHARES (Prio3Vdaf p)) with S_.
    assert (Lag : length aggs = S_) by apply Hagg.
    assert (Hmk : forall k j, k < PR -> j < S_ -> length (nth j (nth k VS []) []) = VERIFIER_LEN flp).
    { intros k j Hk Hj. destruct (HVS k Hk) as ([L1 L2] & _).
      apply (Forall_nth_len (fun x => length x = VERIFIER_LEN flp)); [easy | lia]. }
    unfold run_finish.
    change (vd_verifier_shares_to_message (Prio3Vdaf p)) with (p3_verifier_shares_to_message p).
    assert (Hmsg : p3_verifier_shares_to_message p ctx tt (map (fun j => (sh j, parts j)) (seq 0 S_))
      = Raise (ValueError "proof verifier check failed")).
    { unfold p3_verifier_shares_to_message.
      rewrite (shares_loop p S_ sh parts).
      - cbn [bind].
        unfold sh at 1. rewrite (vsum_concat _ PR S_ (fun k j => nth j (nth k VS []) [])) by easy.
        rewrite (decide_loop_false PR (fun k => vsum (VERIFIER_LEN flp) (map (fun j => nth j (nth k VS []) []) (seq 0 S_))) dec); [reflexivity| | |exact Hrej].
        + intros. apply vsum_length.
        + intros k Hk. destruct (HVS k Hk) as (HV1 & _ & HV3).
          assert (EV : map (fun j => nth j (nth k VS []) []) (seq 0 S_) = nth k VS []).
          { destruct HV1 as [L1 _]. rewrite <- L1. symmetry. apply list_as_map. }
          rewrite EV.
          exact HV3.
      - intros j Hj. unfold sh. rewrite (length_concat_const _ (VERIFIER_LEN flp)).
        + rewrite map_length, seq_length. lia.
        + apply Forall_forall. intros x Hx. apply in_map_iff in Hx. destruct Hx as (k & <- & Hk).
          apply in_seq in Hk. apply Hmk; lia.
      - intros EJ j Hj. rewrite (proj2 (Nat.ltb_lt _ _) EJ) in Hseed.
        destruct Hseed as (s & ps & -> & Lps & Hparts & Hs). rewrite Hparts by easy. eauto. }
    exact (f_equal (fun r => bind r _) Hmsg).
Qed.
End Run.

Section Honest.
Context {P : NttFieldClass} (HP : NttOk P) (v : Valid P) (HV : ValidOk v).
Notation F := (F P).

(** The query of the honest proof of any vector, and what is decided. *)
Lemma honest_query meas joint_rand prove_rand query_rand proof :
  length meas = vMEAS_LEN v -> length prove_rand = prove_rand_len v -> length joint_rand = vJOINT_RAND_LEN v ->
  length query_rand = query_rand_len v -> test_points_ok v query_rand ->
  bbcggi19_prove v meas prove_rand joint_rand = Ok proof ->
  exists ver, bbcggi19_query v meas proof query_rand joint_rand 1 = Ok ver /\
    bbcggi19_decide v ver = Ok (feqb (reduced v (output v meas joint_rand) query_rand) f0).
Proof.
  intros H1 H2 H3 H4 EP Epr.
  destruct (complete_single HP v HV meas prove_rand joint_rand H1 H2 H3) as (out & log & proof' & Eo & Ho & Ep & Hpl & Hx & Hg & Ht).
  assert (proof' = proof) by congruence. subst proof'.
  destruct (query_ok HP v HV meas proof query_rand joint_rand 1 H1 Hpl H4 H3 ltac:(lia) (one_lt_modulus HP))
      as (out2 & log2 & _ & Ht2 & _ & Eq2).
  rewrite Ht in Ht2. injection Ht2 as <- <-.
  rewrite (proj2 (bad_points_iff v query_rand) EP) in Eq2.
  eexists. split; [exact Eq2|].
  rewrite (decide_ok v HV) by easy. rewrite good_gcheck by easy. rewrite Bool.andb_true_r.
  unfold output. rewrite Eo. reflexivity.
Qed.
End Honest.

Section Offline.
Context (P : NttFieldClass) (HP : NttOk P) (v : Valid P) (HV : ValidOk v).
Context (X : XofClass) (ID : Z) (vks n m : nat) (lim : Z).
Notation F := (F P).
Notation p := {| p3_field := P; p3_flp := FlpBBCGGI19 v; p3_xof := X; p3_ID := ID;
                 p3_VERIFY_KEY_SIZE := vks; p3_SHARES := n; p3_PROOFS := m |}.
Context (HO : Prio3Ok p lim) (valid : list F -> list F -> Prop) (HF : FlpOk (FlpBBCGGI19 v) (test_points_ok v) valid).

Theorem offline_run ctx vec nonce rand public iss : ctx_ok ctx -> length vec = vMEAS_LEN v ->
  length nonce = p3_NONCE_SIZE -> length rand = RAND_SIZE p ->
  p3_shard (raw p) ctx vec nonce rand = Ok (public, iss) ->
  exists jr, derived_joint_rand p ctx public = Ok jr /\ length jr = vJOINT_RAND_LEN v * m /\
  forall key qr, length key = vks -> query_rands p key ctx nonce = Ok qr ->
  (forall k, k < m -> test_points_ok v (piece (query_rand_len v) k qr)) ->
  run_vdaf (sending (Prio3Vdaf p)) key tt ctx [((public, iss), nonce, [])] =
  if passes v m vec jr qr then let* out := valid_truncate v vec in valid_decode v out 1
  else Raise (ValueError "proof verifier check failed").
Proof.
  intros Hc Le Hn Hr Es.
  pose proof (po_shares _ _ HO) as HS. pose proof (po_shares_field _ _ HO) as HSF. cbn in HS, HSF.
  pose proof (shard_post (raw p) lim (raw_ok p lim HO) (test_points_ok v) valid (raw_flp_ok _ _ _ HF) ctx vec vec nonce rand Hc Hn Hr eq_refl Le) as SP.
  rewrite Es in SP. cbn [post] in SP. destruct SP as (ms & prs & blinds & prove_seed & pr & jr & proofs & R).
  apply raw_report in R.
  destruct (report_joint p lim HO _ _ _ _ _ _ _ _ _ _ _ _ _ Hc R) as (Ljr & seed & parts & Hvj & Hseed).
  pose proof (rp_meas_vecs _ _ _ _ _ _ _ _ _ _ _ _ _ _ R) as HmsV.
  pose proof (rp_proof_vecs _ _ _ _ _ _ _ _ _ _ _ _ _ _ R) as HprV.
  pose proof (rp_meas _ _ _ _ _ _ _ _ _ _ _ _ _ _ R) as Hm.
  pose proof (rp_proof _ _ _ _ _ _ _ _ _ _ _ _ _ _ R) as Hpf.
  pose proof (rp_proofs _ _ _ _ _ _ _ _ _ _ _ _ _ _ R) as Lpf.
  pose proof (rp_prove _ _ _ _ _ _ _ _ _ _ _ _ _ _ R) as Hprove.
  pose proof (rp_prove_rand _ _ _ _ _ _ _ _ _ _ _ _ _ _ R) as Hpr.
  pose proof (rp_len _ _ _ _ _ _ _ _ _ _ _ _ _ _ R) as Liss.
  pose proof (rp_expand _ _ _ _ _ _ _ _ _ _ _ _ _ _ R) as Hex.
  pose proof (rp_joint _ _ _ _ _ _ _ _ _ _ _ _ _ _ R) as HJ.
  exists jr. split.
  { unfold derived_joint_rand. destruct (0 <? JOINT_RAND_LEN (p3_flp p)).
    - destruct HJ as (parts' & seed' & -> & _ & _ & E1 & E2). rewrite E1. exact E2.
    - destruct HJ as (-> & -> & _). reflexivity. }
  split; [exact Ljr|].
  intros key qr Hk Eq Hg.
  cbn in HmsV, HprV, Liss, Hex, Ljr, Lpf. change (vsum (vMEAS_LEN v) ms = vec) in Hm.
  change (vsum (proof_len v * m) prs = concat proofs) in Hpf.
  assert (Lqr : length qr = query_rand_len v * m).
  { assert (Lkey : length key = SEED_SIZE X) by (rewrite Hk; exact (po_key _ _ HO)).
    pose proof (query_rands_post p lim HO key ctx nonce Hc Lkey) as Hqr. rewrite Eq in Hqr. exact Hqr. }
  assert (Lpr : length pr = prove_rand_len v * m).
  { unfold prove_rands in Hpr. apply bind_Ok in Hpr. destruct Hpr as (d & _ & Hpr).
    apply bind_Ok in Hpr. destruct Hpr as (b & _ & Hpr). now apply expand_len in Hpr. }
  assert (Fp : Forall (fun x => length x = proof_len v) proofs).
  { apply Forall_forall. intros x Hx. apply (In_nth _ _ []) in Hx. destruct Hx as (i & Hi & <-).
    assert (Hi' : i < m) by (rewrite <- Lpf; exact Hi).
    destruct (fo_prove _ _ _ HF vec (piece (prove_rand_len v) i pr) (piece (vJOINT_RAND_LEN v) i jr)) as (pf & Epf & Lpf'); try assumption.
    - now apply piece_length with m.
    - now apply piece_length with m.
    - pose proof (eq_trans (eq_sym (Hprove i Hi')) Epf) as Q. injection Q as Q. exact (eq_trans (f_equal (@length F) Q) Lpf'). }
  set (dec := fun k => feqb (reduced v (output v vec (piece (vJOINT_RAND_LEN v) k jr)) (piece (query_rand_len v) k qr)) f0).
  assert (Hdec : forall k, k < m -> exists ver,
     flp_query (p3_flp p) (vsum (MEAS_LEN (p3_flp p)) ms) (vsum (PROOF_LEN (p3_flp p)) (map (piece (PROOF_LEN (p3_flp p)) k) prs))
       (piece (QUERY_RAND_LEN (p3_flp p)) k qr) (piece (JOINT_RAND_LEN (p3_flp p)) k jr) 1 = Ok ver /\ flp_decide (p3_flp p) ver = Ok (dec k)).
  { intros k Hk'.
    assert (EP : vsum (proof_len v) (map (piece (proof_len v) k) prs) = nth k proofs []).
    { rewrite (vsum_piece (proof_len v) m) by (try assumption; apply HprV). rewrite Hpf. apply piece_concat; [exact Fp|]. exact (eq_ind_r (fun x => k < x) Hk' Lpf). }
    change (exists ver, bbcggi19_query v (vsum (vMEAS_LEN v) ms) (vsum (proof_len v) (map (piece (proof_len v) k) prs))
      (piece (query_rand_len v) k qr) (piece (vJOINT_RAND_LEN v) k jr) 1 = Ok ver /\ bbcggi19_decide v ver = Ok (dec k)).
    rewrite EP, Hm.
    apply (honest_query HP v HV vec _ (piece (prove_rand_len v) k pr)); try assumption.
    - now apply piece_length with m.
    - now apply piece_length with m.
    - now apply piece_length with m.
    - now apply Hg.
    - exact (Hprove k Hk'). }
  set (aggs := map (fun _ : nat => repeat (f0 : F) (vOUTPUT_LEN v)) (range 0 n)).
  assert (Va : vecs n (vOUTPUT_LEN v) aggs).
  { split; [unfold aggs; rewrite map_length, length_range; lia|]. apply Forall_map, Forall_forall. intros x _. apply repeat_length. }
  unfold run_vdaf.
  change (vd_VERIFY_KEY_SIZE (sending (Prio3Vdaf p))) with vks. rewrite (proj2 (Nat.eqb_eq _ _) Hk). cbn [check bind].
  change (vd_SHARES (sending (Prio3Vdaf p))) with n.
  assert (Ei : mapM (fun _ : nat => vd_agg_init (sending (Prio3Vdaf p)) tt) (range 0 n) = Ok aggs) by (apply mapM_map; easy).
  rewrite Ei. cbn [bind foldM]. change (passes v m vec jr qr) with (forallb dec (seq 0 m)).
  destruct (forallb dec (seq 0 m)) eqn:Ed.
  - assert (exists out, valid_truncate v vec = Ok out) as (out & Ht).
    { destruct (fo_truncate _ _ _ HF n ms HmsV) as (outs & _ & _ & Hsum). exists (vsum (vOUTPUT_LEN v) outs). rewrite <- Hm. exact Hsum. }
    rewrite Ht. cbn [bind].
    destruct (verified_run p lim HO (test_points_ok v) valid HF key ctx nonce public iss ms prs blinds jr seed parts qr out aggs)
      as (outs & Vo & So & E); try assumption.
    { intros k Hk'. destruct (Hdec k Hk') as (ver & D1 & D2). exists ver. split; [exact D1|].
      assert (dec k = true) as <- by (apply (proj1 (forallb_forall _ _) Ed), in_seq; cbn in Hk'; lia). exact D2. }
    { change (valid_truncate v (vsum (vMEAS_LEN v) ms) = Ok out). rewrite <- Hm in Ht. exact Ht. }
    refine (eq_trans (f_equal (fun r => bind (bind r _) _) E) _). cbn [bind length].
        change (p3_unshard p tt (zip_with (zip_with fadd) aggs outs) 1 = valid_decode v out 1).
    assert (Vz : Forall (fun s => length s = vOUTPUT_LEN v) (zip_with (zip_with fadd) aggs outs)).
    { destruct Va as [A1 A2], Vo as [O1 O2]. clear -A2 O2. revert outs O2. induction A2 as [|a l Ha HA IH]; intros [|o os] HO2; cbn [zip_with]; try constructor.
      + inversion HO2; subst. now apply zip_length_eq.
      + inversion HO2; subst. now apply IH. }
    rewrite unshard_vsum by exact Vz.
    change (valid_decode v (vsum (vOUTPUT_LEN v) (zip_with (zip_with fadd) aggs outs)) 1 = valid_decode v out 1).
    rewrite vsum_zip_add.
    + refine (f_equal (fun x => valid_decode v x 1) _). refine (eq_trans (f_equal (zip_with (@fadd P) _) So) _). apply zadd_0_l; [rewrite <- So; apply vsum_length |]. intros i _. apply fsuml_nth_zeros.
    + exact (eq_trans (proj1 Va) (eq_sym (proj1 Vo))).
    + apply Va.
    + apply Vo.
  - assert (E : run_report (sending (Prio3Vdaf p)) key ctx tt aggs ((public, iss), nonce, []) = Raise (ValueError "proof verifier check failed"))
      by (apply (refused_run p lim HO (test_points_ok v) valid HF key ctx nonce public iss ms prs blinds jr seed parts qr dec aggs); assumption).
    exact (f_equal (fun r => bind (bind r _) _) E).
Qed.
End Offline.
