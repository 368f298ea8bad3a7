(** Proofs for C94: Prio3 reports verified with several keys. *)
From Verif Require Export ReuseSpec.
From Verif Require Import ReuseFacts FlpFacts FlpProofs FlpSpec Circuits CircuitInstances MeasSpec FlpInstances Prio3Sound Prio3Run Prio3Facts
  Prio3Spec Prio3ViewFacts PostFacts VecFacts BaseFacts CircuitFacts.
Open Scope nat_scope.

Section R.
Context {P : NttFieldClass} (HP : NttOk P) (v : Valid P) (HV : ValidOk v) (HT : truncate_linear v).
Context (X : XofClass) (ID : Z) (vks n m : nat).
Notation F := (F P).
Let p : Prio3 := {| p3_field := P; p3_flp := FlpBBCGGI19 v; p3_xof := X; p3_ID := ID;
              p3_VERIFY_KEY_SIZE := vks; p3_SHARES := n; p3_PROOFS := m |}.
Context (lim : Z) (HO : Prio3Ok p lim).

(** The sum of the verifier shares is the query on the sums. *)
Lemma sum_query (ms ps : list (list F)) (jr qr : list F) vss k :
  vecs n (vMEAS_LEN v) ms -> vecs n (proof_len v * m) ps -> length jr = vJOINT_RAND_LEN v * m -> length qr = query_rand_len v * m ->
  length vss = n ->
  (forall j, j < n -> proof_verifiers p (nth j ms []) (nth j ps []) qr jr = Ok (nth j vss [])) -> k < m ->
  bbcggi19_query v (vsum (vMEAS_LEN v) ms) (piece (proof_len v) k (vsum (proof_len v * m) ps)) (piece (query_rand_len v) k qr)
    (piece (vJOINT_RAND_LEN v) k jr) 1
  = Ok (piece (verifier_len v) k (vsum (verifier_len v * m) (map (fun j => concat (nth j vss [])) (seq 0 n)))).
Proof.
  intros Hms Hps Hjr Lqr Lv Hpv Hk. pose proof (po_shares p lim HO) as H2. cbn [p3_SHARES p] in H2.
  assert (HnM : (Z.of_nat n < MODULUS P)%Z) by exact (po_shares_field p lim HO).
  assert (Hq1 : forall j k', j < n -> k' < m ->
    bbcggi19_query v (nth j ms []) (piece (proof_len v) k' (nth j ps [])) (piece (query_rand_len v) k' qr)
      (piece (vJOINT_RAND_LEN v) k' jr) n = Ok (nth k' (nth j vss []) [])).
  { intros j k' Hj Hk'. pose proof (mapM_Ok_nth _ _ _ 0 [] (Hpv j Hj) k') as H.
    rewrite seq_length, seq_nth in H by easy. apply H. easy. }
  assert (Lvs : forall j, j < n -> length (nth j vss []) = m).
  { intros j Hj. pose proof (mapM_Ok_length _ _ _ (Hpv j Hj)) as H. now rewrite seq_length in H. }
  assert (Lm : forall j, j < n -> length (nth j ms []) = vMEAS_LEN v).
  { intros j Hj. destruct Hms as [M1 M2]. apply (Forall_nth_len (fun x => length x = vMEAS_LEN v)); [easy | lia]. }
  assert (Lp : forall j, j < n -> length (nth j ps []) = proof_len v * m).
  { intros j Hj. destruct Hps as [M1 M2]. apply (Forall_nth_len (fun x => length x = proof_len v * m)); [easy | lia]. }
  assert (Hg : forall k', k' < m -> test_points_ok v (piece (query_rand_len v) k' qr)).
  { intros k' Hk'. destruct (query_guard HP v HV (nth 0 ms []) (piece (proof_len v) k' (nth 0 ps [])) (piece (query_rand_len v) k' qr)
       (piece (vJOINT_RAND_LEN v) k' jr) n) as [G1 G2]; try easy; try (apply piece_length with m; try easy); try (now apply Lm; lia); try (now apply Lp; lia); try lia.
    destruct (existsb (bad_point v (piece (query_rand_len v) k' qr)) (seq 0 (length (GADGETS v)))) eqn:E; [|now apply bad_points_iff].
    specialize (Hq1 0 k' ltac:(lia) Hk'). rewrite G2 in Hq1; [easy|]. intros C. apply (bad_points_iff v) in C. congruence. }
  assert (Lq : forall j k', j < n -> k' < m -> length (nth k' (nth j vss []) []) = verifier_len v).
  { intros j k' Hj Hk'. destruct (query_guard HP v HV (nth j ms []) (piece (proof_len v) k' (nth j ps [])) (piece (query_rand_len v) k' qr)
       (piece (vJOINT_RAND_LEN v) k' jr) n) as [G1 _]; try easy; try (apply piece_length with m; try easy); try (now apply Lm); try (now apply Lp); try lia.
    destruct (G1 (Hg k' Hk')) as (ver & Ev & Lver). rewrite (Hq1 j k' Hj Hk') in Ev. injection Ev as Ev. exact (eq_trans (f_equal (@length F) Ev) Lver). }
  assert (Vpk : vecs n (proof_len v) (map (piece (proof_len v) k) ps)).
  { destruct Hps as [P1 P2]. split; [now rewrite map_length|]. apply Forall_map. eapply Forall_impl; [|exact P2].
    intros x Hx. now apply piece_length with m. }
  destruct (query_linear_list HP v HV n ms (map (piece (proof_len v) k) ps) (piece (query_rand_len v) k qr) (piece (vJOINT_RAND_LEN v) k jr))
    as (vs & Vvs & Eq & ES); try assumption; try lia; try (now apply piece_length with m); try (now apply Hg).
  rewrite (vsum_piece _ m) in ES; [| exact Hk | apply Hps]. etransitivity; [exact ES|]. f_equal.
  rewrite <- (vsum_piece _ m); [| exact Hk |].
  - f_equal. apply (nth_ext' []); [destruct Vvs; rewrite !map_length, seq_length; lia|]. intros j Hj. destruct Vvs as [Lvs1 _]. rewrite Lvs1 in Hj.
    rewrite map_map, nth_map_seq by exact Hj. specialize (Eq j Hj).
    rewrite (nth_map' _ _ _ []) in Eq by (destruct Hps; lia). rewrite (Hq1 j k Hj Hk) in Eq.
    assert (E : nth k (nth j vss []) [] = nth j vs []) by exact (f_equal getl Eq). rewrite <- E.
    symmetry. rewrite piece_concat; [easy | |rewrite Lvs by exact Hj; exact Hk].
    apply Forall_forall. intros x Hx'. apply (In_nth _ _ []) in Hx' as (k' & Hk' & <-). rewrite Lvs in Hk' by easy. now apply Lq.
  - apply Forall_forall. intros x Hx'. apply in_map_iff in Hx' as (j & <- & Hj). apply in_seq in Hj.
    rewrite (length_concat_const _ (verifier_len v)).
    + rewrite Lvs by lia. lia.
    + apply Forall_forall. intros x Hx'. apply (In_nth _ _ []) in Hx' as (k' & Hk' & <-). rewrite Lvs in Hk' by lia. apply Lq; lia.
Qed.

(** A report and what any key makes of it. *)
Lemma report_queries ctx (M : vMeasurement v) (meas : list F) nonce rand public iss (d : Prio3InputShare P) :
  ctx_ok ctx -> length nonce = p3_NONCE_SIZE -> length rand = RAND_SIZE p ->
  valid_encode v M = Ok meas -> length meas = vMEAS_LEN v ->
  p3_shard p ctx M nonce rand = Ok (public, iss) ->
  exists proofs jr : list F, length proofs = proof_len v * m /\ length jr = vJOINT_RAND_LEN v * m /\
  forall key (st ver : nat -> list F * option bytes),
  (forall j, j < n -> p3_verify_init p key ctx j tt nonce public (nth j iss d) = Ok (st j, ver j)) ->
  exists qr, query_rands p key ctx nonce = Ok qr /\ length qr = query_rand_len v * m /\
  forall k, k < m -> bbcggi19_query v meas (piece (proof_len v) k proofs) (piece (query_rand_len v) k qr) (piece (vJOINT_RAND_LEN v) k jr) 1
    = Ok (piece (verifier_len v) k (vsum (verifier_len v * m) (map (fun j => fst (ver j)) (seq 0 n)))).
Proof.
  intros Hc Hn Hr He Hl HS.
  pose proof (shard_post p lim HO (test_points_ok v) (circuit_zero v) (flp_ok HP v HV HT) ctx M meas nonce rand Hc Hn Hr He Hl) as HR.
  rewrite HS in HR. cbn [post] in HR. destruct HR as (ms & ps & blinds & prove_seed & pr & jr & proofs & R).
  destruct (report_joint p lim HO ctx meas nonce rand public iss ms ps blinds prove_seed pr jr proofs Hc R) as (Ljr & seed & parts & HJ & HJ2).
  pose proof (po_shares p lim HO) as H2. cbn [p3_SHARES p] in H2.
  pose proof (rp_meas_vecs _ _ _ _ _ _ _ _ _ _ _ _ _ _ R) as Vm. pose proof (rp_proof_vecs _ _ _ _ _ _ _ _ _ _ _ _ _ _ R) as Vp.
  change (vecs n (vMEAS_LEN v) ms) in Vm. change (vecs n (proof_len v * m) ps) in Vp.
  pose proof (rp_expand _ _ _ _ _ _ _ _ _ _ _ _ _ _ R) as HE. change (p3_SHARES p) with n in HE.
  pose proof (rp_meas _ _ _ _ _ _ _ _ _ _ _ _ _ _ R) as SM.
  exists (vsum (proof_len v * m) ps), jr. split; [apply vsum_length|]. split; [exact Ljr|]. intros key st ver HI.
  assert (Hps : forall j, j < n -> length (nth j ps []) = proof_len v * m).
  { intros j Hj. destruct Vp as [L1 F1]. rewrite Forall_forall in F1. apply F1, nth_In. lia. }
  assert (HQ : forall j, j < n -> exists qr vss, query_rands p key ctx nonce = Ok qr /\
     proof_verifiers p (nth j ms []) (nth j ps []) qr jr = Ok vss /\ fst (ver j) = concat vss).
  { intros j Hj. specialize (HI j Hj). specialize (HE j Hj d). specialize (HJ j Hj). destruct (ver j) as [vj pj] eqn:Ev.
    destruct (verify_init_verifiers P v X ID vks n m ltac:(lia) key ctx j nonce public (nth j iss d) (st j) vj pj (nth j ms []) (nth j ps [])
      (nth j blinds None) HI HE (Hps j Hj)) as (qr & jr' & vss & E1 & E2 & E3 & E4).
    exists qr, vss. split; [exact E1|]. split; [|exact E3].
    assert (jr' = jr) as ->; [|exact E2].
    unfold p3_verify_init in HI. apply bind_Ok in HI as ([[a b] c] & HX & HI). rewrite HE in HX.
    assert (EE := f_equal (fun r => match r with Ok z => z | Raise _ => ([], [], None) end) HX). cbv beta iota in EE.
    assert (Ea : nth j ms [] = a) by exact (f_equal (fun z => fst (fst z)) EE). assert (Ec : nth j blinds None = c) by exact (f_equal snd EE).
    rewrite Ea in HJ. rewrite Ec in HJ. clear EE HX.
    apply bind_Ok in HI as (o & _ & HI). apply bind_Ok in HI as ([[sd pt] jr0] & HX & HI). rewrite HJ in HX.
    assert (EE := f_equal (fun r => match r with Ok z => z | Raise _ => (None, None, []) end) HX). cbv beta iota in EE.
    assert (Es : seed = sd) by exact (f_equal (fun z => fst (fst z)) EE).
    assert (Est : snd (st j) = sd).
    { apply bind_Ok in HI as (? & _ & HI). apply bind_Ok in HI as ([[[? ?] ?] ?] & _ & HI).
      exact (f_equal (fun r => match r with Ok z => snd (fst z) | Raise _ => None end) (eq_sym HI)). }
    pose proof (rp_joint _ _ _ _ _ _ _ _ _ _ _ _ _ _ R) as RJ. change (JOINT_RAND_LEN (p3_flp p)) with (vJOINT_RAND_LEN v) in RJ, HJ2.
    destruct (0 <? vJOINT_RAND_LEN v) eqn:EJ.
    - destruct E4 as (s4 & E41 & E42). destruct RJ as (pp & s5 & Epub & Lpp & Hparts & Hs5 & Hjr).
      assert (s4 = s5) as ->; [|exact (f_equal getl (eq_trans (eq_sym E42) Hjr))].
      assert (E43 : seed = Some s4) by exact (eq_trans Es (eq_trans (eq_sym Est) E41)). unfold verify_joint_rand in HJ. change (JOINT_RAND_LEN (p3_flp p)) with (vJOINT_RAND_LEN v) in HJ. rewrite EJ in HJ.
      destruct (Hparts j Hj) as (bl & Ebl & _ & Hpart & _). rewrite <- Ec, Ebl, Epub in HJ. rewrite Ea in Hpart. rewrite Hpart in HJ. cbn [bind] in HJ.
      rewrite set_lt in HJ by (change (p3_SHARES p) with n in Lpp; lia). cbn [bind] in HJ.
      assert (U : upd pp j (nth j pp []) = pp).
      { change (p3_SHARES p) with n in Lpp. apply (nth_ext' ([] : bytes)); [apply length_upd|]. intros i Hi.
        rewrite nth_upd by lia. destruct (j =? i) eqn:Eji; [|easy]. apply Nat.eqb_eq in Eji. now subst. }
      rewrite U, Hs5 in HJ. cbn [bind] in HJ. rewrite Hjr in HJ. cbn [bind] in HJ.
      assert (EE2 := f_equal (fun r => match r with Ok z => fst (fst z) | Raise _ => None end) HJ). cbn in EE2. congruence.
    - destruct RJ as (_ & E & _). rewrite E4. symmetry. exact E. }
  destruct (HQ 0 ltac:(lia)) as (qr & _ & Eqr & _).
  destruct (choose_nat n (fun j vss => proof_verifiers p (nth j ms []) (nth j ps []) qr jr = Ok vss /\ fst (ver j) = concat vss) []) as (vss & Lv & Hv).
  { intros j Hj. destruct (HQ j Hj) as (qr' & x & E1 & E2 & E3). exists x. rewrite Eqr in E1. split; [|exact E3].
    assert (qr = qr') as -> by exact (f_equal getl E1). exact E2. }
  assert (Lqr : length qr = query_rand_len v * m).
  { unfold query_rands in Eqr. apply bind_Ok in Eqr as (? & _ & E). apply bind_Ok in E as (? & _ & E). apply expand_len in E. exact E. }
  exists qr. split; [exact Eqr|]. split; [exact Lqr|]. intros k Hk.
  pose proof (sum_query ms ps jr qr vss k Vm Vp Ljr Lqr Lv (fun j Hj => proj1 (Hv j Hj)) Hk) as E.
  assert (SM' : @vsum P (vMEAS_LEN v) ms = meas) by exact SM. rewrite <- SM'.
  etransitivity; [exact E|]. do 2 f_equal. f_equal. apply map_ext_in. intros j I. apply in_seq in I. symmetry. apply Hv. lia.
Qed.
End R.

Section Std.
Context (P : NttFieldClass) (HP : NttOk P) (v : Valid P) (Hv : std_circuit P v).
Context (X : XofClass) (ID : Z) (vks n m : nat).
Notation F := (F P).
Let p : Prio3 := {| p3_field := P; p3_flp := FlpBBCGGI19 v; p3_xof := X; p3_ID := ID;
              p3_VERIFY_KEY_SIZE := vks; p3_SHARES := n; p3_PROOFS := m |}.
Context (lim : Z) (HO : Prio3Ok p lim).

Theorem prio3_reuse ctx M M' (meas meas' : list F) nonce rand rand' public public' iss iss' keys k :
  ctx_ok ctx -> length nonce = p3_NONCE_SIZE -> length rand = RAND_SIZE p -> length rand' = RAND_SIZE p ->
  valid_encode v M = Ok meas -> valid_encode v M' = Ok meas' -> length meas = vMEAS_LEN v -> length meas' = vMEAS_LEN v ->
  p3_shard p ctx M nonce rand = Ok (public, iss) -> p3_shard p ctx M' nonce rand' = Ok (public', iss') ->
  k < m -> NoDup (map (fun key => point_of v k (query_rands p key ctx nonce)) keys) -> wire_poly_len (nth 0 (GADGET_CALLS v) 0) <= length keys ->
  (forall key, In key keys -> exists total, exchanged p key ctx nonce public iss total /\ exchanged p key ctx nonce public' iss' total) ->
  meas = meas'.
Proof.
  intros Hc Hn Hr Hr' He He' Hl Hl' HS HS' Hk ND LK HX. destruct (std_ok HP v Hv) as [HV HT].
  assert (d : Prio3InputShare P) by exact (Helper [] None).
  destruct (report_queries HP v HV HT X ID vks n m lim HO ctx M meas nonce rand public iss d Hc Hn Hr He Hl HS) as (pf & jr & Lp & Lj & Q1).
  destruct (report_queries HP v HV HT X ID vks n m lim HO ctx M' meas' nonce rand' public' iss' d Hc Hn Hr' He' Hl' HS') as (pf' & jr' & Lp' & Lj' & Q2).
  set (q key := match query_rands p key ctx nonce with Ok qr => piece (query_rand_len v) k qr | Raise _ => [] end).
  assert (Hver : forall ver : list (list F * option bytes), length ver = n -> map (fun j => fst (nth j ver ([], None))) (seq 0 n) = map fst ver).
  { intros ver L. apply (nth_ext' (@nil F)); rewrite !map_length, seq_length; [lia|]. intros j Hj. rewrite nth_map_seq by exact Hj.
    symmetry. apply (nth_map' fst). lia. }
  assert (HQ : forall key, In key keys -> length (q key) = query_rand_len v /\ test_point v (q key) 0 = point_of v k (query_rands p key ctx nonce) /\ exists ver,
     bbcggi19_query v meas (piece (proof_len v) k pf) (q key) (piece (vJOINT_RAND_LEN v) k jr) 1 = Ok ver /\
     bbcggi19_query v meas' (piece (proof_len v) k pf') (q key) (piece (vJOINT_RAND_LEN v) k jr') 1 = Ok ver).
  { intros key I. destruct (HX key I) as (total & (st & ver & Lver & V1 & T1) & (st' & ver' & Lver' & V2 & T2)).
    destruct (Q1 key st (fun j => nth j ver ([], None)) (fun j Hj => V1 j d Hj)) as (qr & Eqr & Lqr & K1).
    destruct (Q2 key st' (fun j => nth j ver' ([], None)) (fun j Hj => V2 j d Hj)) as (qr' & Eqr' & Lqr' & K2).
    change (query_rands p key ctx nonce = Ok qr) in Eqr. change (query_rands p key ctx nonce = Ok qr') in Eqr'.
    assert (qr' = qr) as -> by exact (f_equal getl (eq_trans (eq_sym Eqr') Eqr)).
    assert (Eq : q key = piece (query_rand_len v) k qr) by (unfold q; now rewrite Eqr).
    rewrite Eq. split; [now apply piece_length with m|]. split; [unfold point_of; now rewrite Eqr|].
    exists (piece (verifier_len v) k total). specialize (K1 k Hk). specialize (K2 k Hk).
    split.
    - exact (eq_trans K1 (f_equal (fun t : list F => Ok (piece (verifier_len v) k t)) (eq_trans (f_equal (vsum (verifier_len v * m)) (Hver ver Lver)) T1))).
    - exact (eq_trans K2 (f_equal (fun t : list F => Ok (piece (verifier_len v) k t)) (eq_trans (f_equal (vsum (verifier_len v * m)) (Hver ver' Lver')) T2))). }
  apply (std_reuse HP v meas meas' (piece (proof_len v) k pf) (piece (proof_len v) k pf') (piece (vJOINT_RAND_LEN v) k jr)
    (piece (vJOINT_RAND_LEN v) k jr') (map q keys)); try assumption; try (now apply piece_length with m).
  - rewrite map_map. rewrite (map_ext_in _ (fun key => point_of v k (query_rands p key ctx nonce))); [exact ND|]. intros key I. apply (HQ key I).
  - now rewrite map_length.
  - intros x I. apply in_map_iff in I. destruct I as (key & <- & I). destruct (HQ key I) as (A & _ & B). split; [exact A | exact B].
Qed.
End Std.
