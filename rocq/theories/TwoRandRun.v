(** Proofs for C105: Prio3 with a public share the Leader has changed. *)
From Verif Require Export TwoRandSpec.
From Verif Require Import TwoRandFacts ReusePrio3 ReuseFacts FlpFacts FlpProofs FlpSpec Circuits CircuitInstances MeasSpec FlpInstances Prio3Sound Prio3Run Prio3Facts
  Prio3Spec Prio3ViewFacts OfflineRun Prio3Props PostFacts VecFacts BaseFacts CircuitFacts.
Open Scope nat_scope.

Section R.
Context {P : NttFieldClass} (HP : NttOk P) (v : Valid P) (Hv : std_circuit P v) (HJ : 0 < vJOINT_RAND_LEN v).
Context (X : XofClass) (ID : Z) (vks n m : nat).
Notation F := (F P).
Let p : Prio3 := {| p3_field := P; p3_flp := FlpBBCGGI19 v; p3_xof := X; p3_ID := ID;
              p3_VERIFY_KEY_SIZE := vks; p3_SHARES := n; p3_PROOFS := m |}.
Context (lim : Z) (HO : Prio3Ok p lim).
Let HV : ValidOk v := proj1 (std_ok HP v Hv).
Let HT : truncate_linear v := proj2 (std_ok HP v Hv).

Lemma init_joint key ctx j nonce public (is : Prio3InputShare P) st ver (ms ps : list F) b sd pt (jr : list F) :
  p3_verify_init p key ctx j tt nonce public is = Ok (st, ver) ->
  expand_input_share p ctx j is = Ok (ms, ps, b) ->
  verify_joint_rand p ctx j b ms nonce public = Ok (sd, pt, jr) -> snd st = sd /\ snd ver = pt.
Proof.
  intros H HE HX. unfold p3_verify_init in H. rewrite HE in H. cbn [bind] in H. apply bind_Ok in H as (o & _ & H). rewrite HX in H. cbn [bind] in H.
  apply bind_Ok in H as (qr & _ & H). apply bind_Ok in H as ([[[a a1] a2] a3] & _ & H).
  assert (E := f_equal (fun r => match r with Ok z => (snd (fst z), snd (snd z)) | Raise _ => (None, None) end) H). cbn in E. injection E as E1 E2.
  split; symmetry; assumption.
Qed.

Theorem forked_run : exists ell : list F -> nat -> F,
  (forall q k, test_points_ok v q -> k < nth 0 (GADGET_CALLS v) 0 -> ell q k <> f0) /\
  forall ctx M (meas : list F) nonce rand parts iss x key (st ver : nat -> list F * option bytes) (d : Prio3InputShare P),
  ctx_ok ctx -> length nonce = p3_NONCE_SIZE -> length rand = RAND_SIZE p ->
  valid_encode v M = Ok meas -> length meas = vMEAS_LEN v -> (forall jr, length jr = vJOINT_RAND_LEN v -> circuit_zero v meas jr) ->
  p3_shard p ctx M nonce rand = Ok (Some parts, iss) -> 0 < m ->
  (forall j, 1 <= j < n -> p3_verify_init p key ctx j tt nonce (Some (x :: tl parts)) (nth j iss d) = Ok (st j, ver j)) ->
  exists seed (jr : list F) seed' (jr' qr m0 p0 : list F) b0 vss0,
    joint_rand_seed p ctx parts = Ok seed /\ joint_rands p ctx seed = Ok jr /\
    joint_rand_seed p ctx (x :: tl parts) = Ok seed' /\ joint_rands p ctx seed' = Ok jr' /\
    query_rands p key ctx nonce = Ok qr /\
    expand_input_share p ctx 0 (nth 0 iss d) = Ok (m0, p0, b0) /\ proof_verifiers p m0 p0 qr jr' = Ok vss0 /\
    (forall j, 1 <= j < n -> snd (st j) = Some seed') /\
    let total := vsum (verifier_len v * m) (concat vss0 :: map (fun j => fst (ver j)) (seq 1 (n - 1))) in
    let part k := piece (verifier_len v) k total in
    (forall k, k < m -> discrepancy v (part k) =
       linear_form v (ell (piece (query_rand_len v) k qr)) (part k) (piece (vJOINT_RAND_LEN v) k jr) (piece (vJOINT_RAND_LEN v) k jr') meas) /\
    p3_verifier_shares_to_message p ctx tt ((concat vss0, Some x) :: map ver (seq 1 (n - 1))) =
      if forallb (fun k => feqb (discrepancy v (part k)) f0) (seq 0 m) then Ok (Some seed')
      else Raise (ValueError "proof verifier check failed").
Proof.
  destruct (std_forked_ok HP v Hv HJ) as (ell & Hell & HF). exists ell. split; [exact Hell|].
  intros ctx M meas nonce rand parts iss x key st ver d Hc Hn Hr He Hl Hz HS Hm HI.
  pose proof (shard_post p lim HO (test_points_ok v) (circuit_zero v) (flp_ok HP v HV HT) ctx M meas nonce rand Hc Hn Hr He Hl) as HR.
  rewrite HS in HR. cbn [post] in HR. destruct HR as (ms & ps & blinds & prove_seed & pr & jr & proofs & R).
  destruct (report_joint p lim HO ctx meas nonce rand (Some parts) iss ms ps blinds prove_seed pr jr proofs Hc R) as (Ljr & _).
  pose proof (po_shares p lim HO) as H2. cbn [p3_SHARES p] in H2.
  assert (HnM : (Z.of_nat n < MODULUS P)%Z) by exact (po_shares_field p lim HO).
  pose proof (rp_meas_vecs _ _ _ _ _ _ _ _ _ _ _ _ _ _ R) as Vm. pose proof (rp_proof_vecs _ _ _ _ _ _ _ _ _ _ _ _ _ _ R) as Vp.
  change (vecs n (vMEAS_LEN v) ms) in Vm. change (vecs n (proof_len v * m) ps) in Vp.
  pose proof (rp_expand _ _ _ _ _ _ _ _ _ _ _ _ _ _ R) as HE. change (p3_SHARES p) with n in HE.
  pose proof (rp_meas _ _ _ _ _ _ _ _ _ _ _ _ _ _ R) as SM. pose proof (rp_proof _ _ _ _ _ _ _ _ _ _ _ _ _ _ R) as SP.
  pose proof (rp_joint _ _ _ _ _ _ _ _ _ _ _ _ _ _ R) as RJ. change (JOINT_RAND_LEN (p3_flp p)) with (vJOINT_RAND_LEN v) in RJ, Ljr.
  change (p3_PROOFS p) with m in Ljr.
  assert (EJ : (0 <? vJOINT_RAND_LEN v) = true) by now apply Nat.ltb_lt. rewrite EJ in RJ.
  destruct RJ as (parts0 & seed & Epub & Lpp & Hparts & Hs & Hjr). injection Epub as <-. change (p3_SHARES p) with n in Lpp, Hparts.
  destruct (joint_rand_seed_ok p lim HO ctx (x :: tl parts) Hc) as (seed' & Hs' & Ls').
  assert (Lm : forall j, j < n -> length (nth j ms []) = vMEAS_LEN v).
  { intros j Hj. destruct Vm as [M1 M2]. apply (Forall_nth_len (fun x => length x = vMEAS_LEN v)); [easy | lia]. }
  assert (Lp : forall j, j < n -> length (nth j ps []) = proof_len v * m).
  { intros j Hj. destruct Vp as [M1 M2]. apply (Forall_nth_len (fun x => length x = proof_len v * m)); [easy | lia]. }
  assert (Ntl : forall j, 1 <= j -> nth j (x :: tl parts) [] = nth j parts []).
  { intros j Hj. destruct j as [|j]; [lia|]. cbn [nth]. destruct parts as [|a l]; [cbn in Lpp; lia|]. reflexivity. }
  assert (Lx : length (x :: tl parts) = n).
  { destruct parts as [|a l]; [cbn in Lpp; lia|]. exact Lpp. }
  (* the joint randomness of the Helpers *)
  assert (HVJ : forall j, 1 <= j < n -> verify_joint_rand p ctx j (nth j blinds None) (nth j ms []) nonce (Some (x :: tl parts)) =
     let* jr := joint_rands p ctx seed' in Ok (Some seed', Some (nth j parts []), jr)).
  { intros j Hj. destruct (Hparts j ltac:(lia)) as (bl & Ebl & _ & Hpart & _). unfold verify_joint_rand.
    change (JOINT_RAND_LEN (p3_flp p)) with (vJOINT_RAND_LEN v). rewrite EJ, Ebl, Hpart. cbn [bind].
    rewrite set_lt by lia. cbn [bind].
    assert (U : upd (x :: tl parts) j (nth j parts []) = x :: tl parts).
    { apply (nth_ext' ([] : bytes)); [apply length_upd|]. intros i Hi.
      rewrite nth_upd by lia. destruct (j =? i) eqn:Eji; [|easy]. apply Nat.eqb_eq in Eji. subst i. symmetry. apply Ntl. lia. }
    rewrite U, Hs'. reflexivity. }
  destruct (joint_rands p ctx seed') as [jr'|e] eqn:Hjr'; cycle 1.
  { exfalso. specialize (HI 1 ltac:(lia)). unfold p3_verify_init in HI. rewrite (HE 1 ltac:(lia) d) in HI. cbn [bind] in HI.
    apply bind_Ok in HI as (o & _ & HI). rewrite (HVJ 1 ltac:(lia)) in HI. discriminate. }
  assert (HSt : forall j, 1 <= j < n -> snd (st j) = Some seed' /\ snd (ver j) = Some (nth j parts [])).
  { intros j Hj. exact (init_joint key ctx j nonce _ _ _ _ _ _ _ _ _ _ (HI j Hj) (HE j ltac:(lia) d) (HVJ j Hj)). }
  assert (HQ : forall j, 1 <= j < n -> exists qr vss, query_rands p key ctx nonce = Ok qr /\
     proof_verifiers p (nth j ms []) (nth j ps []) qr jr' = Ok vss /\ fst (ver j) = concat vss).
  { intros j Hj. pose proof (HI j Hj) as HIj. destruct (ver j) as [vj pj] eqn:Ev.
    destruct (verify_init_verifiers P v X ID vks n m ltac:(lia) key ctx j nonce _ (nth j iss d) (st j) vj pj (nth j ms []) (nth j ps [])
      (nth j blinds None) HIj (HE j ltac:(lia) d) (Lp j ltac:(lia))) as (qr & jr0 & vss & E1 & E2 & E3 & E4).
    exists qr, vss. split; [exact E1|]. split; [|exact E3]. rewrite EJ in E4. destruct E4 as (s4 & E41 & E42).
    assert (s4 = seed') as -> by (assert (Q := eq_trans (eq_sym (proj1 (HSt j Hj))) E41); injection Q as Q; now symmetry).
    assert (jr0 = jr') as -> by exact (f_equal getl (eq_trans (eq_sym E42) Hjr')). exact E2. }
  destruct (HQ 1 ltac:(lia)) as (qr & vss1 & Eqr & Hvss1 & _).
  assert (Lqr : length qr = query_rand_len v * m).
  { unfold query_rands in Eqr. apply bind_Ok in Eqr as (? & _ & E). apply bind_Ok in E as (? & _ & E). apply expand_len in E. exact E. }
  assert (Ljr' : length jr' = vJOINT_RAND_LEN v * m).
  { pose proof (joint_rands_post p lim HO ctx seed' Hc Ls') as Q. rewrite Hjr' in Q. exact Q. }
  assert (Lpr : length pr = prove_rand_len v * m).
  { pose proof (rp_prove_rand _ _ _ _ _ _ _ _ _ _ _ _ _ _ R) as Q. unfold prove_rands in Q. apply bind_Ok in Q as (? & _ & E). apply bind_Ok in E as (? & _ & E). apply expand_len in E. exact E. }
  assert (Hg : forall k, k < m -> test_points_ok v (piece (query_rand_len v) k qr)).
  { intros k Hk. pose proof (mapM_Ok_nth _ _ _ 0 [] Hvss1 k) as Q. rewrite seq_length, seq_nth in Q by easy. specialize (Q Hk).
    destruct (query_guard HP v HV (nth 1 ms []) (piece (proof_len v) k (nth 1 ps [])) (piece (query_rand_len v) k qr)
       (piece (vJOINT_RAND_LEN v) k jr') n) as [G1 G2]; try easy; try (apply piece_length with m; try easy); try (now apply Lm; lia); try (now apply Lp; lia); try lia.
    destruct (existsb (bad_point v (piece (query_rand_len v) k qr)) (seq 0 (length (GADGETS v)))) eqn:E; [|now apply bad_points_iff].
    exfalso. assert (Q' := eq_trans (eq_sym Q) (G2 ltac:(intros C; apply (bad_points_iff v) in C; congruence))). discriminate Q'. }
  (* the Leader's own verifiers *)
  assert (HL : exists vss0, proof_verifiers p (nth 0 ms []) (nth 0 ps []) qr jr' = Ok vss0 /\ length vss0 = m /\ Forall (fun x => length x = verifier_len v) vss0).
  { unfold proof_verifiers.
    assert (G : forall l, (forall k, In k l -> k < m) -> exists r, mapM (fun k => flp_query (p3_flp p) (nth 0 ms []) (piece (PROOF_LEN (p3_flp p)) k (nth 0 ps []))
                   (piece (QUERY_RAND_LEN (p3_flp p)) k qr) (piece (JOINT_RAND_LEN (p3_flp p)) k jr') (p3_SHARES p)) l = Ok r /\
                   length r = length l /\ Forall (fun x => length x = verifier_len v) r).
    { induction l as [|k l IH]; intros Hkl; [now exists []|]. destruct IH as (r & Er & Lr & Fr); [intros k' I; apply Hkl; now right|].
      assert (Hk : k < m) by (apply Hkl; now left).
      destruct (query_guard HP v HV (nth 0 ms []) (piece (proof_len v) k (nth 0 ps [])) (piece (query_rand_len v) k qr)
       (piece (vJOINT_RAND_LEN v) k jr') n) as [G1 _]; try easy; try (apply piece_length with m; try easy); try (now apply Lm; lia); try (now apply Lp; lia); try lia.
      destruct (G1 (Hg k Hk)) as (w & Ew & Lw). exists (w :: r). cbn [mapM].
      change (flp_query (p3_flp p) (nth 0 ms []) (piece (PROOF_LEN (p3_flp p)) k (nth 0 ps [])) (piece (QUERY_RAND_LEN (p3_flp p)) k qr) (piece (JOINT_RAND_LEN (p3_flp p)) k jr') (p3_SHARES p) = Ok w) in Ew.
      rewrite Ew. cbn [bind]. rewrite Er. cbn [bind]. split; [reflexivity|]. cbn [length]. split; [lia|]. now constructor. }
    destruct (G (seq 0 m) ltac:(intros k I; apply in_seq in I; lia)) as (r & Er & Lr & Fr). exists r. split; [exact Er|]. rewrite seq_length in Lr. now split. }
  destruct HL as (vss0 & Hvss0 & Lvss0 & Fvss0).
  exists seed, jr, seed', jr', qr, (nth 0 ms []), (nth 0 ps []), (nth 0 blinds None), vss0.
  split; [exact Hs|]. split; [exact Hjr|]. split; [exact Hs'|]. split; [first [reflexivity | exact Hjr']|]. split; [exact Eqr|].
  split; [exact (HE 0 ltac:(lia) d)|]. split; [exact Hvss0|]. split; [intros j Hj; exact (proj1 (HSt j Hj))|].
  (* all verifier shares *)
  destruct (choose_nat n (fun j vss => proof_verifiers p (nth j ms []) (nth j ps []) qr jr' = Ok vss /\ (if j =? 0 then vss = vss0 else fst (ver j) = concat vss)) []) as (vss & Lv & Hvs).
  { intros j Hj. destruct j as [|j]; [exists vss0; now split|]. destruct (HQ (S j) ltac:(lia)) as (qr' & y & E1 & E2 & E3). exists y. rewrite Eqr in E1. split; [|exact E3].
    assert (qr = qr') as -> by exact (f_equal getl E1). exact E2. }
  set (vs := fun j => if j =? 0 then concat vss0 else fst (ver j)).
  assert (Hseq : seq 0 n = 0 :: seq 1 (n - 1)) by (destruct n; [lia|]; cbn [seq]; do 2 f_equal; lia).
  assert (Etot : vsum (verifier_len v * m) (concat vss0 :: map (fun j => fst (ver j)) (seq 1 (n - 1))) = vsum (verifier_len v * m) (map vs (seq 0 n))).
  { rewrite Hseq. cbn [map]. do 2 f_equal. apply map_ext_in. intros j I. apply in_seq in I. unfold vs. destruct (Nat.eqb_spec j 0); [lia|reflexivity]. }
  cbv zeta. rewrite Etot. set (total := vsum (verifier_len v * m) (map vs (seq 0 n))).
  assert (Ltot : length total = verifier_len v * m) by apply vsum_length.
  assert (HK : forall k, k < m -> discrepancy v (piece (verifier_len v) k total) =
       linear_form v (ell (piece (query_rand_len v) k qr)) (piece (verifier_len v) k total) (piece (vJOINT_RAND_LEN v) k jr) (piece (vJOINT_RAND_LEN v) k jr') meas /\
       bbcggi19_decide v (piece (verifier_len v) k total) = Ok (feqb (discrepancy v (piece (verifier_len v) k total)) f0)).
  { intros k Hk. pose proof (sum_query HP v HV X ID vks n m lim HO ms ps jr' qr vss k Vm Vp Ljr' Lqr Lv (fun j Hj => proj1 (Hvs j Hj)) Hk) as E.
    assert (SM' : @vsum P (vMEAS_LEN v) ms = meas) by exact SM. rewrite SM' in E.
    assert (SP' : @vsum P (proof_len v * m) ps = concat proofs) by exact SP. rewrite SP' in E.
    assert (Lproofs : length proofs = m) by exact (rp_proofs _ _ _ _ _ _ _ _ _ _ _ _ _ _ R).
    assert (Hprove : forall k, k < m -> bbcggi19_prove v meas (piece (prove_rand_len v) k pr) (piece (vJOINT_RAND_LEN v) k jr) = Ok (nth k proofs [])).
    { intros k' Hk'. exact (rp_prove _ _ _ _ _ _ _ _ _ _ _ _ _ _ R k' Hk'). }
    assert (Fproofs : Forall (fun x => length x = proof_len v) proofs).
    { apply Forall_forall. intros y I. apply (In_nth _ _ []) in I as (k' & Hk' & <-). rewrite Lproofs in Hk'.
      destruct (prove_total HP v HV meas (piece (prove_rand_len v) k' pr) (piece (vJOINT_RAND_LEN v) k' jr) Hl) as (pf & Epf & Lpf);
        try (apply piece_length with m; assumption). rewrite (Hprove k' Hk') in Epf. injection Epf as Epf. exact (eq_trans (f_equal (@length F) Epf) Lpf). }
    rewrite (piece_concat _ _ _ Fproofs) in E by lia.
    destruct (HF meas (piece (prove_rand_len v) k pr) (piece (query_rand_len v) k qr) (piece (vJOINT_RAND_LEN v) k jr) (piece (vJOINT_RAND_LEN v) k jr') Hl)
      as (w & Ew & Lw & _ & Ed & Edec); try (apply piece_length with m; assumption); try (now apply Hg).
    { apply Hz. apply piece_length with m; assumption. }
    unfold forked_verifier in Ew. rewrite (Hprove k Hk) in Ew. cbn [bind] in Ew.
    assert (Ekey : piece (verifier_len v) k total = w).
    { assert (Q := eq_trans (eq_sym Ew) E). injection Q as Q. rewrite Q. f_equal. unfold total. f_equal. apply map_ext_in. intros j I. apply in_seq in I.
      unfold vs. destruct (Hvs j ltac:(lia)) as [_ Q2]. destruct (j =? 0); [exact (f_equal (@concat F) (eq_sym Q2)) | exact Q2]. }
    rewrite Ekey. now split. }
  split; [intros k Hk; exact (proj1 (HK k Hk))|].
  (* the message *)
  set (pts := fun j => if j =? 0 then Some x else Some (nth j parts [])).
  assert (Esh : (concat vss0, Some x) :: map ver (seq 1 (n - 1)) = map (fun j => (vs j, pts j)) (seq 0 n)).
  { rewrite Hseq. cbn [map]. f_equal. apply map_ext_in. intros j I. apply in_seq in I. unfold vs, pts. destruct (Nat.eqb_spec j 0); [lia|].
    rewrite <- (proj2 (HSt j ltac:(lia))). now destruct (ver j). }
  rewrite Esh.
  assert (Lvs : forall j, j < n -> length (vs j) = verifier_len v * m).
  { intros j Hj. unfold vs. destruct (Nat.eqb_spec j 0) as [->|Ne].
    - rewrite (length_concat_const _ (verifier_len v)); [rewrite Lvss0; lia | exact Fvss0].
    - destruct (Hvs j Hj) as [E1 E2]. destruct (Nat.eqb_spec j 0); [lia|]. rewrite E2. rewrite (length_concat_const _ (verifier_len v)).
      + pose proof (mapM_Ok_length _ _ _ E1) as Q. rewrite seq_length in Q. change (p3_PROOFS p) with m in Q. rewrite Q. lia.
      + apply Forall_forall. intros y I. apply (In_nth _ _ []) in I as (k & Hk & <-).
        pose proof (mapM_Ok_length _ _ _ E1) as Q. rewrite seq_length in Q. change (p3_PROOFS p) with m in Q. rewrite Q in Hk.
        pose proof (mapM_Ok_nth _ _ _ 0 [] E1 k) as Q2. rewrite seq_length, seq_nth in Q2 by easy. specialize (Q2 Hk).
        destruct (query_guard HP v HV (nth j ms []) (piece (proof_len v) k (nth j ps [])) (piece (query_rand_len v) k qr)
          (piece (vJOINT_RAND_LEN v) k jr') n) as [G1 _]; try easy; try (apply piece_length with m; try easy); try (now apply Lm; lia); try (now apply Lp; lia); try lia.
        destruct (G1 (Hg k Hk)) as (w & Ew & Lw). assert (Q3 := eq_trans (eq_sym Q2) Ew). injection Q3 as Q3. exact (eq_trans (f_equal (@length F) Q3) Lw). }
  assert (HH := shares_loop p n vs pts Lvs ltac:(intros _ j Hj; unfold pts; destruct (j =? 0); eauto)).
  unfold p3_verifier_shares_to_message.
  match type of HH with ?a = _ => match goal with |- bind _ ?kk = ?r => change (bind a kk = r) end end.
  rewrite HH. cbn [bind]. clear HH.
  change (JOINT_RAND_LEN (p3_flp p)) with (vJOINT_RAND_LEN v). change (VERIFIER_LEN (p3_flp p) * p3_PROOFS p) with (verifier_len v * m). rewrite EJ.
  assert (Ecut : total = concat (map (fun k => piece (verifier_len v) k total) (seq 0 m))) by (symmetry; exact (piece_concat_self (verifier_len v) m total Ltot)).
  assert (Lk : forall k, k < m -> length (piece (verifier_len v) k total) = verifier_len v) by (intros k Hk; now apply piece_length with m).
  assert (Epts : map (fun j => match pts j with Some b => b | None => [] end) (seq 0 n) = x :: tl parts).
  { apply (nth_ext' ([] : bytes)); rewrite map_length, seq_length; [symmetry; exact Lx|]. intros j Hj. rewrite nth_map_seq by exact Hj. unfold pts.
    destruct (Nat.eqb_spec j 0) as [->|Ne]; [reflexivity|]. symmetry. apply Ntl. lia. }
  rewrite Epts, Hs'. cbn [bind].
  destruct (forallb _ (seq 0 m)) eqn:EB.
  - destruct (decide_loop p m (fun k => piece (verifier_len v) k total) eq_refl Lk) as (r & Er).
    { intros k Hk. rewrite forallb_forall in EB. specialize (EB k ltac:(apply in_seq; lia)). cbv beta in EB.
      etransitivity; [exact (proj2 (HK k Hk))|]. f_equal. exact EB. }
    rewrite <- Ecut in Er. change (p3_PROOFS p) with m.
    etransitivity; [exact (f_equal (fun z => bind z (fun _ => Ok (Some seed'))) Er)|]. reflexivity.
  - pose proof (decide_loop_false p m (fun k => piece (verifier_len v) k total) (fun k => feqb (discrepancy v (piece (verifier_len v) k total)) f0) Lk
      (fun k Hk => proj2 (HK k Hk)) EB) as Er. rewrite <- Ecut in Er.
    exact (f_equal (fun z => bind z (fun _ => Ok (Some seed'))) Er).
Qed.
End R.

Section B.
Context (p : Prio3) (lim : Z) (HO : Prio3Ok p lim).
Notation field := (p3_field p).
Notation flp := (p3_flp p).
Notation xof := (p3_xof p).
Notation S_ := (p3_SHARES p).

(** Binding, when each Aggregator gets a public share of its own. *)
Theorem separate_binding key ctx nonce (public : nat -> list bytes) (is : nat -> Prio3InputShare field) st sh msg :
  0 < JOINT_RAND_LEN flp ->
  (forall j, j < S_ -> length (public j) = S_ /\ Forall (fun x => length x = SEED_SIZE xof) (public j)) ->
  (forall j, j < S_ -> p3_verify_init p key ctx j tt nonce (Some (public j)) (is j) = Ok (st j, sh j)) ->
  p3_verifier_shares_to_message p ctx tt (map sh (seq 0 S_)) = Ok msg ->
  (forall j, j < S_ -> exists o, p3_verify_next p ctx (st j) msg = Ok o) ->
  (exists parts seed jr, length parts = S_ /\ joint_rand_seed p ctx parts = Ok seed /\ msg = Some seed /\
     joint_rands p ctx seed = Ok jr /\
     forall j, j < S_ -> upd (public j) j (nth j parts []) = parts /\ exists ms ps blind,
       expand_input_share p ctx j (is j) = Ok (ms, ps, Some blind) /\
       joint_rand_part p ctx j blind ms nonce = Ok (nth j parts []) /\
       verify_joint_rand p ctx j (Some blind) ms nonce (Some (public j)) = Ok (Some seed, Some (nth j parts []), jr))
  \/ seed_collision xof.
Proof.
  intros HJ HF Hi Hm Hn.
  pose proof (po_shares _ _ HO) as HS. pose proof (po_seed _ _ HO) as Hsz.
  apply message_Ok in Hm as (parts & s & Hsnd & Hs & ->); [|easy].
  rewrite map_map in Hsnd.
  assert (Lparts : length parts = S_).
  { apply (f_equal (@length _)) in Hsnd. rewrite !map_length, seq_length in Hsnd. easy. }
  (* per aggregator *)
  assert (HA : forall j, j < S_ -> exists ms ps blind jr, expand_input_share p ctx j (is j) = Ok (ms, ps, Some blind) /\
    joint_rand_part p ctx j blind ms nonce = Ok (nth j parts []) /\
    joint_rand_seed p ctx (upd (public j) j (nth j parts [])) = Ok s /\ joint_rands p ctx s = Ok jr).
  { intros j Hj. pose proof (Hi j Hj) as H. destruct (st j) as [out seed] eqn:Est, (sh j) as [v part] eqn:Esh.
    apply verify_init_joint in H as (ms & ps & blind & jr & He & Hv); [|easy].
    apply verify_joint_rand_Ok in Hv as (b & prts & pt & sd & -> & E & -> & -> & H1 & H2 & H3 & H4); [|easy].
    injection E as <-.
    destruct (Hn j Hj) as [o Ho]. rewrite Est in Ho. apply verify_next_iff in Ho as [Ho _]. injection Ho as <-.
    assert (Ep : pt = nth j parts []).
    { apply (f_equal (fun l => nth j l None)) in Hsnd. rewrite nth_seq_map in Hsnd by easy.
      rewrite Esh in Hsnd. cbn [snd] in Hsnd. rewrite (nth_map' _ _ _ ([] : bytes)) in Hsnd by lia. now injection Hsnd. }
    subst pt. exists ms, ps, b, jr. easy. }
  assert (HFp : Forall (fun x => length x = SEED_SIZE xof) parts).
  { apply Forall_forall. intros x Hx. apply (In_nth _ _ []) in Hx as (j & Hj & <-).
    assert (Hj' : j < S_) by (rewrite <- Lparts; exact Hj). destruct (HA j Hj') as (? & ? & ? & ? & _ & H & _). exact (part_length p lim HO _ _ _ _ _ _ H). }
  assert (HB : forall j, j < S_ -> upd (public j) j (nth j parts []) = parts \/ seed_collision xof).
  { intros j Hj. destruct (HA j Hj) as (ms & ps & b & jr & _ & H1 & H2 & _).
    eapply seed_binding; [exact Hsz | | exact HFp | exact H2 | exact Hs].
    apply Forall_forall. intros x Hx. apply (In_nth _ _ []) in Hx as (i & Hi' & <-).
    rewrite length_upd in Hi'. pose proof (proj1 (HF j Hj)) as Hl. rewrite nth_upd by (unfold bytes in *; lia). destruct (j =? i) eqn:E.
    - exact (part_length p lim HO _ _ _ _ _ _ H1).
    - pose proof (proj2 (HF j Hj)) as HFj. rewrite Forall_forall in HFj. apply HFj. now apply nth_In. }
  assert (HB' : (forall j, j < S_ -> upd (public j) j (nth j parts []) = parts) \/ seed_collision xof).
  { assert (G : forall n, n <= S_ -> (forall j, j < n -> upd (public j) j (nth j parts []) = parts) \/ seed_collision xof).
    { induction n as [|n IH]; intros Hle; [left; intros; lia|]. destruct (IH ltac:(lia)) as [I|]; [|now right].
      destruct (HB n ltac:(lia)) as [E|]; [|now right]. left. intros j Hj. destruct (Nat.eq_dec j n) as [->|]; [exact E|apply I; lia]. }
    exact (G S_ (le_n _)). }
  destruct HB' as [B|C]; [left|right; exact C].
  destruct (HA 0) as (_ & _ & _ & jr & _ & _ & _ & Hjr); [lia|].
  exists parts, s, jr. split; [exact Lparts|]. split; [exact Hs|]. split; [reflexivity|]. split; [exact Hjr|].
  intros j Hj. split; [exact (B j Hj)|]. destruct (HA j Hj) as (ms & ps & b & jr' & H1 & H2 & H3 & _). exists ms, ps, b.
  split; [exact H1|]. split; [exact H2|]. unfold verify_joint_rand. rewrite (proj2 (Nat.ltb_lt _ _) HJ), H2. cbn [bind].
  pose proof (proj1 (HF j Hj)) as Hl. rewrite set_lt by (unfold bytes in *; lia). cbn [bind].
  match goal with |- bind ?m _ = _ => replace m with (Ok s : res bytes) by (symmetry; exact H3) end.
  cbn [bind]. rewrite Hjr. reflexivity.
Qed.
End B.
