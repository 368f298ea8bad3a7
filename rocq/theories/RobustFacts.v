(** Verified Prio3 reports, whoever made them. *)
From Verif Require Import RobustSpec RunSpec RunFacts PingPongInst Prio3Facts Prio3Run Prio3Props FlpSpec VecFacts VdafFacts BaseFacts PostFacts CommonFacts.
Open Scope nat_scope.

Lemma decide_loop_inv {P : FieldClass} m k0 (flp : Flp P) verifiers r :
  length verifiers = VERIFIER_LEN flp * m -> k0 < m ->
  for_range 0 m verifiers (fun verifiers _ =>
    let* (verifier, verifiers) := front (VERIFIER_LEN flp) verifiers in
    let* ok := flp_decide flp verifier in
    let* _ := check ok (ValueError "proof verifier check failed") in
    Ok verifiers) = Ok r ->
  flp_decide flp (piece (VERIFIER_LEN flp) k0 verifiers) = Ok true.
Proof.
  intros L Hk H.
  set (body := fun verifiers (_ : nat) => _) in H.
  assert (R : forall i st, i <= m -> foldM body (range 0 i) verifiers = Ok st ->
    st = skipn (i * VERIFIER_LEN flp) verifiers /\
    forall k, k < i -> flp_decide flp (piece (VERIFIER_LEN flp) k verifiers) = Ok true).
  { induction i as [|i IH]; intros st Hi Hf.
    - injection Hf as <-. split; [easy | intros; lia].
    - unfold range in Hf. rewrite Nat.sub_0_r, seq_S, foldM_app in Hf.
      apply bind_Ok in Hf as (st' & Hf & Hb). destruct (IH st') as [-> IHk]; [lia | unfold range; now rewrite Nat.sub_0_r|].
      cbn [foldM] in Hb. rewrite bind_ret in Hb. unfold body in Hb.
      rewrite (peel_piece _ _ m) in Hb by (try easy; lia). cbn [bind] in Hb.
      apply bind_Ok in Hb as (ok & Hd & Hb). apply bind_Ok in Hb as (? & Hc & Hb). apply check_Ok in Hc. subst ok.
      injection Hb as <-. split; [easy|]. intros k Hk'. destruct (Nat.eq_dec k i) as [->|]; [easy | apply IHk; lia]. }
  destruct (R m r) as [_ HR]; [lia | exact H |]. now apply HR.
Qed.

Section R.
Context (p : Prio3) (lim : Z) (HO : Prio3Ok p lim).
Notation flp := (p3_flp p).
Notation S_ := (p3_SHARES p).
Notation PR := (p3_PROOFS p).
Notation F := (F (p3_field p)).
Context (good : list F -> Prop) (valid : list F -> list F -> Prop) (HF : FlpOk flp good valid).
Context (key ctx : bytes) (Hc : ctx_ok ctx) (Hk : length key = p3_VERIFY_KEY_SIZE p).

Lemma decides (vs : nat -> list F) parts msg k :
  (forall j, j < S_ -> length (vs j) = VERIFIER_LEN flp * PR) -> k < PR ->
  p3_verifier_shares_to_message p ctx tt (map (fun j => (vs j, parts j)) (seq 0 S_)) = Ok msg ->
  flp_decide flp (piece (VERIFIER_LEN flp) k (vsum (VERIFIER_LEN flp * PR) (map vs (seq 0 S_)))) = Ok true.
Proof.
  intros Hl Hk' H. unfold p3_verifier_shares_to_message in H.
  apply bind_Ok in H as ([w prts] & Hf & H). apply bind_Ok in H as (r & Hd & _).
  assert (E : w = vsum (VERIFIER_LEN flp * PR) (map vs (seq 0 S_))).
  { clear Hd. assert (G : forall i st, i <= S_ -> foldM (fun '(verifiers, joint_rand_parts) '(verifiers_share, joint_rand_part) =>
      let* verifiers := vec_add verifiers verifiers_share in
      if 0 <? JOINT_RAND_LEN flp then
        match joint_rand_part with
        | Some part => Ok (verifiers, joint_rand_parts ++ [part])
        | None => Raise AssertionError
        end
      else Ok (verifiers, joint_rand_parts))
      (map (fun j => (vs j, parts j)) (seq 0 i)) (fzeros (VERIFIER_LEN flp * PR), []) = Ok st ->
      fst st = vsum (VERIFIER_LEN flp * PR) (map vs (seq 0 i))).
    { induction i as [|i IH]; intros st Hi Hs.
      - injection Hs as <-. symmetry. apply vsum_nil.
      - rewrite seq_map_S, foldM_app in Hs. apply bind_Ok in Hs as ([w' pp] & Hs & Hb).
        apply IH in Hs; [|lia]. cbn [fst] in Hs. subst w'. cbn [foldM] in Hb. rewrite bind_ret in Hb.
        rewrite (vec_add_vsum p (VERIFIER_LEN flp * PR) (map vs (seq 0 i)) (vs i)) in Hb by (apply Hl; lia).
        cbn [bind] in Hb. rewrite seq_map_S.
        destruct (0 <? _); [destruct (parts i); [|easy]|]; injection Hb as <-; easy. }
    apply (G S_ (w, prts)); [lia | exact Hf]. }
  subst w. pose proof (po_shares _ _ HO).
  apply (decide_loop_inv PR k flp _ r); [apply vsum_length | easy | exact Hd].
Qed.

(** One Aggregator. *)
Lemma init_inv j nonce ps is st sh : j < S_ -> input_share_wf p j is -> public_share_wf p ps ->
  p3_verify_init p key ctx j tt nonce ps is = Ok (st, sh) ->
  exists ms prf b jr qr (vs : nat -> list F),
    length ms = MEAS_LEN flp /\ length prf = PROOF_LEN flp * PR /\ blind_wf p b /\
    flp_truncate flp ms = Ok (fst st) /\
    verify_joint_rand p ctx j b ms nonce ps = Ok (snd st, snd sh, jr) /\ length jr = JOINT_RAND_LEN flp * PR /\
    query_rands p key ctx nonce = Ok qr /\ length qr = QUERY_RAND_LEN flp * PR /\
    (forall k, k < PR -> good (piece (QUERY_RAND_LEN flp) k qr)) /\
    (forall k, k < PR -> length (vs k) = VERIFIER_LEN flp /\
       flp_query flp ms (piece (PROOF_LEN flp) k prf) (piece (QUERY_RAND_LEN flp) k qr) (piece (JOINT_RAND_LEN flp) k jr) S_ = Ok (vs k)) /\
    fst sh = concat (map vs (seq 0 PR)).
Proof.
  intros Hj WI WP E.
  pose proof (p3_verify_init_post p lim HO good valid HF key ctx j nonce ps is Hc Hk Hj WI WP) as HP.
  rewrite E in HP. destruct HP as (_ & _ & _ & NB).
  unfold p3_verify_init in E. apply bind_Ok in E as (((ms & prf) & b) & E1 & E).
  pose proof (expand_share_post p lim HO ctx j is Hc Hj WI) as P1. rewrite E1 in P1. destruct P1 as (Lm & Lp & Wb).
  apply bind_Ok in E as (o & E2 & E). apply bind_Ok in E as (((sd & pt) & jr) & E3 & E).
  pose proof (verify_joint_post p lim HO ctx j b ms nonce ps Hc Hj Wb WP) as P3. rewrite E3 in P3. destruct P3 as (_ & _ & Lj).
  apply bind_Ok in E as (qr & E4 & E).
  pose proof (query_rands_post p lim HO key ctx nonce Hc (eq_trans Hk (po_key _ _ HO))) as P4. rewrite E4 in P4. cbn [post] in P4.
  assert (G : forall k, k < PR -> good (piece (QUERY_RAND_LEN flp) k qr)).
  { intros k Hk'. destruct (fo_good_dec _ _ _ HF (piece (QUERY_RAND_LEN flp) k qr)) as [G|G]; [now apply piece_length with PR|exact G|].
    exfalso. apply NB. exists qr, k. auto. }
  assert (Q : forall k, k < PR -> exists v, length v = VERIFIER_LEN flp /\
    flp_query flp ms (piece (PROOF_LEN flp) k prf) (piece (QUERY_RAND_LEN flp) k qr) (piece (JOINT_RAND_LEN flp) k jr) S_ = Ok v).
  { intros k Hk'. destruct (query_good p lim HO good valid HF ms (piece (PROOF_LEN flp) k prf) (piece (QUERY_RAND_LEN flp) k qr)
      (piece (JOINT_RAND_LEN flp) k jr)) as (v & E' & L); try (now apply piece_length with PR); [easy|now apply G|].
    exists v. auto. }
  destruct (finite_choice [] _ PR Q) as (vl & _ & HV).
  destruct (verify_init_loop p ms prf qr jr (fun k => nth k vl []) Lp P4 Lj (fun k Hk' => proj2 (HV k Hk'))) as (st' & EL).
  rewrite EL in E. cbn [bind] in E. injection E as <- <-.
  exists ms, prf, b, jr, qr, (fun k => nth k vl []). cbn [fst snd].
  repeat (split; [assumption|]). reflexivity.
Qed.

Theorem report_robust nonce ps iss outs : public_share_wf p ps ->
  (forall j is, nth_error iss j = Some is -> input_share_wf p j is) ->
  verify_report (Prio3Vdaf p) ctx tt key nonce ps iss = Ok outs ->
  vecs S_ (OUTPUT_LEN flp) outs /\ flp_accepted p key ctx nonce (vsum (OUTPUT_LEN flp) outs).
Proof.
  intros WP WI V. unfold verify_report in V. apply bind_Ok in V as (init & MI & V).
  change (vd_SHARES (Prio3Vdaf p)) with S_ in MI. apply mapM_range_Ok in MI as (LI & MI).
  change (vd_ROUNDS (Prio3Vdaf p) - 1) with 0 in V. cbn [verify_rounds] in V.
  change (vd_verifier_shares_to_message (Prio3Vdaf p)) with (p3_verifier_shares_to_message p) in V.
  change (vd_verify_next (Prio3Vdaf p)) with (p3_verify_next p) in V.
  apply bind_Ok in V as (msg & MS & V). apply mapM_nth_Ok in V as (LO & V). rewrite map_length in LO.
  change (vd_VerifyState (Prio3Vdaf p)) with (list F * option bytes)%type in *.
  change (vd_VerifierShare (Prio3Vdaf p)) with (list F * option bytes)%type in *.
  change (vd_OutShare (Prio3Vdaf p)) with (list F) in *.
  pose (dd := (([] : list F, None : option bytes), ([] : list F, None : option bytes))).
  (* every Aggregator *)
  assert (IN : forall j, j < S_ -> exists x : (list F * list F * option bytes * list F * list F * list (list F)),
    let '(ms, prf, b, jr, qr, vl) := x in let st := fst (nth j init dd) in let sh := snd (nth j init dd) in
    length ms = MEAS_LEN flp /\ length prf = PROOF_LEN flp * PR /\ blind_wf p b /\
    flp_truncate flp ms = Ok (fst st) /\
    verify_joint_rand p ctx j b ms nonce ps = Ok (snd st, snd sh, jr) /\ length jr = JOINT_RAND_LEN flp * PR /\
    query_rands p key ctx nonce = Ok qr /\ length qr = QUERY_RAND_LEN flp * PR /\
    (forall k, k < PR -> good (piece (QUERY_RAND_LEN flp) k qr)) /\
    (forall k, k < PR -> length (nth k vl []) = VERIFIER_LEN flp /\
       flp_query flp ms (piece (PROOF_LEN flp) k prf) (piece (QUERY_RAND_LEN flp) k qr) (piece (JOINT_RAND_LEN flp) k jr) S_ = Ok (nth k vl [])) /\
    fst sh = concat (map (fun k => nth k vl []) (seq 0 PR))).
  { intros j Hj. destruct (nth_error init j) as [(st & sh)|] eqn:EI; [|apply nth_error_None in EI; exfalso; change (length init <= j) in EI; lia].
    pose proof (MI j _ EI) as E. apply bind_Ok in E as (is & GI & E).
    pose proof (proj1 (get_Ok _ _ _) GI) as EJ.
    change (p3_verify_init p key ctx j tt nonce ps is = Ok (st, sh)) in E.
    destruct (init_inv j nonce ps is st sh Hj (WI j is EJ) WP E) as (ms & prf & b & jr & qr & vs & A1 & A2 & A3 & A4 & A5 & A6 & A7 & A8 & A9 & A10 & A11).
    exists (ms, prf, b, jr, qr, map vs (seq 0 PR)). rewrite (nth_error_nth _ _ dd EI). cbn [fst snd].
    assert (NV : forall k, k < PR -> nth k (map vs (seq 0 PR)) [] = vs k) by (intros k Hk'; now rewrite nth_seq_map by lia).
    repeat (split; [assumption|]). split.
    - intros k Hk'. rewrite NV by exact Hk'. exact (A10 k Hk').
    - rewrite A11. f_equal. apply map_ext_in. intros k Hk'. apply in_seq in Hk'. rewrite NV by lia. reflexivity. }
  apply (finite_choice ([], [], None, [], [], [])) in IN as (xs & LX & IN).
  (* all of them hold the same joint randomness seed *)
  assert (NX : forall j, j < S_ -> snd (fst (nth j init dd)) = msg /\ nth_error outs j = Some (fst (fst (nth j init dd)))).
  { intros j Hj. destruct (nth_error init j) as [(st & sh)|] eqn:EI; [|apply nth_error_None in EI; exfalso; change (length init <= j) in EI; lia].
    rewrite (nth_error_nth _ _ dd EI). cbn [fst].
    destruct (nth_error outs j) as [o|] eqn:EO; [|apply nth_error_None in EO; exfalso; change (length outs <= j) in EO; lia].
    specialize (V j st o). rewrite nth_error_map, EI in V. specialize (V eq_refl EO).
    apply bind_Ok in V as (r & VN & V). destruct st as (out & seed). apply verify_next_iff in VN as (-> & ->). injection V as <-. easy. }
  pose (MSS := map (fun x => fst (fst (fst (fst (fst x))))) xs).
  pose (PRF := map (fun x => snd (fst (fst (fst (fst x))))) xs).
  pose (d6 := ([] : list F, [] : list F, None : option bytes, [] : list F, [] : list F, [] : list (list F))).
  pose proof (po_shares _ _ HO) as HS. pose proof (po_shares_field _ _ HO) as HSF.
  assert (VM : vecs S_ (MEAS_LEN flp) MSS).
  { split; [unfold MSS; now rewrite map_length|]. apply Forall_map. apply Forall_forall. intros x Hx. apply (In_nth _ _ d6) in Hx as (j & Hj & <-).
    rewrite LX in Hj. specialize (IN j Hj). fold d6 in IN. destruct (nth j xs d6) as (((((ms & prf) & b) & jr) & qr) & vl). apply IN. }
  assert (VP : vecs S_ (PROOF_LEN flp * PR) PRF).
  { split; [unfold PRF; now rewrite map_length|]. apply Forall_map. apply Forall_forall. intros x Hx. apply (In_nth _ _ d6) in Hx as (j & Hj & <-).
    rewrite LX in Hj. specialize (IN j Hj). fold d6 in IN. destruct (nth j xs d6) as (((((ms & prf) & b) & jr) & qr) & vl). apply IN. }
  assert (NM : forall j, j < S_ -> nth j MSS [] = fst (fst (fst (fst (fst (nth j xs d6)))))).
  { intros j Hj. unfold MSS. now rewrite (nth_map' _ _ _ d6) by lia. }
  assert (NP : forall j, j < S_ -> nth j PRF [] = snd (fst (fst (fst (fst (nth j xs d6)))))).
  { intros j Hj. unfold PRF. now rewrite (nth_map' _ _ _ d6) by lia. }
  (* the output shares *)
  destruct (fo_truncate _ _ _ HF S_ MSS VM) as (outs' & VO & MO & TO).
  assert (EO : outs = outs').
  { apply (nth_ext _ _ [] []); [destruct VO as (L & _); change (length outs = length outs'); rewrite L; lia|]. intros j Hj.
    assert (Hj' : j < S_) by (change (j < length outs) in Hj; lia).
    pose proof (mapM_Ok_nth _ _ _ [] [] MO j) as M1. destruct VM as (LM & _). specialize (M1 ltac:(rewrite LM; exact Hj')).
    rewrite NM in M1 by exact Hj'. specialize (IN j Hj'). fold d6 in IN. destruct (nth j xs d6) as (((((ms & prf) & b) & jr) & qr) & vl).
    cbn [fst snd] in M1. destruct IN as (_ & _ & _ & T & _). rewrite T in M1. injection M1 as <-.
    apply nth_error_nth. apply (NX j Hj'). }
  subst outs'. split; [exact VO|].
  (* common query and joint randomness *)
  pose proof (IN 0 ltac:(lia)) as I0. fold d6 in I0. destruct (nth 0 xs d6) as (((((ms0 & prf0) & b0) & jr0) & qr0) & vl0) eqn:EX0.
  destruct I0 as (_ & _ & Wb0 & _ & J0 & LJ & Q0 & LQ & G0 & _ & _).
  assert (CJ : forall j, j < S_ -> snd (fst (nth j xs d6)) = qr0 /\ snd (fst (fst (nth j xs d6))) = jr0).
  { intros j Hj. pose proof (IN j Hj) as I. fold d6 in I. destruct (nth j xs d6) as (((((ms & prf) & b) & jr) & qr) & vl). cbn [fst snd].
    destruct I as (_ & _ & _ & _ & J & _ & Q & _). split; [congruence|].
    rewrite (proj1 (NX j Hj)) in J. rewrite (proj1 (NX 0 ltac:(lia))) in J0.
    unfold verify_joint_rand in J, J0. destruct (0 <? JOINT_RAND_LEN flp); [|injection J as _ _ <-; injection J0 as _ _ <-; reflexivity].
    destruct b as [b|]; [|discriminate J]. destruct b0 as [b0|]; [|discriminate J0]. destruct ps as [pts|]; [|discriminate J].
    apply bind_Ok in J as (x1 & _ & J). apply bind_Ok in J as (x2 & _ & J). apply bind_Ok in J as (x3 & _ & J). apply bind_Ok in J as (x4 & R4 & J).
    apply bind_Ok in J0 as (y1 & _ & J0). apply bind_Ok in J0 as (y2 & _ & J0). apply bind_Ok in J0 as (y3 & _ & J0). apply bind_Ok in J0 as (y4 & S4 & J0).
    injection J as H1 _ <-. injection J0 as H1' _ <-. congruence. }
  exists MSS, (vsum (PROOF_LEN flp * PR) PRF), qr0, jr0.
  split; [exact VM|]. split; [apply vsum_length|]. split; [exact Q0|].
  assert (SH : map snd init = map (fun j => (concat (map (fun k => nth k (snd (nth j xs d6)) []) (seq 0 PR)), snd (snd (nth j init dd)))) (seq 0 S_)).
  { apply (nth_ext _ _ ([], None) ([], None)); [rewrite !map_length, seq_length; exact LI|].
    intros j Hj. rewrite map_length in Hj. assert (Hj' : j < S_) by (change (j < length init) in Hj; lia).
    rewrite (nth_seq_map (fun j => (concat (map (fun k => nth k (snd (nth j xs d6)) []) (seq 0 PR)), snd (snd (nth j init dd))))) by lia.
    rewrite (nth_map' _ _ _ dd) by exact Hj. pose proof (IN j Hj') as I. fold d6 in I.
    destruct (nth j xs d6) as (((((ms & prf) & b) & jr) & qr) & vl). destruct I as (_ & _ & _ & _ & _ & _ & _ & _ & _ & _ & I).
    cbn [snd]. rewrite <- I. now destruct (snd (nth j init dd)). }
  split; [|split].
  - (* joint randomness *)
    destruct (0 <? JOINT_RAND_LEN flp) eqn:EJ; [|unfold verify_joint_rand in J0; rewrite EJ in J0; now injection J0 as _ _ <-].
    apply Nat.ltb_lt in EJ. destruct (message_Ok p ctx _ _ EJ MS) as (parts & s & EP & ES & EM).
    exists (map (fun x => match snd (fst (fst (fst x))) with Some b => b | None => [] end) xs), parts, s.
    assert (LP : length parts = S_).
    { apply (f_equal (@length _)) in EP. rewrite !map_length in EP. rewrite <- EP. exact LI. }
    split; [|split; [exact LP|split; [exact ES|]]].
    + intros j Hj. rewrite (nth_map' _ _ _ d6) by lia. rewrite NM by exact Hj.
      pose proof (IN j Hj) as I. fold d6 in I. destruct (nth j xs d6) as (((((ms & prf) & b) & jr) & qr) & vl). cbn [fst snd].
      destruct I as (_ & _ & Wb & _ & J & _). destruct (verify_joint_rand_Ok p ctx j b ms nonce ps _ _ jr EJ J) as (b' & pts & pt & s' & -> & _ & EPT & _ & JP & _).
      unfold blind_wf in Wb. rewrite (proj2 (Nat.ltb_lt _ _) EJ) in Wb. destruct Wb as (b'' & [= <-] & Wb). split; [exact Wb|].
      rewrite JP. f_equal. assert (N : nth j (map Some parts) None = Some (nth j parts [])) by (apply (nth_map' Some parts j ([] : bytes) None); change (j < length parts); lia).
      rewrite <- EP, map_map in N. rewrite (nth_map' _ _ _ dd) in N by (change (j < length init); lia). rewrite EPT in N. injection N as N. exact N.
    + destruct (verify_joint_rand_Ok p ctx 0 b0 ms0 nonce ps _ _ jr0 EJ J0) as (b' & pts & pt & s' & -> & _ & EPT & ESD & _ & _ & _ & JR).
      rewrite (proj1 (NX 0 ltac:(lia))), EM in ESD. injection ESD as <-. exact JR.
  - (* the proofs *)
    intros k Hk'.
    destruct (fo_query _ _ _ HF S_ MSS (map (piece (PROOF_LEN flp) k) PRF) (piece (QUERY_RAND_LEN flp) k qr0) (piece (JOINT_RAND_LEN flp) k jr0))
      as (vsh & VV & QV & QS); [lia|exact HSF|exact VM| |now apply piece_length with PR|now apply piece_length with PR|now apply G0|].
    { destruct VP as (LP & FP). split; [now rewrite map_length|]. apply Forall_map. eapply Forall_impl; [|exact FP]. intros x Hx. now apply piece_length with PR. }
    exists (vsum (VERIFIER_LEN flp) vsh). split.
    + rewrite <- (vsum_piece _ PR k) by (try exact Hk'; apply VP). exact QS.
    + rewrite SH in MS.
      assert (LV : forall j, j < S_ -> length (concat (map (fun k => nth k (snd (nth j xs d6)) []) (seq 0 PR))) = VERIFIER_LEN flp * PR).
      { intros j Hj. pose proof (IN j Hj) as I. fold d6 in I. destruct (nth j xs d6) as (((((ms & prf) & b) & jr) & qr) & vl). cbn [snd].
        rewrite (length_concat_const _ (VERIFIER_LEN flp)); [rewrite map_length, seq_length; lia|].
        apply Forall_forall. intros x Hx. apply in_map_iff in Hx as (k' & <- & Hx). apply in_seq in Hx. apply I. lia. }
      rewrite <- (decides _ _ _ k LV Hk' MS). f_equal. rewrite <- (vsum_piece _ PR k).
      2: exact Hk'.
      2: { apply Forall_forall. intros x Hx. apply in_map_iff in Hx as (j & <- & Hx). apply in_seq in Hx. apply LV. lia. }
      f_equal. rewrite map_map. apply (nth_ext _ _ [] []); [destruct VV as (LVV & _); rewrite map_length, seq_length; exact LVV|].
      intros j Hj. assert (Hj' : j < S_) by (destruct VV as (LVV & _); change (j < length vsh) in Hj; lia).
      rewrite (nth_seq_map (fun x => piece (VERIFIER_LEN flp) k (concat (map (fun k => nth k (snd (nth x xs d6)) []) (seq 0 PR))))) by lia.
      pose proof (QV j Hj') as E. rewrite NM in E by exact Hj'. rewrite (nth_map' _ _ _ []) in E by (destruct VP as (LP & _); lia). rewrite NP in E by exact Hj'.
      destruct (CJ j Hj') as (EQ & EJ). pose proof (IN j Hj') as I. fold d6 in I. destruct (nth j xs d6) as (((((ms & prf) & b) & jr) & qr) & vl).
      cbn [fst snd] in *. subst qr jr. destruct I as (_ & _ & _ & _ & _ & _ & _ & _ & _ & I & _).
      rewrite (proj2 (I k Hk')) in E. injection E as <-.
      rewrite piece_concat.
      * now rewrite nth_seq_map by lia.
      * apply Forall_forall. intros x Hx. apply in_map_iff in Hx as (k' & <- & Hx). apply in_seq in Hx. apply I. lia.
      * rewrite map_length, seq_length. lia.
  - exact TO.
Qed.
End R.
