(** Prio3: soundness. *)
From Verif Require Export Prio3Props FlpFacts.
Open Scope nat_scope.

Section Combos.
Context {A : Type} (dec : forall x y : A, {x = y} + {x <> y}).
Fixpoint combos (Ls : list (list (list A))) : list (list A) :=
  match Ls with
  | [] => [[]]
  | L :: Ls => flat_map (fun x => map (app x) (combos Ls)) L
  end.

Lemma combos_length B Ls : Forall (fun L => length L <= B) Ls -> length (combos Ls) <= B ^ length Ls.
Proof.
  induction 1 as [|L Ls HL _ IH]; [simpl; lia|]. cbn [combos length Nat.pow].
  assert (E : length (flat_map (fun x => map (app x) (combos Ls)) L) = length L * length (combos Ls)).
  { clear. induction L as [|x L IH]; [easy|]. cbn [flat_map length]. rewrite app_length, map_length, IH. lia. }
  rewrite E. nia.
Qed.

Lemma combos_in (f : nat -> list A) (L : nat -> list (list A)) ks :
  (forall k, In k ks -> In (f k) (L k)) -> In (concat (map f ks)) (combos (map L ks)).
Proof.
  induction ks as [|k ks IH]; intros H; [now left|]. cbn [map concat combos].
  apply in_flat_map. exists (f k). split; [apply H; now left|]. apply in_map. apply IH. intros; apply H; now right.
Qed.

Lemma prod_bound q m B (Q : list (list A)) : NoDup Q -> Forall (fun x => length x = q * m) Q ->
  (forall k Qk, k < m -> NoDup Qk -> (forall y, In y Qk -> exists x, In x Q /\ y = piece q k x) -> length Qk <= B) ->
  length Q <= B ^ m.
Proof.
  intros HN HL HB.
  pose (L := fun k => nodup (list_eq_dec dec) (map (piece q k) Q)).
  apply Nat.le_trans with (length (combos (map L (seq 0 m)))).
  - apply NoDup_incl_length; [easy|]. intros x Hx.
    assert (E : x = concat (map (fun k => piece q k x) (seq 0 m))).
    { symmetry. apply piece_concat_self. rewrite Forall_forall in HL. now apply HL. }
    rewrite E. apply (combos_in (fun k => piece q k x) L). intros k Hk. unfold L.
    apply nodup_In. now apply in_map.
  - rewrite <- (seq_length m 0) at 2. rewrite <- (map_length L (seq 0 m)). apply combos_length.
    apply Forall_forall. intros X HX. apply in_map_iff in HX as (k & <- & Hk). apply in_seq in Hk.
    apply (HB k); [lia | apply NoDup_nodup |]. intros y Hy. apply nodup_In in Hy.
    apply in_map_iff in Hy as (x & <- & Hx). eauto.
Qed.
End Combos.

Section Sound.
Context (P : NttFieldClass) (HP : NttOk P) (v : Valid P) (HV : ValidOk v).
Context (X : XofClass) (ID : Z) (vks n m : nat) (Hn : 1 <= n) (HnM : (Z.of_nat n < MODULUS P)%Z).
Notation F := (F P).
Notation p := {| p3_field := P; p3_flp := FlpBBCGGI19 v; p3_xof := X; p3_ID := ID;
                 p3_VERIFY_KEY_SIZE := vks; p3_SHARES := n; p3_PROOFS := m |}.

Lemma decide_loop_inv k0 (flp : Flp P) verifiers r :
  length verifiers = VERIFIER_LEN flp * m -> k0 < m ->
  for_range 0 m verifiers (fun verifiers _ =>
    let* (verifier, verifiers) := front (VERIFIER_LEN flp) verifiers in
    let* ok := flp_decide flp verifier in
    let* _ := check ok (ValueError "proof verifier check failed") in
    Ok verifiers) = Ok r ->
  flp_decide flp (piece (VERIFIER_LEN flp) k0 verifiers) = Ok true.
Proof.
  intros L Hk H.
  set (body := fun verifiers (_ : nat) => _) in H.
  assert (R : forall i st, i <= m -> foldM body (range 0 i) verifiers = Ok st ->
    st = skipn (i * VERIFIER_LEN flp) verifiers /\
    forall k, k < i -> flp_decide flp (piece (VERIFIER_LEN flp) k verifiers) = Ok true).
  { induction i as [|i IH]; intros st Hi Hf.
    - injection Hf as <-. split; [easy | intros; lia].
    - unfold range in Hf. rewrite Nat.sub_0_r, seq_S, foldM_app in Hf.
      apply bind_Ok in Hf as (st' & Hf & Hb). destruct (IH st') as [-> IHk]; [lia | unfold range; now rewrite Nat.sub_0_r|].
      cbn [foldM] in Hb. rewrite bind_ret in Hb. unfold body in Hb.
      rewrite (peel_piece _ _ m) in Hb by (try easy; lia). cbn [bind] in Hb.
      apply bind_Ok in Hb as (ok & Hd & Hb). apply bind_Ok in Hb as (? & Hc & Hb). apply check_Ok in Hc. subst ok.
      injection Hb as <-. split; [easy|]. intros k Hk'. destruct (Nat.eq_dec k i) as [->|]; [easy | apply IHk; lia]. }
  destruct (R m r) as [_ HR]; [lia | exact H |]. now apply HR.
Qed.

Lemma message_decides ctx (vs : nat -> list F) parts msg k :
  (forall j, j < n -> length (vs j) = VERIFIER_LEN (FlpBBCGGI19 v) * m) -> k < m ->
  p3_verifier_shares_to_message p ctx tt (map (fun j => (vs j, parts j)) (seq 0 n)) = Ok msg ->
  flp_decide (FlpBBCGGI19 v) (piece (VERIFIER_LEN (FlpBBCGGI19 v)) k (vsum (VERIFIER_LEN (FlpBBCGGI19 v) * m) (map vs (seq 0 n)))) = Ok true.
Proof.
  intros Hl Hk H. unfold p3_verifier_shares_to_message in H. cbn [p3_flp p3_PROOFS p3_field] in H.
  apply bind_Ok in H as ([w prts] & Hf & H). apply bind_Ok in H as (r & Hd & _).
  assert (E : w = vsum (VERIFIER_LEN (FlpBBCGGI19 v) * m) (map vs (seq 0 n))).
  { clear Hd. assert (G : forall i st, i <= n -> foldM (fun '(verifiers, joint_rand_parts) '(verifiers_share, joint_rand_part) =>
      let* verifiers := vec_add verifiers verifiers_share in
      if 0 <? JOINT_RAND_LEN (FlpBBCGGI19 v) then
        match joint_rand_part with
        | Some part => Ok (verifiers, joint_rand_parts ++ [part])
        | None => Raise AssertionError
        end
      else Ok (verifiers, joint_rand_parts))
      (map (fun j => (vs j, parts j)) (seq 0 i)) (fzeros (VERIFIER_LEN (FlpBBCGGI19 v) * m), []) = Ok st ->
      fst st = vsum (VERIFIER_LEN (FlpBBCGGI19 v) * m) (map vs (seq 0 i))).
    { induction i as [|i IH]; intros st Hi Hs.
      - injection Hs as <-. symmetry. apply vsum_nil.
      - rewrite seq_map_S, foldM_app in Hs. apply bind_Ok in Hs as ([w' pp] & Hs & Hb).
        apply IH in Hs; [|lia]. cbn [fst] in Hs. subst w'. cbn [foldM] in Hb. rewrite bind_ret in Hb.
        pose proof (vec_add_vsum {| p3_field := P; p3_flp := FlpBBCGGI19 v; p3_xof := X; p3_ID := ID;
                 p3_VERIFY_KEY_SIZE := vks; p3_SHARES := n; p3_PROOFS := m |}
          (VERIFIER_LEN (FlpBBCGGI19 v) * m) (map vs (seq 0 i)) (vs i)) as A. cbn [p3_field] in A.
        rewrite A in Hb by (apply Hl; lia). cbn [bind] in Hb. rewrite seq_map_S.
        destruct (0 <? _); [destruct (parts i); [|easy]|]; injection Hb as <-; easy. }
    apply (G n (w, prts)); [lia | exact Hf]. }
  subst w. apply (decide_loop_inv k (FlpBBCGGI19 v) _ r); [apply vsum_length | easy | exact Hd].
Qed.

(** If the verifier shares are accepted, each of the proofs is. *)
Lemma accept_pieces ctx (ms ps : list (list F)) (jr qr : list F) vss parts msg k :
  vecs n (vMEAS_LEN v) ms -> vecs n (proof_len v * m) ps -> length jr = vJOINT_RAND_LEN v * m -> length qr = query_rand_len v * m ->
  length vss = n ->
  (forall j, j < n -> proof_verifiers p (nth j ms []) (nth j ps []) qr jr = Ok (nth j vss [])) ->
  p3_verifier_shares_to_message p ctx tt (map (fun j => (concat (nth j vss []), parts j)) (seq 0 n)) = Ok msg -> k < m ->
  exists vs, mapM (fun '(x, y) => bbcggi19_query v x y (piece (query_rand_len v) k qr) (piece (vJOINT_RAND_LEN v) k jr) n)
      (combine ms (map (piece (proof_len v) k) ps)) = Ok vs /\
    bbcggi19_decide v (vsum (verifier_len v) vs) = Ok true.
Proof.
  intros Hms Hps Hjr Lqr Lv Hpv Hmsg Hk.
        assert (Hq1 : forall j k', j < n -> k' < m ->
          bbcggi19_query v (nth j ms []) (piece (proof_len v) k' (nth j ps [])) (piece (query_rand_len v) k' qr)
            (piece (vJOINT_RAND_LEN v) k' jr) n = Ok (nth k' (nth j vss []) [])).
        { intros j k' Hj Hk'. pose proof (mapM_Ok_nth _ _ _ 0 [] (Hpv j Hj) k') as H.
          rewrite seq_length, seq_nth in H by easy. apply H. easy. }
        assert (Lvs : forall j, j < n -> length (nth j vss []) = m).
        { intros j Hj. pose proof (mapM_Ok_length _ _ _ (Hpv j Hj)) as H. now rewrite seq_length in H. }
        assert (Lq : forall j k', j < n -> k' < m -> length (nth k' (nth j vss []) []) = verifier_len v).
        { intros j k' Hj Hk'. destruct Hms as [M1 M2], Hps as [P1 P2].
          assert (Lm : length (nth j ms []) = vMEAS_LEN v) by
            (apply (Forall_nth_len (fun x => length x = vMEAS_LEN v)); [easy | lia]).
          assert (Lp : length (nth j ps []) = proof_len v * m) by
            (apply (Forall_nth_len (fun x => length x = proof_len v * m)); [easy | lia]).
          destruct (query_guard HP v HV (nth j ms []) (piece (proof_len v) k' (nth j ps [])) (piece (query_rand_len v) k' qr)
             (piece (vJOINT_RAND_LEN v) k' jr) n) as [G1 G2]; try easy; try (now apply piece_length with m).
          destruct (existsb (bad_point v (piece (query_rand_len v) k' qr)) (seq 0 (length (GADGETS v)))) eqn:E.
          - specialize (Hq1 j k' Hj Hk'). rewrite G2 in Hq1; [easy|]. intros C. apply (bad_points_iff v) in C. congruence.
          - apply (bad_points_iff v) in E. destruct (G1 E) as (ver & Ev & Lver). rewrite (Hq1 j k' Hj Hk') in Ev. injection Ev as Ev. exact (eq_trans (f_equal (@length F) Ev) Lver). }
        exists (map (fun j => nth k (nth j vss []) []) (seq 0 n)). split.
        * apply (mapM_seq _ _ _ _ ([], [])).
          -- rewrite combine_length, map_length. destruct Hms as [M1 _], Hps as [P1 _]. rewrite M1, P1. apply Nat.min_id.
          -- intros j Hj. destruct Hms as [M1 _], Hps as [P1 _]. rewrite combine_nth by (rewrite map_length; congruence).
             rewrite (nth_map' _ _ _ []) by lia. now apply Hq1.
        * assert (Lc : forall j, j < n -> length (concat (nth j vss [])) = verifier_len v * m).
          { intros j Hj. rewrite (length_concat_const _ (verifier_len v)).
            - rewrite Lvs by easy. lia.
            - apply Forall_forall. intros x Hx'. apply (In_nth _ _ []) in Hx' as (k' & Hk' & <-).
              rewrite Lvs in Hk' by easy. now apply Lq. }
          pose proof (message_decides ctx (fun j => concat (nth j vss [])) parts msg k Lc Hk Hmsg) as HD.
          cbn [flp_decide VERIFIER_LEN FlpBBCGGI19] in HD.
          rewrite <- HD. f_equal.
          rewrite <- (vsum_piece _ m) by (try easy; apply Forall_forall; intros x Hx';
            apply in_map_iff in Hx' as (j & <- & Hj); apply in_seq in Hj; apply Lc; lia).
          rewrite map_map. f_equal. apply map_ext_in. intros j Hj. apply in_seq in Hj.
          rewrite piece_concat.
          -- easy.
          -- apply Forall_forall. intros x Hx'. apply (In_nth _ _ []) in Hx' as (k' & Hk' & <-).
             rewrite Lvs in Hk' by lia. apply Lq; lia.
          -- rewrite Lvs; lia.
Qed.

Theorem prio3_sound ctx (ms ps : list (list F)) (jr : list F) d (Q : list (list F)) :
  vecs n (vMEAS_LEN v) ms -> vecs n (proof_len v * m) ps -> length jr = vJOINT_RAND_LEN v * m ->
  (forall k, k < m -> exists out, valid_eval_plain v (vsum (vMEAS_LEN v) ms) (piece (vJOINT_RAND_LEN v) k jr) 1 = Ok out /\
     Exists (fun x => x <> f0) out) ->
  1 <= d -> (forall i, i < length (GADGETS v) -> DEGREE (nth i (GADGETS v) Mul) * (wire_poly_len (nth i (GADGET_CALLS v) 0) - 1) <= d) ->
  NoDup Q ->
  (forall qr, In qr Q -> length qr = query_rand_len v * m /\ exists (vss : list (list (list F))) parts msg,
     length vss = n /\
     (forall j, j < n -> proof_verifiers p (nth j ms []) (nth j ps []) qr jr = Ok (nth j vss [])) /\
     p3_verifier_shares_to_message p ctx tt (map (fun j => (concat (nth j vss []), parts j)) (seq 0 n)) = Ok msg) ->
  (Z.of_nat (length Q) <= (Z.of_nat d * MODULUS P ^ (Z.of_nat (query_rand_len v) - 1)) ^ Z.of_nat m)%Z.
Proof.
  intros Hms Hps Hjr Hrej Hd1 Hd HN HQ.
  set (B := (Z.of_nat d * MODULUS P ^ (Z.of_nat (query_rand_len v) - 1))%Z).
  assert (HB0 : (0 <= B)%Z).
  { unfold B. pose proof (prime_ge_2 _ (ntt_prime P HP)). apply Z.mul_nonneg_nonneg; [lia|]. apply Z.pow_nonneg. lia. }
  pose proof (prod_bound feq_dec (query_rand_len v) m (Z.to_nat B) Q HN) as HPB.
  assert (HL : length Q <= Z.to_nat B ^ m).
  { apply HPB.
    - apply Forall_forall. intros x Hx. now apply HQ.
    - intros k Qk Hk HNk HQk. apply Nat2Z.inj_le. rewrite Z2Nat.id by easy.
      destruct (Hrej k Hk) as (out & Ho & Hx).
      apply (sound_shares HP v HV n ms (map (piece (proof_len v) k) ps) (piece (vJOINT_RAND_LEN v) k jr) out d Qk); try easy.
      + destruct Hps as [L1 L2]. split; [now rewrite map_length|]. apply Forall_forall. intros x Hx'.
        apply in_map_iff in Hx' as (y & <- & Hy). apply piece_length with m; [|easy]. rewrite Forall_forall in L2. now apply L2.
      + now apply piece_length with m.
      + intros q Hq. destruct (HQk q Hq) as (qr & Hqr & ->). destruct (HQ qr Hqr) as (Lqr & vss & parts & msg & Lv & Hpv & Hmsg).
        split; [now apply piece_length with m|].
        now apply (accept_pieces ctx ms ps jr qr vss parts msg k).
  }
  apply Nat2Z.inj_le in HL. rewrite Nat2Z.inj_pow, Z2Nat.id in HL by easy. exact HL.
Qed.

(** verify_init computes these verifiers. *)
Theorem verify_init_verifiers key ctx j nonce public is st ver part ms ps blind :
  p3_verify_init p key ctx j tt nonce public is = Ok (st, (ver, part)) ->
  expand_input_share p ctx j is = Ok (ms, ps, blind) -> length ps = proof_len v * m ->
  exists qr jr vss, query_rands p key ctx nonce = Ok qr /\ proof_verifiers p ms ps qr jr = Ok vss /\ ver = concat vss /\
    if 0 <? vJOINT_RAND_LEN v then exists seed, snd st = Some seed /\ joint_rands p ctx seed = Ok jr else jr = [].
Proof.
  intros H He Lp. unfold p3_verify_init in H. rewrite He in H. cbn [bind] in H.
  apply bind_Ok in H as (o & _ & H). apply bind_Ok in H as ([[sd pt] jr] & Hj & H).
  apply bind_Ok in H as (qr & Hqr & H). apply bind_Ok in H as ([[[vv a] b] c] & Hl & H). injection H as <- <- _.
  exists qr, jr.
  assert (Lqr : length qr = query_rand_len v * m).
  { unfold query_rands in Hqr. apply bind_Ok in Hqr as (d & _ & Hqr). apply bind_Ok in Hqr as (b0 & _ & Hqr).
    apply expand_len in Hqr. exact Hqr. }
  assert (Ljr : length jr = vJOINT_RAND_LEN v * m).
  { unfold verify_joint_rand in Hj. cbn [p3_flp] in Hj. change (JOINT_RAND_LEN (FlpBBCGGI19 v)) with (vJOINT_RAND_LEN v) in Hj.
    destruct (0 <? vJOINT_RAND_LEN v) eqn:E.
    - destruct blind as [bl|], public as [parts|]; try easy.
      apply bind_Ok in Hj as (? & _ & Hj). apply bind_Ok in Hj as (? & _ & Hj). apply bind_Ok in Hj as (s & _ & Hj).
      apply bind_Ok in Hj as (r & Hr & Hj). injection Hj as _ _ <-. unfold joint_rands in Hr.
      apply bind_Ok in Hr as (? & _ & Hr). apply bind_Ok in Hr as (? & _ & Hr). apply expand_len in Hr. exact Hr.
    - injection Hj as _ _ <-. apply Nat.ltb_ge in E. simpl. nia. }
  assert (HV1 : exists vss, proof_verifiers p ms ps qr jr = Ok vss /\ vv = concat vss).
  { cbn [p3_PROOFS p3_flp p3_SHARES p3_field] in Hl.
    change (PROOF_LEN (FlpBBCGGI19 v)) with (proof_len v) in Hl. change (QUERY_RAND_LEN (FlpBBCGGI19 v)) with (query_rand_len v) in Hl.
    change (JOINT_RAND_LEN (FlpBBCGGI19 v)) with (vJOINT_RAND_LEN v) in Hl.
    unfold proof_verifiers. cbn [p3_PROOFS p3_flp p3_SHARES p3_field].
    match type of Hl with for_range _ _ _ ?f = _ => set (body := f) in Hl end.
    assert (R : forall i s, i <= m -> foldM body (range 0 i) ([], ps, qr, jr) = Ok s ->
      exists vss, mapM (fun k => bbcggi19_query v ms (piece (proof_len v) k ps) (piece (query_rand_len v) k qr)
                   (piece (vJOINT_RAND_LEN v) k jr) n) (seq 0 i) = Ok vss /\
      s = (concat vss, skipn (i * proof_len v) ps, skipn (i * query_rand_len v) qr, skipn (i * vJOINT_RAND_LEN v) jr)).
    { induction i as [|i IH]; intros s Hi Hf.
      - injection Hf as <-. now exists [].
      - unfold range in Hf. rewrite Nat.sub_0_r, seq_S, foldM_app in Hf. apply bind_Ok in Hf as (s' & Hf & Hb).
        destruct (IH s') as (vss & Hvss & ->); [lia | unfold range; now rewrite Nat.sub_0_r|].
        cbn [foldM] in Hb. rewrite bind_ret in Hb. unfold body in Hb.
        rewrite (peel_piece _ _ m) in Hb by (try easy; lia). cbn [bind] in Hb.
        rewrite (peel_piece _ _ m) in Hb by (try easy; lia). cbn [bind] in Hb.
        assert (EJ : (if 0 <? vJOINT_RAND_LEN v then front (vJOINT_RAND_LEN v) (skipn (i * vJOINT_RAND_LEN v) jr)
                  else Ok ([], skipn (i * vJOINT_RAND_LEN v) jr))
                 = Ok (piece (vJOINT_RAND_LEN v) i jr, skipn (S i * vJOINT_RAND_LEN v) jr)).
        { destruct (0 <? vJOINT_RAND_LEN v) eqn:E.
          - apply peel_piece with m; [easy | lia].
          - apply Nat.ltb_ge in E. assert (E2 : vJOINT_RAND_LEN v = 0) by lia.
            rewrite E2, piece_nil, !Nat.mul_0_r. easy. }
        match type of Hb with bind ?mm _ = _ =>
          assert (EJ' : mm = Ok (piece (vJOINT_RAND_LEN v) i jr, skipn (S i * vJOINT_RAND_LEN v) jr)) by exact EJ;
          rewrite EJ' in Hb end.
        cbn [bind] in Hb. apply bind_Ok in Hb as (w & Hw & Hb). injection Hb as <-.
        exists (vss ++ [w]). split.
        + rewrite seq_S, mapM_app, Hvss. cbn [bind mapM plus]. 
          change (bbcggi19_query v ms (piece (proof_len v) i ps) (piece (query_rand_len v) i qr)
                   (piece (vJOINT_RAND_LEN v) i jr) n = Ok w) in Hw. rewrite Hw. easy.
        + now rewrite length_concat_snoc. }
    destruct (R m (vv, a, b, c)) as (vss & Hv & E); [lia | exact Hl|]. exists vss. injection E as -> _ _ _. easy. }
  destruct HV1 as (vss & Hv & ->). exists vss. split; [easy|]. split; [easy|]. split; [easy|].
  unfold verify_joint_rand in Hj. cbn [p3_flp] in Hj. change (JOINT_RAND_LEN (FlpBBCGGI19 v)) with (vJOINT_RAND_LEN v) in Hj.
  destruct (0 <? vJOINT_RAND_LEN v).
  - destruct blind as [bl|], public as [parts|]; try easy.
    apply bind_Ok in Hj as (? & _ & Hj). apply bind_Ok in Hj as (? & _ & Hj). apply bind_Ok in Hj as (s & _ & Hj).
    apply bind_Ok in Hj as (r & Hr & Hj). injection Hj as <- _ <-. cbn [snd]. eauto.
  - now injection Hj as _ _ <-.
Qed.
End Sound.
