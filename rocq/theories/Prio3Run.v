(** Prio3 verification and end-to-end runs. *)
From Verif Require Export Prio3Facts VdafFacts.
Open Scope nat_scope.

Section Vsum.
Context {P : FieldClass}.
Notation F := (F P).
Add Ring FringVS : (@F_ring P).

Lemma zip_with_app {A B C} (f : A -> B -> C) a b a' b' : length a = length b ->
  zip_with f (a ++ a') (b ++ b') = zip_with f a b ++ zip_with f a' b'.
Proof.
  revert b. induction a as [|x a IH]; intros [|y b] H; try (simpl in H; lia); [easy|].
  simpl. f_equal. apply IH. simpl in H. lia.
Qed.

Lemma repeat_app_eq {A} (x : A) a b : repeat x (a + b) = repeat x a ++ repeat x b.
Proof. apply repeat_app. Qed.

Lemma vsum_app_vec {I} a b (f g : I -> list F) l :
  (forall i, In i l -> length (f i) = a) -> (forall i, In i l -> length (g i) = b) ->
  vsum (a + b) (map (fun i => f i ++ g i) l) = vsum a (map f l) ++ vsum b (map g l).
Proof.
  induction l as [|i l IH]; intros Hf Hg; cbn [map].
  - rewrite !vsum_nil. apply repeat_app.
  - rewrite !vsum_cons.
    + rewrite IH by (intros; (apply Hf || apply Hg); now right).
      apply zip_with_app. now rewrite vsum_length, Hf by now left.
    + apply Hg. now left.
    + apply Hf. now left.
    + rewrite app_length, Hf, Hg by now left. easy.
Qed.

Lemma vsum_concat len n s (M : nat -> nat -> list F) :
  (forall k j, k < n -> j < s -> length (M k j) = len) ->
  vsum (len * n) (map (fun j => concat (map (fun k => M k j) (seq 0 n))) (seq 0 s))
  = concat (map (fun k => vsum len (map (M k) (seq 0 s))) (seq 0 n)).
Proof.
  induction n as [|n IH]; intros H.
  - rewrite Nat.mul_0_r. easy.
  - rewrite seq_map_S, length_concat_snoc.
    rewrite <- IH by (intros; apply H; lia).
    replace (len * S n) with (len * n + len) by lia.
    rewrite <- vsum_app_vec.
    + f_equal. apply map_ext. intros j. now rewrite seq_map_S, length_concat_snoc.
    + intros j Hj. apply in_seq in Hj. rewrite (length_concat_const _ len).
      * rewrite map_length, seq_length. lia.
      * apply Forall_forall. intros x Hx. apply in_map_iff in Hx. destruct Hx as (k & <- & Hk).
        apply in_seq in Hk. apply H; lia.
    + intros j Hj. apply in_seq in Hj. apply H; lia.
Qed.

Lemma vsum_piece len n k (l : list (list F)) : k < n -> Forall (fun x => length x = len * n) l ->
  vsum len (map (piece len k) l) = piece len k (vsum (len * n) l).
Proof.
  intros Hk HF. apply (vec_eq len).
  - apply vsum_length.
  - apply piece_length with n; [apply vsum_length | easy].
  - intros i Hi. rewrite nth_vsum by easy. unfold piece at 2. rewrite nth_slice by lia.
    rewrite nth_vsum by nia. f_equal. rewrite map_map. apply map_ext_in. intros x Hx.
    unfold piece. now rewrite nth_slice by lia.
Qed.

Lemma vsum_zip_add n (a b : list (list F)) : length a = length b ->
  Forall (fun x => length x = n) a -> Forall (fun x => length x = n) b ->
  vsum n (zip_with (zip_with fadd) a b) = zip_with fadd (vsum n a) (vsum n b).
Proof.
  revert b. induction a as [|x a IH]; intros [|y b] H Ha Hb; try (simpl in H; lia).
  - simpl. rewrite !vsum_nil. apply (vec_eq n); [apply repeat_length | |].
    + apply zip_length_eq; apply repeat_length.
    + intros i Hi. rewrite (nth_zip_with _ _ _ _ f0 f0) by now rewrite repeat_length.
      rewrite !nth_repeat'. destruct (i <? n); ring.
  - cbn [zip_with]. inversion Ha; subst. inversion Hb; subst.
    rewrite !vsum_cons; try easy; [|apply zip_length_eq; easy].
    rewrite IH by (simpl in H; try easy; lia).
    apply (vec_eq (length x)).
    + apply zip_length_eq; apply zip_length_eq; try easy; apply vsum_length.
    + apply zip_length_eq; apply zip_length_eq; try easy; apply vsum_length.
    + assert (L1 : length (zip_with fadd x y) = length x) by now apply zip_length_eq.
      assert (L2 : length (zip_with fadd (vsum (length x) a) (vsum (length x) b)) = length x)
        by (apply zip_length_eq; apply vsum_length).
      assert (L3 : length (zip_with fadd x (vsum (length x) a)) = length x)
        by (apply zip_length_eq; [easy | apply vsum_length]).
      assert (L4 : length (zip_with fadd y (vsum (length x) b)) = length x)
        by (apply zip_length_eq; [easy | apply vsum_length]).
      intros i Hi.
      repeat rewrite (nth_zip_with _ _ _ _ f0 f0) by (rewrite ?L1, ?L2, ?L3, ?L4, ?vsum_length; lia).
      ring.
Qed.
End Vsum.

Section P3R.
Context (p : Prio3) (lim : Z) (HO : Prio3Ok p lim).
Notation field := (p3_field p).
Notation flp := (p3_flp p).
Notation xof := (p3_xof p).
Notation S_ := (p3_SHARES p).
Notation PR := (p3_PROOFS p).
Notation F := (F (p3_field p)).
Notation E0 := (fun e => e = OutOfFuel /\ ran_out p).
Add Ring FringPR : (@F_ring (p3_field p)).
Context (good : list F -> Prop) (valid : list F -> list F -> Prop) (HF : FlpOk flp good valid).

(** verify_init in closed form, on arbitrary shares of the right lengths. *)
Lemma verify_init_loop ms ps qr jr (vs : nat -> list F) :
  length ps = PROOF_LEN flp * PR -> length qr = QUERY_RAND_LEN flp * PR ->
  length jr = JOINT_RAND_LEN flp * PR ->
  (forall k, k < PR -> flp_query flp ms (piece (PROOF_LEN flp) k ps) (piece (QUERY_RAND_LEN flp) k qr)
                         (piece (JOINT_RAND_LEN flp) k jr) S_ = Ok (vs k)) ->
  exists st, for_range 0 PR ([], ps, qr, jr)
    (fun '(verifiers_share, proofs_share, query_rands, joint_rands) _ =>
      let* (proof_share, proofs_share) := front (PROOF_LEN flp) proofs_share in
      let* (query_rand, query_rands) := front (QUERY_RAND_LEN flp) query_rands in
      let* (joint_rand, joint_rands) :=
        (if 0 <? JOINT_RAND_LEN flp then front (JOINT_RAND_LEN flp) joint_rands else Ok ([], joint_rands)) in
      let* v := flp_query flp ms proof_share query_rand joint_rand S_ in
      Ok (verifiers_share ++ v, proofs_share, query_rands, joint_rands))
  = Ok (concat (map vs (seq 0 PR)), st, skipn (PR * QUERY_RAND_LEN flp) qr,
        skipn (PR * JOINT_RAND_LEN flp) jr).
Proof.
  intros Lp Lq Lj Hq.
  edestruct (for_range_inv (fun i r => r = (concat (map vs (seq 0 i)), skipn (i * PROOF_LEN flp) ps,
    skipn (i * QUERY_RAND_LEN flp) qr, skipn (i * JOINT_RAND_LEN flp) jr)) 0 PR ([], ps, qr, jr)
    (fun '(verifiers_share, proofs_share, query_rands, joint_rands) _ =>
      let* (proof_share, proofs_share) := front (PROOF_LEN flp) proofs_share in
      let* (query_rand, query_rands) := front (QUERY_RAND_LEN flp) query_rands in
      let* (joint_rand, joint_rands) :=
        (if 0 <? JOINT_RAND_LEN flp then front (JOINT_RAND_LEN flp) joint_rands else Ok ([], joint_rands)) in
      let* v := flp_query flp ms proof_share query_rand joint_rand S_ in
      Ok (verifiers_share ++ v, proofs_share, query_rands, joint_rands))) as (r & Hr & ->).
  - lia.
  - easy.
  - intros i r Hi ->.
    rewrite (peel_piece _ _ PR ps) by (try easy; lia). cbn [bind].
    rewrite (peel_piece _ _ PR qr) by (try easy; lia). cbn [bind].
    assert (EJ : (if 0 <? JOINT_RAND_LEN flp then front (JOINT_RAND_LEN flp) (skipn (i * JOINT_RAND_LEN flp) jr)
                  else Ok ([], skipn (i * JOINT_RAND_LEN flp) jr))
                 = Ok (piece (JOINT_RAND_LEN flp) i jr, skipn (S i * JOINT_RAND_LEN flp) jr)).
    { destruct (0 <? JOINT_RAND_LEN flp) eqn:E.
      - apply peel_piece with PR; [easy | lia].
      - apply Nat.ltb_ge in E. assert (E2 : JOINT_RAND_LEN flp = 0) by lia.
        rewrite E2, piece_nil, !Nat.mul_0_r. easy. }
    rewrite EJ. cbn [bind]. rewrite Hq by lia. cbn [bind].
    eexists. split; [reflexivity|]. now rewrite seq_map_S, length_concat_snoc.
  - eexists. exact Hr.
Qed.

Lemma verify_init_loop_raise ms ps qr jr k (vs : nat -> list F) e :
  length ps = PROOF_LEN flp * PR -> length qr = QUERY_RAND_LEN flp * PR ->
  length jr = JOINT_RAND_LEN flp * PR -> k < PR ->
  (forall i, i < k -> exists v, flp_query flp ms (piece (PROOF_LEN flp) i ps) (piece (QUERY_RAND_LEN flp) i qr)
                         (piece (JOINT_RAND_LEN flp) i jr) S_ = Ok v) ->
  flp_query flp ms (piece (PROOF_LEN flp) k ps) (piece (QUERY_RAND_LEN flp) k qr)
                         (piece (JOINT_RAND_LEN flp) k jr) S_ = Raise e ->
  for_range 0 PR ([], ps, qr, jr)
    (fun '(verifiers_share, proofs_share, query_rands, joint_rands) _ =>
      let* (proof_share, proofs_share) := front (PROOF_LEN flp) proofs_share in
      let* (query_rand, query_rands) := front (QUERY_RAND_LEN flp) query_rands in
      let* (joint_rand, joint_rands) :=
        (if 0 <? JOINT_RAND_LEN flp then front (JOINT_RAND_LEN flp) joint_rands else Ok ([], joint_rands)) in
      let* v := flp_query flp ms proof_share query_rand joint_rand S_ in
      Ok (verifiers_share ++ v, proofs_share, query_rands, joint_rands))
  = Raise e.
Proof.
  intros Lp Lq Lj Hk Hq He.
  set (body := fun '(verifiers_share, proofs_share, query_rands, joint_rands) (_ : nat) => _).
  assert (EJ : forall i, i < PR -> (if 0 <? JOINT_RAND_LEN flp then front (JOINT_RAND_LEN flp) (skipn (i * JOINT_RAND_LEN flp) jr)
                  else Ok ([], skipn (i * JOINT_RAND_LEN flp) jr))
                 = Ok (piece (JOINT_RAND_LEN flp) i jr, skipn (S i * JOINT_RAND_LEN flp) jr)).
  { intros i Hi. destruct (0 <? JOINT_RAND_LEN flp) eqn:E.
    - apply peel_piece with PR; [easy | lia].
    - apply Nat.ltb_ge in E. assert (E2 : JOINT_RAND_LEN flp = 0) by lia.
      rewrite E2, piece_nil, !Nat.mul_0_r. easy. }
  unfold for_range.
  assert (R : range 0 PR = range 0 k ++ k :: range (S k) PR).
  { unfold range. replace (PR - 0) with (k + S (PR - S k)) by lia. rewrite seq_app. simpl.
    rewrite Nat.sub_0_r. easy. }
  rewrite R, foldM_app.
  destruct (for_range_inv (fun i r => exists vv, r = (vv, skipn (i * PROOF_LEN flp) ps,
    skipn (i * QUERY_RAND_LEN flp) qr, skipn (i * JOINT_RAND_LEN flp) jr)) 0 k ([], ps, qr, jr) body)
    as (r & Hr & vv & ->).
  - lia.
  - now exists [].
  - intros i r Hi (vv & ->). unfold body.
    rewrite (peel_piece _ _ PR ps) by (try easy; lia). cbn [bind].
    rewrite (peel_piece _ _ PR qr) by (try easy; lia). cbn [bind].
    rewrite EJ by lia. cbn [bind]. destruct (Hq i) as [v Ev]; [lia|]. rewrite Ev. cbn [bind].
    eexists. split; [reflexivity|]. eexists. reflexivity.
  - unfold for_range in Hr. rewrite Hr. cbn [bind foldM]. unfold body at 1.
    rewrite (peel_piece _ _ PR ps) by easy. cbn [bind].
    rewrite (peel_piece _ _ PR qr) by easy. cbn [bind].
    rewrite EJ by easy. cbn [bind]. rewrite He. easy.
Qed.

Lemma least_bad (qr : list F) : length qr = QUERY_RAND_LEN flp * PR ->
  (forall k, k < PR -> good (piece (QUERY_RAND_LEN flp) k qr)) \/
  exists k, k < PR /\ ~ good (piece (QUERY_RAND_LEN flp) k qr) /\
    forall i, i < k -> good (piece (QUERY_RAND_LEN flp) i qr).
Proof.
  intros L.
  assert (H : forall n, n <= PR -> (forall k, k < n -> good (piece (QUERY_RAND_LEN flp) k qr)) \/
    exists k, k < n /\ ~ good (piece (QUERY_RAND_LEN flp) k qr) /\
      forall i, i < k -> good (piece (QUERY_RAND_LEN flp) i qr)).
  { induction n as [|n IH]; intros Hn; [left; intros; lia|].
    destruct IH as [H|(k & Hk & H1 & H2)]; [lia| |right; exists k; split; [lia | easy]].
    destruct (fo_good_dec _ _ _ HF (piece (QUERY_RAND_LEN flp) n qr)) as [G|G].
    - apply piece_length with PR; [easy | lia].
    - left. intros k Hk. destruct (Nat.eq_dec k n) as [->|]; [easy | apply H; lia].
    - right. exists n. split; [lia | easy]. }
  apply H. lia.
Qed.

(** Combining verifier shares whose sums all pass. *)
Lemma shares_loop n (vs : nat -> list F) (parts : nat -> option bytes) :
  (forall j, j < n -> length (vs j) = VERIFIER_LEN flp * PR) ->
  (0 < JOINT_RAND_LEN flp -> forall j, j < n -> exists b, parts j = Some b) ->
  foldM (fun '(verifiers, joint_rand_parts) '(verifiers_share, joint_rand_part) =>
      let* verifiers := vec_add verifiers verifiers_share in
      if 0 <? JOINT_RAND_LEN flp then
        match joint_rand_part with
        | Some part => Ok (verifiers, joint_rand_parts ++ [part])
        | None => Raise AssertionError
        end
      else Ok (verifiers, joint_rand_parts))
    (map (fun j => (vs j, parts j)) (seq 0 n)) (fzeros (VERIFIER_LEN flp * PR), [])
  = Ok (vsum (VERIFIER_LEN flp * PR) (map vs (seq 0 n)),
        if 0 <? JOINT_RAND_LEN flp
        then map (fun j => match parts j with Some b => b | None => [] end) (seq 0 n) else []).
Proof.
  intros Hv Hp. induction n as [|n IH].
  - simpl. rewrite vsum_nil. destruct (0 <? _); easy.
  - rewrite !seq_map_S, foldM_app, IH by (intros; try (apply Hv; lia); apply Hp; lia).
    cbn [bind foldM].
    assert (EA : vec_add (vsum (VERIFIER_LEN flp * PR) (map vs (seq 0 n))) (vs n)
                 = Ok (vsum (VERIFIER_LEN flp * PR) (map vs (seq 0 n) ++ [vs n]))).
    { pose proof (fold_vec_add_0 (VERIFIER_LEN flp * PR) (map vs (seq 0 n) ++ [vs n])) as H1.
      pose proof (fold_vec_add_0 (VERIFIER_LEN flp * PR) (map vs (seq 0 n))) as H2.
      assert (A : Forall (fun r => length r = VERIFIER_LEN flp * PR) (map vs (seq 0 n))).
      { apply Forall_forall. intros x Hx. apply in_map_iff in Hx. destruct Hx as (j & <- & Hj).
        apply in_seq in Hj. apply Hv. lia. }
      rewrite foldM_app, H2 in H1 by easy. cbn [bind foldM] in H1. rewrite bind_ret in H1.
      apply H1. apply Forall_app. split; [easy|]. constructor; [|easy]. apply Hv. lia. }
    rewrite EA. cbn [bind].
    destruct (0 <? JOINT_RAND_LEN flp) eqn:E; [|easy].
    apply Nat.ltb_lt in E. destruct (Hp E n) as [b Eb]; [lia|]. rewrite Eb. cbn [bind].
    easy.
Qed.

Lemma decide_loop n (vks : nat -> list F) : n = PR ->
  (forall k, k < n -> length (vks k) = VERIFIER_LEN flp) ->
  (forall k, k < n -> flp_decide flp (vks k) = Ok true) ->
  exists r, for_range 0 n (concat (map vks (seq 0 n))) (fun verifiers _ =>
    let* (verifier, verifiers) := front (VERIFIER_LEN flp) verifiers in
    let* ok := flp_decide flp verifier in
    let* _ := check ok (ValueError "proof verifier check failed") in
    Ok verifiers) = Ok r.
Proof.
  intros En Hl Hd.
  assert (L : length (concat (map vks (seq 0 n))) = VERIFIER_LEN flp * n).
  { rewrite (length_concat_const _ (VERIFIER_LEN flp)).
    - rewrite map_length, seq_length. lia.
    - apply Forall_forall. intros x Hx. apply in_map_iff in Hx. destruct Hx as (k & <- & Hk).
      apply in_seq in Hk. apply Hl. lia. }
  destruct (for_range_inv (fun i r => r = skipn (i * VERIFIER_LEN flp) (concat (map vks (seq 0 n)))) 0 n
    (concat (map vks (seq 0 n))) (fun verifiers _ =>
    let* (verifier, verifiers) := front (VERIFIER_LEN flp) verifiers in
    let* ok := flp_decide flp verifier in
    let* _ := check ok (ValueError "proof verifier check failed") in
    Ok verifiers)) as (r & Hr & _); [lia|easy| |now exists r].
  intros i r Hi ->. rewrite (peel_piece _ _ n) by (try easy; lia). cbn [bind].
  rewrite piece_concat.
  - rewrite nth_seq_map by lia. rewrite Hd by lia. cbn [bind check]. eexists. split; reflexivity.
  - apply Forall_forall. intros x Hx. apply in_map_iff in Hx. destruct Hx as (k & <- & Hk).
    apply in_seq in Hk. apply Hl. lia.
  - rewrite map_length, seq_length. lia.
Qed.

(** Every Aggregator computes the same joint randomness. *)
Lemma report_joint ctx meas nonce rand public iss ms prs blinds prove_seed pr jr proofs :
  ctx_ok ctx ->
  Report p ctx meas nonce rand public iss ms prs blinds prove_seed pr jr proofs ->
  length jr = JOINT_RAND_LEN flp * PR /\
  exists seed parts, (forall j, j < S_ ->
    verify_joint_rand p ctx j (nth j blinds None) (nth j ms []) nonce public = Ok (seed, parts j, jr)) /\
  (if 0 <? JOINT_RAND_LEN flp
   then exists s ps, seed = Some s /\ length ps = S_ /\ (forall j, j < S_ -> parts j = Some (nth j ps [])) /\
          joint_rand_seed p ctx ps = Ok s
   else seed = None).
Proof.
  intros Hc R. pose proof (rp_joint _ _ _ _ _ _ _ _ _ _ _ _ _ _ R) as HJ.
  unfold verify_joint_rand. destruct (0 <? JOINT_RAND_LEN flp) eqn:E.
  - destruct HJ as (parts & seed & -> & Lp & Hpart & Hs & Hj).
    split.
    { destruct (joint_rand_seed_ok p lim HO ctx parts Hc) as (s & Es & Ls).
      rewrite Hs in Es. injection Es as <-.
      pose proof (joint_rands_post p lim HO ctx seed Hc Ls) as Hpost. rewrite Hj in Hpost. exact Hpost. }
    exists (Some seed), (fun j => Some (nth j parts [])). split.
    + intros j Hj'. destruct (Hpart j Hj') as (b & -> & Lb & Ep & Lpart). rewrite Ep. cbn [bind].
      rewrite set_lt by lia. cbn [bind].
      assert (U : upd parts j (nth j parts []) = parts).
      { apply (nth_ext' ([] : bytes)); [apply length_upd|]. intros i Hi.
        rewrite nth_upd by lia. destruct (j =? i) eqn:Eji; [|easy]. apply Nat.eqb_eq in Eji. now subst. }
      rewrite U, Hs. cbn [bind]. rewrite Hj. easy.
    + exists seed, parts. easy.
  - destruct HJ as (-> & -> & ->). apply Nat.ltb_ge in E.
    split; [simpl; nia|]. exists None, (fun _ => None). easy.
Qed.

Lemma get_default {A} (l : list A) j n : length l = n -> j < n -> exists x, get l j = Ok x /\ forall d, nth j l d = x.
Proof.
  intros Hl Hj. destruct (nth_error l j) as [x|] eqn:E.
  - exists x. unfold get. rewrite E. split; [easy|]. intros d. now apply nth_error_nth.
  - apply nth_error_None in E. lia.
Qed.

(** One report of an honest run. *)
Theorem report_run key ctx m meas nonce rand out aggs :
  ctx_ok ctx -> length key = p3_VERIFY_KEY_SIZE p ->
  length nonce = p3_NONCE_SIZE -> length rand = RAND_SIZE p ->
  flp_encode flp m = Ok meas -> length meas = MEAS_LEN flp ->
  (forall jr, length jr = JOINT_RAND_LEN flp -> valid meas jr) ->
  flp_truncate flp meas = Ok out ->
  vecs S_ (OUTPUT_LEN flp) aggs ->
  post (run_report (Prio3Vdaf p) key ctx tt aggs (m, nonce, rand))
    (fun aggs' => exists outs, vecs S_ (OUTPUT_LEN flp) outs /\ vsum (OUTPUT_LEN flp) outs = out /\
       aggs' = zip_with (zip_with fadd) aggs outs)
    (fun e => E0 e \/ exists msg, e = ValueError msg /\ bad_query p good key ctx nonce).
Proof.
  intros Hc Hkey Hn Hr He Hm Hval Htr Hagg. unfold run_report.
  pose proof (po_shares _ _ HO) as HS. pose proof (po_shares_field _ _ HO) as HSF.
  eapply post_bind.
  { change (vd_shard (Prio3Vdaf p)) with (p3_shard p).
    eapply post_weak; [apply (shard_post p lim HO good valid HF ctx m meas nonce rand); assumption | |].
    - intros a _ Ha. exact Ha.
    - intros e H. now left. }
  cbv beta. intros [public iss] _ (ms & prs & blinds & prove_seed & pr & jr & proofs & R).
  change (vd_InputShare (Prio3Vdaf p)) with (Prio3InputShare field) in iss. change (vd_PublicShare (Prio3Vdaf p)) with (option (list bytes)) in public.
  destruct (report_joint _ _ _ _ _ _ _ _ _ _ _ _ _ Hc R) as (Ljr & seed & parts & Hvj & Hseed).
  destruct (fo_truncate _ _ _ HF S_ ms (rp_meas_vecs _ _ _ _ _ _ _ _ _ _ _ _ _ _ R))
    as (outs & Houts & Hmap & Hsum).
  rewrite (rp_meas _ _ _ _ _ _ _ _ _ _ _ _ _ _ R), Htr in Hsum. injection Hsum as Hsum.
  pose proof (rp_meas_vecs _ _ _ _ _ _ _ _ _ _ _ _ _ _ R) as HmsV.
  pose proof (rp_proof_vecs _ _ _ _ _ _ _ _ _ _ _ _ _ _ R) as HprV.
  assert (Hout : forall j, j < S_ -> flp_truncate flp (nth j ms []) = Ok (nth j outs [])).
  { intros j Hj. apply (mapM_Ok_nth _ _ _ [] [] Hmap). destruct HmsV. lia. }
  assert (Hps : forall j, j < S_ -> length (nth j prs []) = PROOF_LEN flp * PR).
  { intros j Hj. destruct HprV as [L1 L2].
    apply (Forall_nth_len (fun x => length x = PROOF_LEN flp * PR)); [easy | lia]. }
  (* unfold verify_init on report shares *)
  assert (Hvi : forall j is, j < S_ -> get iss j = Ok is ->
    p3_verify_init p key ctx j tt nonce public is =
    let* query_rands := query_rands p key ctx nonce in
    let* (verifiers_share, _, _, _) := for_range 0 PR ([], nth j prs [], query_rands, jr)
    (fun '(verifiers_share, proofs_share, query_rands, joint_rands) _ =>
      let* (proof_share, proofs_share) := front (PROOF_LEN flp) proofs_share in
      let* (query_rand, query_rands) := front (QUERY_RAND_LEN flp) query_rands in
      let* (joint_rand, joint_rands) :=
        (if 0 <? JOINT_RAND_LEN flp then front (JOINT_RAND_LEN flp) joint_rands else Ok ([], joint_rands)) in
      let* v := flp_query flp (nth j ms []) proof_share query_rand joint_rand S_ in
      Ok (verifiers_share ++ v, proofs_share, query_rands, joint_rands)) in
    Ok ((nth j outs [], seed), (verifiers_share, parts j))).
  { intros j is Hj Hg. unfold p3_verify_init.
    pose proof (rp_expand _ _ _ _ _ _ _ _ _ _ _ _ _ _ R j Hj is) as HE.
    apply get_Ok in Hg. rewrite (nth_error_nth _ _ is Hg) in HE. rewrite HE. cbn [bind].
    rewrite Hout by easy. cbn [bind]. rewrite Hvj by easy. cbn [bind]. easy. }
  pose proof (rp_len _ _ _ _ _ _ _ _ _ _ _ _ _ _ R) as Liss.
  assert (Lkey : length key = SEED_SIZE xof) by now rewrite Hkey, (po_key _ _ HO).
  pose proof (query_rands_post p lim HO key ctx nonce Hc Lkey) as Hqr.
  destruct (query_rands p key ctx nonce) as [qr|e] eqn:Eqr.
  2:{ destruct (get_default iss 0 S_ Liss ltac:(lia)) as (is & Hg & _).
      rewrite (run_verify_init_raise (Prio3Vdaf p) key ctx tt nonce public iss is e);
        [left; exact Hqr | simpl; lia | exact Hg |].
      change (vd_verify_init (Prio3Vdaf p)) with (p3_verify_init p).
      rewrite Hvi by (try lia; easy). cbn [bind]. easy. }
  cbn [post] in Hqr.
  assert (HprP : forall k, k < PR -> vecs S_ (PROOF_LEN flp) (map (piece (PROOF_LEN flp) k) prs)).
  { intros k Hk. destruct HprV as [L1 L2]. split; [now rewrite map_length|].
    apply Forall_forall. intros x Hx. apply in_map_iff in Hx. destruct Hx as (y & <- & Hy).
    apply piece_length with PR; [|easy]. rewrite Forall_forall in L2. now apply L2. }
  assert (Hnth : forall k j, j < S_ -> nth j (map (piece (PROOF_LEN flp) k) prs) [] = piece (PROOF_LEN flp) k (nth j prs [])).
  { intros k j Hj. apply nth_map'. destruct HprV. lia. }
  destruct (least_bad qr Hqr) as [Hgood|(k & Hk & Hbad & Hbefore)].
  - (* every query succeeds *)
    destruct (finite_choice (@nil (list F)) (fun k VS => vecs S_ (VERIFIER_LEN flp) VS /\
        (forall j, j < S_ -> flp_query flp (nth j ms []) (piece (PROOF_LEN flp) k (nth j prs []))
           (piece (QUERY_RAND_LEN flp) k qr) (piece (JOINT_RAND_LEN flp) k jr) S_ = Ok (nth j VS [])) /\
        flp_query flp meas (nth k proofs []) (piece (QUERY_RAND_LEN flp) k qr) (piece (JOINT_RAND_LEN flp) k jr) 1
        = Ok (vsum (VERIFIER_LEN flp) VS)) PR) as (VS & LVS & HVS).
    { intros k Hk.
      destruct (fo_query _ _ _ HF S_ ms (map (piece (PROOF_LEN flp) k) prs) (piece (QUERY_RAND_LEN flp) k qr)
        (piece (JOINT_RAND_LEN flp) k jr)) as (VS & H1 & H2 & H3); try easy; try lia.
      + now apply HprP.
      + now apply piece_length with PR.
      + now apply piece_length with PR.
      + now apply Hgood.
      + exists VS. split; [easy|]. split.
        * intros j Hj. rewrite <- Hnth by easy. now apply H2.
        * rewrite (rp_meas _ _ _ _ _ _ _ _ _ _ _ _ _ _ R) in H3.
          rewrite (vsum_piece _ PR) in H3 by (try easy; apply HprV).
          rewrite (rp_proof _ _ _ _ _ _ _ _ _ _ _ _ _ _ R) in H3.
          rewrite piece_concat in H3; [easy| |].
          -- (* lengths of the proofs *)
             apply Forall_forall. intros x Hx. apply (In_nth _ _ []) in Hx. destruct Hx as (i & Hi & <-).
             rewrite (rp_proofs _ _ _ _ _ _ _ _ _ _ _ _ _ _ R) in Hi.
             pose proof (rp_prove _ _ _ _ _ _ _ _ _ _ _ _ _ _ R i Hi) as HP.
             pose proof (prove_rands_post p lim HO ctx prove_seed Hc) as Hpl.
             destruct (fo_prove _ _ _ HF meas (piece (PROVE_RAND_LEN flp) i pr) (piece (JOINT_RAND_LEN flp) i jr))
               as (pf & Epf & Lpf); try easy.
             ++ apply piece_length with PR; [|easy].
                pose proof (rp_prove_rand _ _ _ _ _ _ _ _ _ _ _ _ _ _ R) as Hpr.
                unfold prove_rands in Hpr. apply bind_Ok in Hpr. destruct Hpr as (d & _ & Hpr).
                apply bind_Ok in Hpr. destruct Hpr as (b & _ & Hpr). now apply expand_len in Hpr.
             ++ now apply piece_length with PR.
             ++ rewrite HP in Epf. now injection Epf as <-.
          -- now rewrite (rp_proofs _ _ _ _ _ _ _ _ _ _ _ _ _ _ R). }
    set (sh := fun j => concat (map (fun k => nth j (nth k VS []) []) (seq 0 PR))).
    rewrite (run_verify_init_ok (Prio3Vdaf p) key ctx tt nonce public iss
      (fun j => (nth j outs [], seed)) (fun j => (sh j, parts j))).
    2:{ intros j Hj. change (vd_SHARES (Prio3Vdaf p)) with S_ in Hj.
        destruct (get_default iss j S_ Liss Hj) as (is & Hg & _). exists is. split; [exact Hg|].
        change (vd_verify_init (Prio3Vdaf p)) with (p3_verify_init p).
        rewrite Hvi by easy. cbn [bind].
        destruct (verify_init_loop (nth j ms []) (nth j prs []) qr jr (fun k => nth j (nth k VS []) [])) as (st & Est);
          try easy.
        - now apply Hps.
        - intros k Hk. now apply HVS.
        - rewrite Est. cbn [bind]. easy. }
    cbn [bind]. unfold run_rounds. change (vd_ROUNDS (Prio3Vdaf p) - 1) with 0.
    rewrite for_range_nil by lia. cbn [bind].
    change (vd_SHARES (Prio3Vdaf p)) with S_.
    assert (Lag : length aggs = S_) by apply Hagg.
    assert (Hmk : forall k j, k < PR -> j < S_ -> length (nth j (nth k VS []) []) = VERIFIER_LEN flp).
    { intros k j Hk Hj. destruct (HVS k Hk) as ([L1 L2] & _).
      apply (Forall_nth_len (fun x => length x = VERIFIER_LEN flp)); [easy | lia]. }
    assert (Hmsg : p3_verifier_shares_to_message p ctx tt (map (fun j => (sh j, parts j)) (seq 0 S_)) = Ok seed).
    { unfold p3_verifier_shares_to_message.
      rewrite (shares_loop S_ sh parts).
      - cbn [bind].
        unfold sh at 1. rewrite (vsum_concat _ PR S_ (fun k j => nth j (nth k VS []) [])) by easy.
        destruct (decide_loop PR (fun k => vsum (VERIFIER_LEN flp) (map (fun j => nth j (nth k VS []) []) (seq 0 S_)))) as (r & Er).
        + easy.
        + intros. apply vsum_length.
        + intros k Hk. destruct (HVS k Hk) as (HV1 & _ & HV3).
          assert (EV : map (fun j => nth j (nth k VS []) []) (seq 0 S_) = nth k VS []).
          { destruct HV1 as [L1 _]. rewrite <- L1. symmetry. apply list_as_map. }
          rewrite EV.
          eapply (fo_complete _ _ _ HF meas (piece (PROVE_RAND_LEN flp) k pr) (piece (JOINT_RAND_LEN flp) k jr)
            (piece (QUERY_RAND_LEN flp) k qr) (nth k proofs [])); try easy.
          * apply piece_length with PR; [|easy].
            pose proof (rp_prove_rand _ _ _ _ _ _ _ _ _ _ _ _ _ _ R) as Hpr.
            unfold prove_rands in Hpr. apply bind_Ok in Hpr. destruct Hpr as (d & _ & Hpr).
            apply bind_Ok in Hpr. destruct Hpr as (b & _ & Hpr). now apply expand_len in Hpr.
          * now apply piece_length with PR.
          * now apply piece_length with PR.
          * apply Hval. now apply piece_length with PR.
          * now apply (rp_prove _ _ _ _ _ _ _ _ _ _ _ _ _ _ R).
        + rewrite Er. cbn [bind].
          destruct (0 <? JOINT_RAND_LEN flp) eqn:EJ; [|now subst seed].
          destruct Hseed as (s & ps & -> & Lps & Hparts & Hs).
          rewrite (map_ext_in _ (fun j => nth j ps [])).
          * match goal with |- context [map ?f (seq 0 S_)] => assert (Eps : map f (seq 0 S_) = ps) by (rewrite <- Lps; symmetry; apply (list_as_map ([] : bytes) ps)) end. rewrite Eps, Hs. easy.
          * intros j Hj. apply in_seq in Hj. now rewrite Hparts by lia.
      - intros j Hj. unfold sh. rewrite (length_concat_const _ (VERIFIER_LEN flp)).
        + rewrite map_length, seq_length. lia.
        + apply Forall_forall. intros x Hx. apply in_map_iff in Hx. destruct Hx as (k & <- & Hk).
          apply in_seq in Hk. apply Hmk; lia.
      - intros EJ j Hj. rewrite (proj2 (Nat.ltb_lt _ _) EJ) in Hseed.
        destruct Hseed as (s & ps & -> & Lps & Hparts & Hs). rewrite Hparts by easy. eauto. }
    assert (Eag : aggs = map (fun j => nth j aggs []) (seq 0 S_)) by (rewrite <- Lag; apply list_as_map).
    rewrite Eag at 1.
    match goal with |- post ?m _ _ =>
      assert (EM : m = Ok (map (fun j => zip_with fadd (nth j aggs []) (nth j outs [])) (seq 0 S_))) end.
    { apply (run_finish_ok (Prio3Vdaf p) ctx tt (fun j => (nth j outs [], seed))
      (map (fun j => (sh j, parts j)) (seq 0 S_)) seed (fun j => nth j aggs []) (fun j => nth j outs [])
      (fun j => zip_with fadd (nth j aggs []) (nth j outs []))).
    + exact Hmsg.
    + intros j Hj. cbn. unfold p3_verify_next.
      rewrite (proj2 (opt_bytes_eqb_eq seed seed) eq_refl). easy.
    + intros j Hj. cbn. unfold p3_agg_update, vec_add. change (vd_SHARES (Prio3Vdaf p)) with S_ in Hj.
      destruct Hagg as [_ A2], Houts as [Lo O2].
      assert (length (nth j aggs []) = OUTPUT_LEN flp).
      { apply (Forall_nth_len (fun x => length x = OUTPUT_LEN flp)); [easy | lia]. }
      assert (length (nth j outs []) = OUTPUT_LEN flp).
      { apply (Forall_nth_len (fun x => length x = OUTPUT_LEN flp)); [easy | lia]. }
      rewrite (proj2 (Nat.eqb_eq _ _)) by congruence. easy. }
    rewrite EM. cbn [post]. exists outs. split; [easy|]. split; [easy|].
      destruct Houts as [Lo _].
      apply (nth_ext' []).
      * change (vd_SHARES (Prio3Vdaf p)) with S_. rewrite map_length, seq_length.
        rewrite zip_with_length, Lo, Lag. symmetry. apply Nat.min_id.
      * intros i Hi. rewrite map_length, seq_length in Hi. change (vd_SHARES (Prio3Vdaf p)) with S_ in Hi |- *.
        rewrite nth_seq_map by easy. rewrite (nth_zip_with _ _ _ _ [] []) by lia. easy.
  - (* some query is rejected *)
    destruct (get_default iss 0 S_ Liss ltac:(lia)) as (is & Hg & _).
    assert (Hm0 : length (nth 0 ms []) = MEAS_LEN flp).
    { destruct HmsV as [L1 L2]. apply (Forall_nth_len (fun x => length x = MEAS_LEN flp)); [easy | lia]. }
    destruct (fo_query_bad _ _ _ HF S_ (nth 0 ms []) (piece (PROOF_LEN flp) k (nth 0 prs []))
      (piece (QUERY_RAND_LEN flp) k qr) (piece (JOINT_RAND_LEN flp) k jr)) as [msg Hmsg]; try easy; try lia.
    { apply piece_length with PR; [|easy]. apply Hps. lia. }
    { now apply piece_length with PR. }
    { now apply piece_length with PR. }
    rewrite (run_verify_init_raise (Prio3Vdaf p) key ctx tt nonce public iss is (ValueError msg)).
    + right. exists msg. split; [easy|]. exists qr, k. easy.
    + simpl. lia.
    + exact Hg.
    + change (vd_verify_init (Prio3Vdaf p)) with (p3_verify_init p).
      rewrite Hvi by (try lia; easy). cbn [bind].
      rewrite (verify_init_loop_raise _ _ _ _ k (fun _ => []) (ValueError msg)); try easy.
      * apply Hps. lia.
      * intros i Hi.
        destruct (fo_query _ _ _ HF S_ ms (map (piece (PROOF_LEN flp) i) prs) (piece (QUERY_RAND_LEN flp) i qr)
          (piece (JOINT_RAND_LEN flp) i jr)) as (VS & H1 & H2 & H3); try easy; try lia.
        -- apply HprP. lia.
        -- apply piece_length with PR; [easy | lia].
        -- apply piece_length with PR; [easy | lia].
        -- now apply Hbefore.
        -- exists (nth 0 VS []). rewrite <- Hnth by lia. apply H2. lia.
Qed.

Definition encodes (m : Measurement flp) (out : list F) : Prop :=
  exists meas, flp_encode flp m = Ok meas /\ length meas = MEAS_LEN flp /\
    (forall jr, length jr = JOINT_RAND_LEN flp -> valid meas jr) /\
    flp_truncate flp meas = Ok out /\ length out = OUTPUT_LEN flp.

Theorem run_ok key ctx ms outs :
  ctx_ok ctx -> length key = p3_VERIFY_KEY_SIZE p ->
  sizes_ok p ms ->
  Forall2 (fun r out => encodes (fst (fst r)) out) ms outs ->
  run_vdaf (Prio3Vdaf p) key tt ctx ms = flp_decode flp (vsum (OUTPUT_LEN flp) outs) (length ms) \/
  (run_vdaf (Prio3Vdaf p) key tt ctx ms = Raise OutOfFuel /\ ran_out p) \/
  (exists msg, run_vdaf (Prio3Vdaf p) key tt ctx ms = Raise (ValueError msg) /\
     exists m nonce rand, In (m, nonce, rand) ms /\ bad_query p good key ctx nonce).
Proof.
  intros Hc Hk Hs Ho. unfold run_vdaf.
  change (vd_VERIFY_KEY_SIZE (Prio3Vdaf p)) with (p3_VERIFY_KEY_SIZE p).
  rewrite (proj2 (Nat.eqb_eq _ _) Hk). cbn [check bind].
  change (vd_SHARES (Prio3Vdaf p)) with S_.
  assert (Ei : mapM (fun _ : nat => vd_agg_init (Prio3Vdaf p) tt) (range 0 S_)
               = Ok (map (fun _ => repeat f0 (OUTPUT_LEN flp)) (range 0 S_))).
  { apply mapM_map. easy. }
  rewrite Ei. cbn [bind]. clear Ei.
  (* the loop *)
  assert (Loop : forall aggs done, vecs S_ (OUTPUT_LEN flp) aggs -> Forall (fun x => length x = OUTPUT_LEN flp) done ->
    vsum (OUTPUT_LEN flp) aggs = vsum (OUTPUT_LEN flp) done ->
    post (foldM (run_report (Prio3Vdaf p) key ctx tt) ms aggs)
      (fun aggs' => vecs S_ (OUTPUT_LEN flp) aggs' /\ vsum (OUTPUT_LEN flp) aggs' = vsum (OUTPUT_LEN flp) (done ++ outs))
      (fun e => E0 e \/ exists msg, e = ValueError msg /\
         exists m nonce rand, In (m, nonce, rand) ms /\ bad_query p good key ctx nonce)).
  { clear -HO HF Hc Hk Hs Ho.
    revert Hs. induction Ho as [|[[m nonce] rand] out ms outs H1 H2 IH]; intros Hs aggs done HA HD HE.
    - cbn [foldM post]. now rewrite app_nil_r.
    - inversion Hs as [|? ? Hsz Hs']; subst. cbv beta iota in Hsz. destruct Hsz as [Hn Hr]. unfold encodes in H1. destruct H1 as (meas & He & Hm & Hv & Ht & Lo).
      cbn [foldM]. eapply post_bind.
      + eapply post_weak; [apply (report_run key ctx m meas nonce rand out aggs); assumption | |].
        * intros a _ Ha. exact Ha.
        * intros e [He0|(msg & -> & Hb)]; [now left|]. right. exists msg. split; [easy|].
          exists m, nonce, rand. split; [now left | easy].
      + cbv beta. intros aggs' _ (os & Hos & Hsum & ->).
        eapply post_weak; [apply (IH Hs' _ (done ++ [out])) | |].
        * destruct HA as [A1 A2], Hos as [O1 O2]. split.
          -- rewrite zip_with_length. change (vd_OutShare (Prio3Vdaf p)) with (list F). rewrite A1, O1. apply Nat.min_id.
          -- clear -A2 O2. revert os O2. induction A2 as [|a aggs Ha HA IH]; intros [|o os] HO2; cbn [zip_with]; try constructor.
             ++ inversion HO2; subst. now apply zip_length_eq.
             ++ inversion HO2; subst. now apply IH.
        * apply Forall_app. split; [easy|]. constructor; [easy | constructor].
        * rewrite vsum_zip_add.
          -- rewrite HE, Hsum, vsum_app, vsum_one by easy. easy.
          -- destruct HA, Hos. congruence.
          -- apply HA.
          -- apply Hos.
        * intros a _ [B1 B2]. split; [easy|]. now rewrite B2, <- app_assoc.
        * intros e [He0|(msg & -> & m' & n' & r' & Hin & Hb)]; [now left|]. right. exists msg. split; [easy|].
          exists m', n', r'. split; [now right | easy]. }
  specialize (Loop (map (fun _ => repeat f0 (OUTPUT_LEN flp)) (range 0 S_)) []).
  match type of Loop with ?A -> ?B -> ?C -> _ => assert (HA : A); [|assert (HB : B); [constructor | assert (HC : C)]] end.
  { split; [rewrite map_length, length_range; lia|]. apply Forall_forall. intros x Hx.
    apply in_map_iff in Hx. destruct Hx as (? & <- & _). apply repeat_length. }
  { rewrite vsum_nil. apply (vec_eq (OUTPUT_LEN flp)).
    - apply vsum_length.
    - apply repeat_length.
    - intros i Hi. rewrite nth_vsum by easy. rewrite nth_repeat', (proj2 (Nat.ltb_lt _ _) Hi).
      rewrite map_map. clear. induction (range 0 S_) as [|a l IH]; [easy|]. simpl. rewrite IH.
      rewrite nth_repeat'. destruct (i <? _); ring. }
  specialize (Loop HA HB HC). rewrite app_nil_l in Loop.
  change (list (vd_OutShare (Prio3Vdaf p))) with (list (list F)) in *.
  match type of Loop with post ?m _ _ => destruct m as [aggs|e] eqn:EL end.
  - destruct Loop as [L1 L2]. left. change (vd_OutShare (Prio3Vdaf p)) with (list F) in *.
    cbn [bind]. change (vd_unshard (Prio3Vdaf p)) with (p3_unshard p).
    unfold p3_unshard, p3_merge, p3_agg_init. cbn [bind]. rewrite fold_vec_add_0 by apply L1. cbn [bind].
    now rewrite L2.
  - right.
    cbn [bind]. destruct Loop as [[-> Hr]|(msg & -> & Hb)]; [now left|]. right. exists msg. easy.
Qed.
End P3R.
