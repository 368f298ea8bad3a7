(** Proofs for C101: the star topology. *)
From Verif Require Import StarSpec RunFacts BaseFacts.
Open Scope nat_scope.

Lemma mapM_ext_in {A B} (f g : A -> res B) l : (forall x, In x l -> f x = g x) -> mapM f l = mapM g l.
Proof.
  induction l as [|x l IH]; intros H; [reflexivity|]. cbn [mapM]. rewrite (H x) by now left.
  rewrite IH by (intros y Hy; apply H; now right). reflexivity.
Qed.
Lemma mapM_map' {A B C} (f : B -> res C) (g : A -> B) l : mapM f (map g l) = mapM (fun x => f (g x)) l.
Proof. induction l as [|x l IH]; [reflexivity|]. cbn [map mapM]. now rewrite IH. Qed.

Section SF.
Context (vdaf : Vdaf) (ctx key agg_param : bytes) (ap : vd_AggParam vdaf).
Context (AP : vd_decode_agg_param vdaf agg_param = Ok ap).
Notation State := (vd_VerifyState vdaf).
Notation VShare := (vd_VerifierShare vdaf).
Context (I : list (State * VShare) -> Prop) (EX : StarExchangeable vdaf ctx ap I).

Lemma sent_back (l : State * VShare) hs : I (l :: hs) -> exists bs,
  mapM (fun h : State * VShare => vd_encode_verifier_share vdaf (snd h)) hs = Ok bs /\
  mapM (vd_decode_verifier_share vdaf (fst l)) bs = Ok (map snd hs).
Proof.
  intros H. pose proof (fun h => sx_share vdaf ctx ap I EX l hs h H) as S. clear H. induction hs as [|h hs IH].
  - exists []. split; reflexivity.
  - destruct IH as (bs & E & D). { intros x Hx. apply S. now right. }
    destruct (S h (or_introl eq_refl)) as (b & E1 & D1). exists (b :: bs). cbn [mapM map]. rewrite E, E1, D1, D. split; reflexivity.
Qed.

Theorem star_rounds_eq k : forall l hs, I (l :: hs) ->
  star_rounds vdaf ctx agg_param k l hs = verify_rounds vdaf ctx ap k (map fst (l :: hs)) (map snd (l :: hs)).
Proof.
  induction k as [|k IH]; intros l hs H; destruct (sent_back l hs H) as (bs & E & D);
    cbn [star_rounds verify_rounds]; rewrite E; cbn [bind]; unfold star_message; rewrite AP; cbn [bind]; rewrite D; cbn [bind];
    change (snd l :: map snd hs) with (map snd (l :: hs));
    destruct (vd_verifier_shares_to_message vdaf ctx ap (map snd (l :: hs))) as [msg|e] eqn:M; try reflexivity;
    destruct (sx_msg vdaf ctx ap I EX l hs msg H M) as (b & Eb & Db); cbn [bind]; rewrite Eb; cbn [bind map mapM].
  - unfold star_output at 1. destruct (vd_verify_next vdaf ctx (fst l) msg) as [[x|o]|e]; try reflexivity. cbn [bind].
    rewrite mapM_map'. f_equal. apply mapM_ext_in. intros h Hh. unfold star_receive. rewrite (Db h Hh). reflexivity.
  - rewrite mapM_map'.
    assert (Eh : mapM (star_receive vdaf (star_continue vdaf ctx) b) hs
      = mapM (fun x => let* r := vd_verify_next vdaf ctx (fst x) msg in match r with inl x => Ok x | inr _ => Raise AssertionError end) hs).
    { apply mapM_ext_in. intros h Hh. unfold star_receive. rewrite (Db h Hh). reflexivity. }
    rewrite Eh. clear E Eh. pose proof (sx_next vdaf ctx ap I EX l hs msg) as N. cbn [mapM] in N. unfold star_continue in N.
    unfold star_continue at 1. destruct (vd_verify_next vdaf ctx (fst l) msg) as [[x|o]|e]; try reflexivity. cbn [bind] in *.
    destruct (mapM _ hs) as [xs|e]; [|reflexivity]. cbn [bind] in *. apply IH. apply (N _ H M eq_refl).
Qed.

Theorem star_run_eq nonce bps bs ps iss : 1 <= vd_SHARES vdaf ->
  vd_decode_public_share vdaf bps = Ok ps -> length bs = length iss ->
  (forall j b is, j < vd_SHARES vdaf -> nth_error bs j = Some b -> nth_error iss j = Some is -> vd_decode_input_share vdaf j b = Ok is) ->
  (forall init, mapM (fun j => let* is := get iss j in vd_verify_init vdaf key ctx j ap nonce ps is) (range 0 (vd_SHARES vdaf)) = Ok init ->
      I init) ->
  star_run vdaf ctx key agg_param nonce bps bs = verify_report vdaf ctx ap key nonce ps iss.
Proof.
  intros HS DP L DI HI. unfold star_run, verify_report.
  assert (E : mapM (fun j => let* input_share := get bs j in star_init vdaf ctx key agg_param nonce bps j input_share) (range 0 (vd_SHARES vdaf))
    = mapM (fun j => let* is := get iss j in vd_verify_init vdaf key ctx j ap nonce ps is) (range 0 (vd_SHARES vdaf))).
  { apply mapM_ext_in. intros j Hj. apply in_range in Hj. unfold get.
    destruct (nth_error bs j) as [b|] eqn:Eb.
    - assert (Hl : j < length bs) by (apply nth_error_Some; congruence).
      destruct (nth_error iss j) as [is|] eqn:Ei; [|apply nth_error_None in Ei; lia]. cbn [bind].
      unfold star_init. rewrite AP, DP. cbn [bind]. rewrite (DI j b is (proj2 Hj) Eb Ei). reflexivity.
    - apply nth_error_None in Eb. destruct (nth_error iss j) as [is|] eqn:Ei; [|reflexivity].
      assert (Hl : j < length iss) by (apply nth_error_Some; congruence). lia. }
  rewrite E. destruct (mapM _ (range 0 (vd_SHARES vdaf))) as [init|e] eqn:M; [|reflexivity]. cbn [bind].
  pose proof (mapM_Ok_length _ _ _ M) as Ll. rewrite length_range in Ll. destruct init as [|l hs]; [cbn in Ll; lia|].
  apply star_rounds_eq. now apply HI.
Qed.

(** Nothing is verified unless everything decodes. *)
Lemma star_run_decodes nonce bps bs outs : 1 <= vd_SHARES vdaf -> star_run vdaf ctx key agg_param nonce bps bs = Ok outs ->
  exists ps iss, vd_decode_public_share vdaf bps = Ok ps /\ length iss = vd_SHARES vdaf /\ vd_SHARES vdaf <= length bs /\
    forall j b is, nth_error bs j = Some b -> nth_error iss j = Some is -> vd_decode_input_share vdaf j b = Ok is.
Proof.
  intros HS H. unfold star_run in H. apply bind_Ok in H. destruct H as (init & M & _). apply mapM_range_Ok in M. destruct M as (L & M).
  assert (A : forall j, j < vd_SHARES vdaf -> exists b ps is, nth_error bs j = Some b /\ vd_decode_public_share vdaf bps = Ok ps /\ vd_decode_input_share vdaf j b = Ok is).
  { intros j Hj. destruct (nth_error init j) as [y|] eqn:Ey; [|apply nth_error_None in Ey; lia].
    specialize (M j y Ey). apply bind_Ok in M. destruct M as (b & Gb & M). unfold star_init in M. rewrite AP in M. cbn [bind] in M.
    apply bind_Ok in M. destruct M as (ps & Ep & M). apply bind_Ok in M. destruct M as (is & Ei & M).
    exists b, ps, is. unfold get in Gb. destruct (nth_error bs j); [|discriminate]. split; [congruence|]. now split. }
  destruct (A 0 HS) as (b0 & ps & is0 & _ & Ep & _). exists ps.
  assert (B : forall n, n <= vd_SHARES vdaf -> exists iss, length iss = n /\ forall j b is, nth_error bs j = Some b -> nth_error iss j = Some is -> vd_decode_input_share vdaf j b = Ok is).
  { induction n as [|n IH]; intros Hn.
    - exists []. split; [reflexivity|]. intros [|j] b is _ [=].
    - destruct (IH ltac:(lia)) as (iss & Li & Hi). destruct (A n ltac:(lia)) as (b & ps' & is & Eb & _ & Ei). exists (iss ++ [is]).
      split; [rewrite app_length; cbn; lia|]. intros j b' is' Eb' Ei'. destruct (Nat.lt_trichotomy j n) as [Hj|[->|Hj]].
      + rewrite nth_error_app1 in Ei' by lia. now apply Hi.
      + rewrite nth_error_app2, Li, Nat.sub_diag in Ei' by lia. cbn in Ei'. congruence.
      + rewrite nth_error_app2, Li in Ei' by lia. destruct (j - n) as [|m] eqn:Em; [lia|]. destruct m; discriminate. }
  destruct (B _ (le_n _)) as (iss & Li & Hi). exists iss. split; [exact Ep|]. split; [exact Li|]. split; [|exact Hi].
  destruct (A (vd_SHARES vdaf - 1) ltac:(lia)) as (b & _ & _ & Eb & _).
  assert (vd_SHARES vdaf - 1 < length bs) by (apply nth_error_Some; congruence). lia.
Qed.

Context (HS : 1 <= vd_SHARES vdaf) (HK : length key = vd_VERIFY_KEY_SIZE vdaf).
Notation wire_ok := (star_wire_ok vdaf ctx key ap I).
Notation report_accepted := (report_accepted vdaf ctx key ap).

Lemma star_verified_one r : wire_ok r ->
  match vdaf_outputs vdaf ctx ap key r with
  | Ok outs => exists u, star_upload vdaf ctx r = Ok u /\ star_verified vdaf ctx key agg_param u = Some outs
  | Raise _ => forall u, star_upload vdaf ctx r = Ok u -> star_verified vdaf ctx key agg_param u = None
  end.
Proof.
  destruct r as ((m & nonce) & rand). intros W. unfold vdaf_outputs, star_upload. cbn [star_wire_ok] in W.
  destruct (vd_shard vdaf ctx m nonce rand) as [[ps iss]|e] eqn:S; cbn [bind]; [|intros u [=]].
  destruct (W ps iss eq_refl) as (bps & bs & L & E1 & D1 & E2 & D2 & II). rewrite E1, E2. cbn [bind].
  assert (Q : star_run vdaf ctx key agg_param nonce bps bs = verify_report vdaf ctx ap key nonce ps iss).
  { apply star_run_eq; try assumption.
    - exact (mapM_Ok_length _ _ _ E2).
    - intros j b is _. apply D2. }
  destruct (verify_report vdaf ctx ap key nonce ps iss) as [outs|e].
  - exists (nonce, bps, bs). split; [reflexivity|]. unfold star_verified. now rewrite Q.
  - intros u [= <-]. unfold star_verified. now rewrite Q.
Qed.

Lemma star_verified_all ms : Forall wire_ok ms ->
  mapM (vdaf_outputs vdaf ctx ap key) (filter report_accepted ms) = Ok (star_outputs vdaf ctx key agg_param (star_uploaded vdaf ctx ms)).
Proof.
  induction 1 as [|r ms W _ IH]; [reflexivity|].
  pose proof (star_verified_one r W) as V. cbn [filter star_uploaded].
  unfold DeploySpec.report_accepted at 1. destruct (vdaf_outputs vdaf ctx ap key r) as [o|e] eqn:E.
  - destruct V as (u & -> & V). cbn [star_outputs]. rewrite V. cbn [mapM]. rewrite E, IH. reflexivity.
  - destruct (star_upload vdaf ctx r) as [u|e']; [cbn [star_outputs]; now rewrite (V u eq_refl) | exact IH].
Qed.

Theorem star_deploy_run ms r : Forall wire_ok ms ->
  (forall outs j a, fold_outputs (vd_agg_init vdaf ap) (vd_agg_update vdaf ap) outs j = Ok a ->
     exists b, vd_encode_agg_share vdaf a = Ok b /\ vd_decode_agg_share vdaf ap b = Ok a) ->
  star_deploy vdaf ctx key agg_param ap ms = Ok r <-> run_vdaf vdaf key ap ctx (filter report_accepted ms) = Ok r.
Proof.
  intros W AG. pose proof (star_verified_all ms W) as M. rewrite run_vdaf_Ok. unfold star_deploy, star_aggregate.
  set (outs := star_outputs vdaf ctx key agg_param (star_uploaded vdaf ctx ms)) in *.
  assert (Lx : length outs = length (filter report_accepted ms)) by exact (mapM_Ok_length _ _ _ M).
  assert (FA : mapM (star_collect vdaf ap outs) (range 0 (vd_SHARES vdaf)) = fold_all (vd_SHARES vdaf) (vd_agg_init vdaf ap) (vd_agg_update vdaf ap) outs).
  { unfold fold_all. apply mapM_ext_in. intros j _. unfold star_collect. specialize (AG outs j).
    destruct (fold_outputs _ _ outs j) as [a|e]; [|reflexivity]. destruct (AG a eq_refl) as (b & E & D). cbn [bind]. rewrite E. exact D. }
  rewrite FA. split.
  - intros D. apply bind_Ok in D as (aggs & C & D). split; [exact HK|]. exists outs, aggs. split; [exact M|]. split; [exact C|]. now rewrite <- Lx.
  - intros (_ & outs' & aggs & M' & FO & U). assert (outs' = outs) by congruence. subst outs'. rewrite FO. cbn [bind]. now rewrite Lx.
Qed.
End SF.
