(** The deployment computes what [run_vdaf] computes on the reports that verify. *)
From Verif Require Import DeploySpec RunSpec RunFacts PingPongSpec PingPongFacts BaseFacts.
Open Scope nat_scope.

Section DF.
Context (vdaf : Vdaf) (ctx key agg_param : bytes) (ap : vd_AggParam vdaf).
Context (H2 : vd_SHARES vdaf = 2) (HR : 1 <= vd_ROUNDS vdaf) (HK : length key = vd_VERIFY_KEY_SIZE vdaf).
Context (I : vd_VerifyState vdaf -> vd_VerifierShare vdaf -> vd_VerifyState vdaf -> vd_VerifierShare vdaf -> Prop).
Context (EX : Exchangeable vdaf ctx ap I) (AP : vd_decode_agg_param vdaf agg_param = Ok ap).
Notation Report := (vd_Measurement vdaf * bytes * bytes)%type.

Notation wire_ok := (wire_ok vdaf ctx key ap I).
Notation report_accepted := (report_accepted vdaf ctx key ap).
Definition two (o : list (vd_OutShare vdaf)) (x : vd_OutShare vdaf * vd_OutShare vdaf) : Prop := o = [fst x; snd x].

Lemma outputs_verified m o0 o1 : pp_outputs vdaf m o0 o1 <->
  match m with
  | Ok (leader, helper) => match pp_output vdaf leader, pp_output vdaf helper with Some o0, Some o1 => Some (o0, o1) | _, _ => None end
  | Raise _ => None
  end = Some (o0, o1).
Proof.
  unfold pp_outputs. destruct m as [[l h]|e].
  - split.
    + intros (l' & h' & [= <- <-] & -> & ->). reflexivity.
    + intros H. exists l, h. destruct (pp_output vdaf l), (pp_output vdaf h); try discriminate H. injection H as -> ->. auto.
  - split; [intros (? & ? & [=] & _)|discriminate].
Qed.

Lemma verified_one r : wire_ok r ->
  match vdaf_outputs vdaf ctx ap key r with
  | Ok outs => exists u o, upload vdaf ctx r = Ok u /\ pp_verified vdaf ctx key agg_param u = Some o /\ two outs o
  | Raise _ => forall u, upload vdaf ctx r = Ok u -> pp_verified vdaf ctx key agg_param u = None
  end.
Proof.
  destruct r as ((m & nonce) & rand). intros W. pose proof (vdaf_outputs_length vdaf ctx ap key (m, nonce, rand)) as L.
  unfold vdaf_outputs, upload in *. cbn [wire_ok] in W.
  destruct (vd_shard vdaf ctx m nonce rand) as [[ps iss]|e] eqn:S; cbn [bind]; [|intros u [=]].
  destruct (W ps iss eq_refl) as (is0 & is1 & bps & b0 & b1 & -> & E1 & D1 & E2 & D2 & E3 & D3 & II).
  change (get [is0; is1] 0) with (Ok is0). change (get [is0; is1] 1) with (Ok is1). cbn [bind].
  rewrite E1, E2, E3. cbn [bind]. cbn [bind] in L.
  pose proof (fun o0 o1 => run_correct vdaf ctx ap I EX agg_param AP key nonce bps b0 b1 ps is0 is1 o0 o1 HR D1 D2 D3 II) as RC.
  pose proof (fun o0 o1 => broadcast_report vdaf ctx ap key nonce ps is0 is1 o0 o1 H2) as BR.
  assert (C : forall o0 o1, pp_verified vdaf ctx key agg_param (nonce, bps, b0, b1) = Some (o0, o1) <->
    verify_report vdaf ctx ap key nonce ps [is0; is1] = Ok [o0; o1]).
  { intros o0 o1. rewrite <- BR, <- RC, outputs_verified. reflexivity. }
  destruct (verify_report vdaf ctx ap key nonce ps [is0; is1]) as [outs|e] eqn:V.
  - specialize (L outs eq_refl). rewrite H2 in L. destruct outs as [|o0 [|o1 [|]]]; try discriminate L.
    exists (nonce, bps, b0, b1), (o0, o1). split; [reflexivity|]. split; [now apply C|reflexivity].
  - intros u [= <-]. destruct (pp_verified vdaf ctx key agg_param (nonce, bps, b0, b1)) as [[o0 o1]|] eqn:X; [|reflexivity].
    discriminate (proj1 (C o0 o1) eq_refl).
Qed.

Lemma verified_all ms : Forall wire_ok ms -> exists outs,
  mapM (vdaf_outputs vdaf ctx ap key) (filter report_accepted ms) = Ok outs /\
  Forall2 two outs (verified vdaf ctx key agg_param (uploaded vdaf ctx ms)).
Proof.
  induction 1 as [|r ms W _ (outs & M & FO)]; [exists []; split; [reflexivity|constructor]|].
  pose proof (verified_one r W) as V. cbn [filter uploaded].
  unfold report_accepted at 1. destruct (vdaf_outputs vdaf ctx ap key r) as [o|e] eqn:E.
  - destruct V as (u & x & -> & V & T). exists (o :: outs). cbn [verified]. rewrite V. split; [|now constructor].
    cbn [mapM]. rewrite E. cbn [bind]. rewrite M. reflexivity.
  - destruct (upload vdaf ctx r) as [u|e']; [cbn [verified]; rewrite (V u eq_refl)|]; exists outs; auto.
Qed.

Lemma fold_two (u : vd_AggShare vdaf -> vd_OutShare vdaf -> res (vd_AggShare vdaf)) outs xs : Forall2 two outs xs -> forall a,
  foldM (fun a o => let* o := get o 0 in u a o) outs a = foldM u (map fst xs) a /\
  foldM (fun a o => let* o := get o 1 in u a o) outs a = foldM u (map snd xs) a.
Proof.
  induction 1 as [|o x outs xs T _ IH]; intros a; [split; reflexivity|]. unfold two in T. subst o. cbn [foldM map].
  change (get [fst x; snd x] 0) with (Ok (fst x)). change (get [fst x; snd x] 1) with (Ok (snd x)). cbn [bind].
  split; (destruct (u a _); cbn [bind]; [apply IH|reflexivity]).
Qed.

Theorem deploy_run ms r : Forall wire_ok ms ->
  (forall outs a, (let* a := vd_agg_init vdaf ap in foldM (vd_agg_update vdaf ap) outs a) = Ok a ->
     exists b, vd_encode_agg_share vdaf a = Ok b /\ vd_decode_agg_share vdaf ap b = Ok a) ->
  deploy vdaf ctx key agg_param ap ms = Ok r <-> run_vdaf vdaf key ap ctx (filter report_accepted ms) = Ok r.
Proof.
  intros W AG. destruct (verified_all ms W) as (outs & M & T). rewrite run_vdaf_Ok. unfold deploy, aggregate.
  set (xs := verified vdaf ctx key agg_param (uploaded vdaf ctx ms)) in *.
  assert (Lx : length (filter report_accepted ms) = length xs).
  { rewrite <- (mapM_Ok_length _ _ _ M). clear -T. induction T; cbn; congruence. }
  assert (CO : forall ys a, collect vdaf ap ys = Ok a <-> (let* a := vd_agg_init vdaf ap in foldM (vd_agg_update vdaf ap) ys a) = Ok a).
  { intros ys a. unfold collect. specialize (AG ys). destruct (vd_agg_init vdaf ap) as [i|e]; cbn [bind] in *; [|reflexivity].
    destruct (foldM (vd_agg_update vdaf ap) ys i) as [a'|e]; cbn [bind]; [|reflexivity].
    destruct (AG a' eq_refl) as (b & -> & D). cbn [bind]. rewrite D. reflexivity. }
  assert (FA : forall aggs, fold_all (vd_SHARES vdaf) (vd_agg_init vdaf ap) (vd_agg_update vdaf ap) outs = Ok aggs <->
    exists a0 a1, aggs = [a0; a1] /\ collect vdaf ap (map fst xs) = Ok a0 /\ collect vdaf ap (map snd xs) = Ok a1).
  { intros aggs. rewrite H2. unfold fold_all. rewrite mapM_range_Ok.
    assert (FE : forall j a, fold_outputs (vd_agg_init vdaf ap) (vd_agg_update vdaf ap) outs j = Ok a <->
      (let* a := vd_agg_init vdaf ap in foldM (fun a o => let* o := get o j in vd_agg_update vdaf ap a o) outs a) = Ok a)
      by reflexivity.
    assert (F0 : forall a, fold_outputs (vd_agg_init vdaf ap) (vd_agg_update vdaf ap) outs 0 = Ok a <-> collect vdaf ap (map fst xs) = Ok a).
    { intros a. rewrite FE, CO. destruct (vd_agg_init vdaf ap) as [i|e]; cbn [bind]; [|reflexivity].
      rewrite (proj1 (fold_two _ outs xs T i)). reflexivity. }
    assert (F1 : forall a, fold_outputs (vd_agg_init vdaf ap) (vd_agg_update vdaf ap) outs 1 = Ok a <-> collect vdaf ap (map snd xs) = Ok a).
    { intros a. rewrite FE, CO. destruct (vd_agg_init vdaf ap) as [i|e]; cbn [bind]; [|reflexivity].
      rewrite (proj2 (fold_two _ outs xs T i)). reflexivity. }
    split.
    - intros (L & F). destruct aggs as [|a0 [|a1 [|]]]; try discriminate L. exists a0, a1. split; [reflexivity|].
      split; [apply F0, F; reflexivity|apply F1, F; reflexivity].
    - intros (a0 & a1 & -> & C0 & C1). split; [reflexivity|]. intros [|[|j]] y E; cbn [nth_error] in E.
      + injection E as <-. now apply F0.
      + injection E as <-. now apply F1.
      + destruct j; discriminate E. }
  split.
  - intros D. apply bind_Ok in D as (a0 & C0 & D). apply bind_Ok in D as (a1 & C1 & D).
    split; [exact HK|]. exists outs, [a0; a1]. split; [exact M|]. split; [apply FA; eauto|]. now rewrite Lx.
  - intros (_ & outs' & aggs & M' & FO & U). assert (outs' = outs) by congruence. subst outs'.
    apply FA in FO as (a0 & a1 & -> & C0 & C1). rewrite C0, C1. cbn [bind]. now rewrite <- Lx.
Qed.
End DF.
