(** Aggregation of arbitrary Prio3 uploads. *)
From Coq Require Import Permutation.
From Verif Require Import RobustSpec RobustFacts DeploySpec DeployFacts DeployInst RunSpec RunFacts PingPongSpec PingPongFacts PingPongInst.
From Verif Require Import Prio3Facts Prio3Run Prio3Props FlpSpec VecFacts VdafFacts BaseFacts PostFacts CommonFacts.
Open Scope nat_scope.

(** Both parties finish only if they could decode their inputs. *)
Lemma outputs_decode vdaf ctx key agg_param nonce bps b0 b1 o0 o1 :
  pp_outputs vdaf (pp_run vdaf ctx key agg_param nonce bps b0 b1) o0 o1 ->
  exists ps is0 is1, vd_decode_public_share vdaf bps = Ok ps /\ vd_decode_input_share vdaf 0 b0 = Ok is0 /\
    vd_decode_input_share vdaf 1 b1 = Ok is1.
Proof.
  intros (L & H & E & OL & OH). unfold pp_run in E. apply bind_Ok in E as (l & E1 & E2).
  destruct l as [|st r ob| | |]; try (injection E2 as <- <-; discriminate OH).
  apply leader_init_Ok in E1 as (ap' & p & i & st' & sh & es & ob' & A & P & DI & VI & _); [|discriminate].
  apply bind_Ok in E2 as (h & E2 & E3).
  assert (D : h = Rejected \/ h <> Rejected) by (destruct h; (now left) || (right; discriminate)). destruct D as [->|D].
  - exfalso. destruct (vd_ROUNDS vdaf); cbn in E3; injection E3 as <- <-; discriminate OH.
  - apply helper_init_Ok in E2 as (ap'' & p' & i' & st'' & sh' & items & es' & d & A' & P' & DI' & VI' & _); [|exact D].
    exists p, i, i'. auto.
Qed.

Section R.
Context (p : Prio3) (lim : Z) (HO : Prio3Ok p lim) (H2 : p3_SHARES p = 2).
Notation flp := (p3_flp p).
Notation F := (F (p3_field p)).
Context (good : list F -> Prop) (valid : list F -> list F -> Prop) (HF : FlpOk flp good valid).
Context (key ctx : bytes) (Hfit : p3_message_fits p) (Hc : ctx_ok ctx) (Hk : length key = p3_VERIFY_KEY_SIZE p).
Notation V := (Prio3Vdaf p).
Notation inv := (fun _ s0 _ s1 => verifier_share_wf p s0 /\ verifier_share_wf p s1).
Notation OL := (OUTPUT_LEN flp).
Add Ring FringRB : (@F_ring (p3_field p)).

Lemma public_decode_wf b ps : p3_decode_public_share p b = Ok ps -> public_share_wf p ps.
Proof.
  intros D. destruct (Nat.eq_dec (JOINT_RAND_LEN flp) 0) as [J|J].
  - destruct (public_share_codec_none p J) as (_ & N). rewrite N in D. injection D as <-.
    unfold public_share_wf. rewrite J. reflexivity.
  - exact (proj1 (proj2 (public_share_codec p ltac:(lia)) b ps D)).
Qed.

Lemma verified_outputs u o0 o1 : pp_verified V ctx key [] u = Some (o0, o1) ->
  length o0 = OL /\ length o1 = OL /\ flp_accepted p key ctx (nonce_of u) (vsum OL [o0; o1]).
Proof.
  destruct u as (((nonce & bps) & b0) & b1). intros PV.
  assert (PO : pp_outputs V (pp_run V ctx key [] nonce bps b0 b1) o0 o1) by (apply outputs_verified; exact PV).
  destruct (outputs_decode V ctx key [] nonce bps b0 b1 o0 o1 PO) as (ps & is0 & is1 & D & D0 & D1).
  change (p3_decode_public_share p bps = Ok ps) in D. change (p3_decode_input_share p 0 b0 = Ok is0) in D0. change (p3_decode_input_share p 1 b1 = Ok is1) in D1.
  pose proof (public_decode_wf bps ps D) as WP.
  pose proof (proj1 (proj2 (input_share_codec p (po_field _ _ HO) 0) b0 is0 D0)) as W0.
  pose proof (proj1 (proj2 (input_share_codec p (po_field _ _ HO) 1) b1 is1 D1)) as W1.
  apply (p3_ping_pong p lim HO good valid HF key ctx nonce bps b0 b1 ps is0 is1 o0 o1 Hfit Hc Hk D D0 D1) in PO.
  apply (broadcast_report V ctx tt key nonce ps is0 is1 o0 o1 H2) in PO.
  destruct (report_robust p lim HO good valid HF key ctx Hc Hk nonce ps [is0; is1] [o0; o1] WP) as (VO & A); [|exact PO|].
  - intros [|[|j]] is E; cbn [nth_error] in E; [injection E as <-; exact W0|injection E as <-; exact W1|destruct j; discriminate E].
  - destruct VO as (_ & FO). inversion FO as [|? ? L0 FO1]; inversion FO1 as [|? ? L1 _]; subst. auto.
Qed.

Lemma verified_map us : Forall (fun o => length (fst o) = OL /\ length (snd o) = OL) (verified V ctx key [] us) /\
  map (fun o => vsum OL [fst o; snd o]) (verified V ctx key [] us) = map (contribution p ctx key) (filter (counted V ctx key []) us) /\
  length (verified V ctx key [] us) = length (filter (counted V ctx key []) us).
Proof.
  induction us as [|u us (IF & IM & IL)]; [repeat split; constructor|]. cbn [verified filter].
  replace (counted V ctx key [] u) with (match pp_verified V ctx key [] u with Some _ => true | None => false end) by reflexivity.
  destruct (pp_verified V ctx key [] u) as [(o0 & o1)|] eqn:PV; [|exact (conj IF (conj IM IL))].
  destruct (verified_outputs u o0 o1 PV) as (L0 & L1 & _).
  split; [constructor; [now split|exact IF]|]. split; [|cbn [length]; congruence].
  cbn [map fst snd]. unfold contribution at 1. rewrite PV. f_equal. exact IM.
Qed.

Lemma collect_vsum os : Forall (fun o : list F => length o = OL) os -> collect V tt os = Ok (vsum OL os).
Proof.
  intros FO. pose proof (fold_vec_add_0 OL os FO) as E.
  destruct (proj1 (proj1 (share_codec p (po_field _ _ HO))) (vsum OL os) I) as (b & E1 & D1).
  change ((let* a := foldM vec_add os (fzeros OL) in let* b := p3_encode_agg_share p a in p3_decode_agg_share p tt b) = Ok (vsum OL os)).
  rewrite E. cbn [bind]. rewrite E1. cbn [bind]. exact D1.
Qed.

Lemma vsum_pairs (os : list (list F * list F)) : Forall (fun o => length (fst o) = OL /\ length (snd o) = OL) os ->
  vsum OL [vsum OL (map fst os); vsum OL (map snd os)] = vsum OL (map (fun o => vsum OL [fst o; snd o]) os).
Proof.
  intros FO.
  change [vsum OL (map fst os); vsum OL (map snd os)] with (map (vsum OL) [map fst os; map snd os]).
  rewrite (vsum_map_vsum p), <- (map_map (fun o => [fst o; snd o]) (vsum OL)), (vsum_map_vsum p).
  apply vsum_perm. cbn [concat]. rewrite app_nil_r. clear.
  induction os as [|o os IH]; [constructor|]. cbn [map concat app]. apply perm_skip.
  etransitivity; [|apply perm_skip; exact IH]. symmetry. apply Permutation_middle.
Qed.

Theorem aggregate_robust us :
  aggregate V ctx key [] tt us
  = flp_decode flp (vsum OL (map (contribution p ctx key) (filter (counted V ctx key []) us))) (length (filter (counted V ctx key []) us)).
Proof.
  destruct (verified_map us) as (FO & EM & EL). unfold aggregate. set (os := verified V ctx key [] us) in *.
  rewrite (collect_vsum (map fst os)) by (apply Forall_map; eapply Forall_impl; [|exact FO]; intros o Ho; apply Ho). cbn [bind].
  rewrite (collect_vsum (map snd os)) by (apply Forall_map; eapply Forall_impl; [|exact FO]; intros o Ho; apply Ho). cbn [bind].
  pose proof (fold_vec_add_0 OL [vsum OL (map fst os); vsum OL (map snd os)] ltac:(repeat constructor; apply vsum_length)) as E.
  change ((let* agg := foldM vec_add [vsum OL (map fst os); vsum OL (map snd os)] (fzeros OL) in flp_decode flp agg (length os))
    = flp_decode flp (vsum OL (map (contribution p ctx key) (filter (counted V ctx key []) us))) (length (filter (counted V ctx key []) us))).
  rewrite E. cbn [bind]. rewrite <- EM, <- EL. f_equal. exact (vsum_pairs os FO).
Qed.

Theorem counted_accepted u : counted V ctx key [] u = true -> flp_accepted p key ctx (nonce_of u) (contribution p ctx key u).
Proof.
  unfold counted, contribution. intros C. destruct (pp_verified V ctx key [] u) as [(o0 & o1)|] eqn:PV; [|discriminate C].
  apply (verified_outputs u o0 o1 PV).
Qed.

Lemma zip_zeros (o : list F) : length o = OL -> zip_with fadd (fzeros OL) o = o.
Proof. intros L. rewrite <- L. clear L. induction o as [|x o IH]; [reflexivity|]. cbn [length fzeros repeat zip_with]. f_equal; [ring|exact IH]. Qed.

Lemma honest_outputs m meas nonce rand out : encodable p (m, nonce, rand) ->
  flp_encode flp m = Ok meas -> (forall jr, length jr = JOINT_RAND_LEN flp -> valid meas jr) -> flp_truncate flp meas = Ok out ->
  match vdaf_outputs V ctx tt key (m, nonce, rand) with
  | Ok outs => vsum OL outs = out
  | Raise _ => ran_out p \/ bad_query p good key ctx nonce
  end.
Proof.
  intros EN En HV HT. pose proof EN as (Ln & Lr & meas' & En' & Lm). cbn [fst snd] in *. rewrite En' in En. injection En as ->.
  pose (aggs := [fzeros OL; fzeros OL] : list (list F)).
  assert (VA : vecs (p3_SHARES p) OL aggs) by (rewrite H2; split; [reflexivity|repeat constructor; apply repeat_length]).
  pose proof (report_run p lim HO good valid HF key ctx m meas nonce rand out aggs Hc Hk Ln Lr En' Lm HV HT VA) as R.
  pose proof (report_Ok V ctx tt key aggs (m, nonce, rand)) as RO.
  unfold post in R. match type of R with match ?x with _ => _ end => destruct x as [aggs'|e] eqn:E end.
  - destruct R as (outs & (LO & FO) & VS & EA). destruct (proj1 (RO aggs' (eq_sym H2)) E) as (outs' & Q & Z). rewrite Q.
    pose proof (vdaf_outputs_length V ctx tt key _ _ Q) as LV. change (length outs' = p3_SHARES p) in LV.
    enough (outs' = outs) by congruence. rewrite H2 in LO. destruct outs as [|o0 [|o1 [|]]]; try discriminate LO.
    inversion FO as [|? ? L0 FO1]; inversion FO1 as [|? ? L1 _]; subst aggs'.
    cbn [zip_with aggs] in Z. rewrite !zip_zeros in Z by assumption.
    apply zipM_Ok in Z; [|rewrite H2 in LV; rewrite LV; reflexivity]. destruct Z as (_ & Z).
    rewrite H2 in LV. destruct outs' as [|a [|b [|]]]; try discriminate LV.
    pose proof (Z 0 _ _ _ eq_refl eq_refl eq_refl) as Z0. pose proof (Z 1 _ _ _ eq_refl eq_refl eq_refl) as Z1.
    change (vec_add (fzeros OL) a = Ok o0) in Z0. change (vec_add (fzeros OL) b = Ok o1) in Z1.
    apply vec_add_Ok in Z0 as (La & ->), Z1 as (Lb & ->). unfold fzeros in La, Lb. rewrite repeat_length in La, Lb.
    rewrite !zip_zeros by (now symmetry). reflexivity.
  - destruct (vdaf_outputs V ctx tt key (m, nonce, rand)) as [outs|e'] eqn:Q; [|destruct R as [(_ & R)|(msg & _ & R)]; [now left|now right]].
    exfalso. pose proof Q as Q'. apply bind_Ok in Q' as ((ps & iss) & S & VR). change (p3_shard p ctx m nonce rand = Ok (ps, iss)) in S.
    destruct (shard_wf p lim HO good valid HF ctx m nonce rand ps iss Hc EN S) as (Li & WP & WI).
    destruct (report_robust p lim HO good valid HF key ctx Hc Hk nonce ps iss outs WP) as ((LO & FO) & _); [|exact VR|].
    { intros j is EJ. assert (Hj : j < length iss) by (apply nth_error_Some; intros N; pose proof (eq_trans (eq_sym EJ) N) as X; discriminate X).
      rewrite <- (nth_error_nth _ _ is EJ). apply WI. rewrite <- Li. exact Hj. }
    rewrite H2 in LO. destruct outs as [|a [|b [|]]]; try discriminate LO.
    inversion FO as [|? ? L0 FO1]; inversion FO1 as [|? ? L1 _]; subst.
    enough (RR : run_report V key ctx tt aggs (m, nonce, rand) = Ok [a; b]) by (pose proof (eq_trans (eq_sym RR) E) as X; discriminate X).
    apply (proj2 (RO [a; b] (eq_sym H2))). exists [a; b]. split; [reflexivity|].
    apply zipM_Ok; [reflexivity|]. split; [reflexivity|].
    intros [|[|j]] x o y E0 E1 E2; cbn [nth_error aggs] in E0, E1, E2;
      [injection E0 as <-; injection E1 as <-; injection E2 as <-| injection E0 as <-; injection E1 as <-; injection E2 as <-|destruct j; discriminate E0].
    + apply (proj2 (vec_add_Ok (fzeros OL) a a)). unfold fzeros at 1. rewrite repeat_length, zip_zeros by exact L0. auto.
    + apply (proj2 (vec_add_Ok (fzeros OL) b b)). unfold fzeros at 1. rewrite repeat_length, zip_zeros by exact L1. auto.
Qed.

Theorem honest_counted m meas nonce rand out : encodable p (m, nonce, rand) ->
  flp_encode flp m = Ok meas -> (forall jr, length jr = JOINT_RAND_LEN flp -> valid meas jr) -> flp_truncate flp meas = Ok out ->
  ran_out p \/
  exists u, upload V ctx (m, nonce, rand) = Ok u /\ nonce_of u = nonce /\
    (counted V ctx key [] u = false <-> bad_query p good key ctx nonce) /\
    (counted V ctx key [] u = true -> contribution p ctx key u = out).
Proof.
  intros EN En HV HT. pose proof (honest_outputs m meas nonce rand out EN En HV HT) as HO'.
  pose proof (p3_wire p lim HO H2 good valid HF key ctx Hc Hk (m, nonce, rand) EN) as W.
  pose proof (verified_one V ctx key [] tt H2 ltac:(cbn; lia) inv (p3_exchangeable p lim HO ctx Hfit Hc) eq_refl (m, nonce, rand) W) as V1.
  pose proof (accepted_not_bad p lim HO H2 good valid HF key ctx Hc Hk m nonce rand EN) as NB. unfold report_accepted in NB.
  assert (UP : ran_out p \/ exists u, upload V ctx (m, nonce, rand) = Ok u /\ nonce_of u = nonce).
  { destruct EN as (Ln & Lr & meas' & En' & Lm). cbn [fst snd] in Ln, Lr, En', Lm.
    pose proof (shard_post p lim HO good valid HF ctx m meas' nonce rand Hc Ln Lr En' Lm) as HP.
    destruct (p3_shard p ctx m nonce rand) as [(ps & iss)|e] eqn:S; [right|left; apply HP].
    destruct (W ps iss S) as (is0 & is1 & bps & b0 & b1 & -> & E1 & _ & E2 & _ & E3 & _).
    exists (nonce, bps, b0, b1). split; [|reflexivity]. unfold upload. change (vd_shard V) with (p3_shard p). rewrite S. cbn [bind].
    change (get [is0; is1] 0) with (Ok is0). change (get [is0; is1] 1) with (Ok is1). cbn [bind]. now rewrite E1, E2, E3. }
  destruct UP as [O|(u & EU & NU)]; [now left|].
  destruct (vdaf_outputs V ctx tt key (m, nonce, rand)) as [outs|e].
  - right. exists u. split; [exact EU|]. split; [exact NU|].
    destruct V1 as (u' & (o0 & o1) & EU' & PV & T). rewrite EU in EU'. injection EU' as <-. unfold counted, contribution. rewrite PV.
    split; [split; [discriminate|]; intros B; now apply NB in B|]. intros _. unfold two in T. cbn [fst snd] in T. now subst outs.
  - destruct HO' as [O|B]; [now left|]. right. exists u. split; [exact EU|]. split; [exact NU|].
    specialize (V1 u EU). unfold counted. rewrite V1. split; [tauto|discriminate].
Qed.
End R.
