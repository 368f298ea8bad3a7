(** The deployment of Prio3 and Poplar1. *)
From Verif Require Import RobustSpec DeploySpec DeployFacts RunSpec RunFacts PingPongSpec PingPongInst Prio3 Prio3Spec FlpSpec Poplar1 Poplar1Spec.
From Verif Require Import MeasFacts CircuitInstances FlpInstances FlpProofs CircuitSpec Circuits Flp FlpBBCGGI19 Field Spec Roots RangeInt BaseFacts PostFacts Prio3Facts Prio3Run Prio3Props Prio3Inst IdpfSpec IdpfFacts IdpfInst Poplar1Props Poplar1Run Poplar1End.
Open Scope nat_scope.

Section P3.
Context (p : Prio3) (lim : Z) (HO : Prio3Ok p lim) (H2 : p3_SHARES p = 2).
Notation flp := (p3_flp p).
Notation F := (F (p3_field p)).
Notation Rep := (Measurement (p3_flp p) * bytes * bytes)%type.
Context (good : list F -> Prop) (valid : list F -> list F -> Prop) (HF : FlpOk flp good valid).
Context (key ctx : bytes) (Hfit : p3_message_fits p) (Hc : ctx_ok ctx) (Hk : length key = p3_VERIFY_KEY_SIZE p).
Notation V := (Prio3Vdaf p).
Notation inv := (fun _ s0 _ s1 => verifier_share_wf p s0 /\ verifier_share_wf p s1).

Lemma p3_public_carries ps : public_share_wf p ps -> exists b, p3_encode_public_share ps = Ok b /\ p3_decode_public_share p b = Ok ps.
Proof.
  intros W. destruct (Nat.eq_dec (JOINT_RAND_LEN flp) 0) as [J|J].
  - unfold public_share_wf in W. rewrite J in W. cbn [Nat.ltb Nat.leb] in W. subst ps.
    destruct (public_share_codec_none p J) as (E & D). eauto.
  - exact (proj1 (public_share_codec p ltac:(lia)) ps W).
Qed.

Notation encodable := (encodable p).

Lemma shard_wf ctx' m nonce rand ps iss : ctx_ok ctx' -> encodable (m, nonce, rand) -> p3_shard p ctx' m nonce rand = Ok (ps, iss) ->
  length iss = p3_SHARES p /\ public_share_wf p ps /\ forall j d, j < p3_SHARES p -> input_share_wf p j (nth j iss d).
Proof.
  intros Hc' (Ln & Lr & meas & En & Lm) S. cbn [fst snd] in *.
  pose proof (shard_post p lim HO good valid HF ctx' m meas nonce rand Hc' Ln Lr En Lm) as HP. rewrite S in HP.
  destruct HP as (ms & prs & blinds & psd & pr & jr & proofs & R).
  split; [exact (rp_len _ _ _ _ _ _ _ _ _ _ _ _ _ _ R)|]. split; [exact (rp_public _ _ _ _ _ _ _ _ _ _ _ _ _ _ R)|].
  exact (rp_wf _ _ _ _ _ _ _ _ _ _ _ _ _ _ R).
Qed.

Lemma p3_init_wf j nonce ps is st sh : j < p3_SHARES p -> input_share_wf p j is -> public_share_wf p ps ->
  p3_verify_init p key ctx j tt nonce ps is = Ok (st, sh) -> verifier_share_wf p sh /\ ~ bad_query p good key ctx nonce.
Proof.
  intros Hj WI WP E. pose proof (p3_verify_init_post p lim HO good valid HF key ctx j nonce ps is Hc Hk Hj WI WP) as HP.
  rewrite E in HP. destruct HP as (_ & _ & W & N). auto.
Qed.

Lemma p3_wire r : encodable r -> wire_ok V ctx key tt inv r.
Proof.
  destruct r as ((m & nonce) & rand). intros EN ps iss S.
  change (p3_shard p ctx m nonce rand = Ok (ps, iss)) in S.
  destruct (shard_wf ctx m nonce rand ps iss Hc EN S) as (L & WP & WI). rewrite H2 in L, WI.
  destruct iss as [|is0 [|is1 [|]]]; try discriminate L.
  pose proof (WI 0 is0 ltac:(lia)) as W0. pose proof (WI 1 is0 ltac:(lia)) as W1. cbn [nth] in W0, W1.
  destruct (p3_public_carries ps WP) as (bps & E1 & D1).
  destruct (proj1 (input_share_codec p (po_field _ _ HO) 0) _ W0) as (b0 & E2 & D2).
  destruct (proj1 (input_share_codec p (po_field _ _ HO) 1) _ W1) as (b1 & E3 & D3).
  exists is0, is1, bps, b0, b1. repeat (split; [first [reflexivity | assumption]|]).
  intros st0 s0 st1 s1 V0 V1. split.
  - refine (proj1 (p3_init_wf 0 nonce ps is0 st0 s0 _ W0 WP V0)). lia.
  - refine (proj1 (p3_init_wf 1 nonce ps is1 st1 s1 _ W1 WP V1)). lia.
Qed.

Lemma accepted_not_bad m nonce rand : encodable (m, nonce, rand) ->
  report_accepted V ctx key tt (m, nonce, rand) = true -> ~ bad_query p good key ctx nonce.
Proof.
  intros EN A. unfold report_accepted, vdaf_outputs in A.
  destruct (vd_shard V ctx m nonce rand) as [[ps iss]|e] eqn:S; cbn [bind] in A; [|discriminate A].
  change (p3_shard p ctx m nonce rand = Ok (ps, iss)) in S.
  destruct (shard_wf ctx m nonce rand ps iss Hc EN S) as (L & WP & WI).
  destruct iss as [|is0 iss]; [rewrite H2 in L; discriminate L|].
  unfold verify_report in A. change (vd_SHARES V) with (p3_SHARES p) in A. rewrite H2 in A.
  change (range 0 2) with [0; 1] in A. cbn [mapM] in A. change (get (is0 :: iss) 0) with (Ok is0) in A. cbn [bind] in A.
  destruct (vd_verify_init V key ctx 0 tt nonce ps is0) as [[st sh]|e] eqn:E; cbn [bind] in A; [|discriminate A].
  pose proof (WI 0 is0 ltac:(lia)) as W0. cbn [nth] in W0.
  refine (proj2 (p3_init_wf 0 nonce ps is0 st sh _ W0 WP E)). lia.
Qed.

Lemma rejected_bad r res : encodable r -> run_result p good key ctx [r] res -> report_accepted V ctx key tt r = false ->
  ran_out p \/ bad_query p good key ctx (snd (fst r)).
Proof.
  intros EN R A. destruct R as [R|[(_ & R)|(msg & _ & m & nonce & rand & [E|[]] & B)]]; [|now left|right; rewrite E; exact B].
  exfalso. apply run_vdaf_Ok in R as (_ & outs & aggs & M & _). cbn [mapM] in M. unfold report_accepted in A.
  destruct (vdaf_outputs V ctx tt key r); [discriminate A|discriminate M].
Qed.

Lemma rejected_all (expected : list Rep -> AggResult flp) ms : Forall encodable ms ->
  (forall r, In r ms -> run_result p good key ctx [r] (expected [r])) ->
  ran_out p \/ forall r, In r ms -> report_accepted V ctx key tt r = false -> bad_query p good key ctx (snd (fst r)).
Proof.
  induction 1 as [|r ms EN _ IH]; intros R; [right; intros ? []|].
  destruct (IH (fun r' H => R r' (or_intror H))) as [O|IH']; [now left|].
  destruct (report_accepted V ctx key tt r) eqn:A.
  - right. intros r' [<-|I] A'; [congruence|auto].
  - destruct (rejected_bad r _ EN (R r (or_introl eq_refl)) A) as [O|B]; [now left|].
    right. intros r' [<-|I] A'; auto.
Qed.

Theorem p3_deploy (expected : list Rep -> AggResult flp) ms : Forall encodable ms ->
  (forall ms', incl ms' ms -> run_result p good key ctx ms' (expected ms')) ->
  ran_out p \/
  exists f, deploy V ctx key [] tt ms = Ok (expected (filter f ms)) /\
    forall m nonce rand, In (m, nonce, rand) ms -> f (m, nonce, rand) = false <-> bad_query p good key ctx nonce.
Proof.
  intros EN R.
  destruct (rejected_all expected ms EN) as [O|RB]; [intros r I; apply R; intros x [<-|[]]; exact I|now left|].
  pose proof (R (filter (report_accepted V ctx key tt) ms) ltac:(intros x I; apply filter_In in I; tauto)) as RF.
  assert (NB : forall m nonce rand, In (m, nonce, rand) ms -> report_accepted V ctx key tt (m, nonce, rand) = false <-> bad_query p good key ctx nonce).
  { intros m nonce rand I. split; [exact (RB _ I)|]. intros B. destruct (report_accepted V ctx key tt (m, nonce, rand)) eqn:A; [|reflexivity].
    exfalso. rewrite Forall_forall in EN. exact (accepted_not_bad m nonce rand (EN _ I) A B). }
  destruct RF as [RF|[(_ & RF)|(msg & _ & m & nonce & rand & I & B)]]; [|now left|].
  - right. exists (report_accepted V ctx key tt). split; [|exact NB].
    refine (proj2 (deploy_run V ctx key [] tt H2 _ Hk inv (p3_exchangeable p lim HO ctx Hfit Hc) _ ms _ _ _) RF).
    + cbn. lia.
    + reflexivity.
    + eapply Forall_impl; [|exact EN]. exact p3_wire.
    + intros outs a _. exact (proj1 (proj1 (share_codec p (po_field _ _ HO))) a I).
  - apply filter_In in I as (I & A). pose proof (proj2 (NB m nonce rand I) B) as X. congruence.
Qed.
End P3.

Section P1.
Context (p : Poplar1) (lim : Z) (HO : Poplar1Ok p lim).
Context (HWi : wf_field (id_field_inner (p1_idpf p))) (HWl : wf_field (id_field_leaf (p1_idpf p))) (Hfit : p1_message_fits p).
Notation V := (p1_vdaf p).

Lemma p1_fold_class ap : forall outs a a', foldM (p1_agg_update p ap) outs a = Ok a' -> of_class p (fst ap) a -> of_class p (fst ap) a'.
Proof.
  induction outs as [|o outs IH]; intros a a' E C; cbn [foldM] in E; [now injection E as <-|].
  apply bind_Ok in E as (b & E1 & E2). exact (IH b a' E2 (fv_add_class p _ _ _ _ E1 C)).
Qed.

Lemma p1_wire key ctx ap r : ctx_ok ctx -> length (fst (fst r)) = id_BITS (p1_idpf p) ->
  length (snd (fst r)) = p1_NONCE_SIZE -> length (snd r) = p1_RAND_SIZE p ->
  wire_ok V ctx key ap (p1_inv p) r.
Proof.
  destruct r as ((m & nonce) & rand). cbn [fst snd]. intros Hc Lm Ln Lr ps iss S.
  change (p1_shard p ctx m nonce rand = Ok (ps, iss)) in S.
  pose proof (Poplar1Facts.shard_post1 p lim HO 0 ctx m nonce rand Hc Lm Ln Lr) as HP. rewrite S in HP.
  destruct HP as (k0 & k1 & s0 & s1 & ss & ks & kl & ci0 & ci1 & cl0 & cl1 & oi0 & oi1 & ol0 & ol1 & R).
  destruct (pk_idpf _ _ HO) as [lim' HI].
  assert (WP : idpf_public_wf (p1_idpf p) ps).
  { pose proof (r1_gen _ _ _ _ _ _ _ _ _ _ _ _ _ _ _ _ _ _ _ _ _ _ R) as G.
    destruct (r1_keys _ _ _ _ _ _ _ _ _ _ _ _ _ _ _ _ _ _ _ _ _ _ R) as (K0 & K1).
    assert (HG : gen_args_ok (p1_idpf p) m (map (fun k => [fof 1; k]) ks) [fof 1; kl] ctx nonce (k0 ++ k1)).
    { constructor; try easy.
      - rewrite map_length. exact (r1_ks _ _ _ _ _ _ _ _ _ _ _ _ _ _ _ _ _ _ _ _ _ _ R).
      - apply Forall_forall. intros x Hx. apply in_map_iff in Hx. destruct Hx as (k & <- & _). now rewrite (pk_value _ _ HO).
      - now rewrite (pk_value _ _ HO).
      - now rewrite (pk_nonce _ _ HO).
      - rewrite app_length, K0, K1. unfold id_RAND_SIZE, id_KEY_SIZE. lia. }
    pose proof (gen_total (p1_idpf p) lim' HI _ _ _ _ _ _ HG) as T. rewrite G in T. exact (proj1 T). }
  exists (k0, s0, ci0, cl0), (k1, s1, ci1, cl1).
  destruct (proj1 (IdpfCodec.idpf_public_codec (p1_idpf p) HWi HWl (io_bits _ _ HI)) ps WP) as (bps & E1 & D1).
  assert (W0 : p1_input_share_wf p (k0, s0, ci0, cl0)).
  { destruct (r1_keys _ _ _ _ _ _ _ _ _ _ _ _ _ _ _ _ _ _ _ _ _ _ R), (r1_seeds _ _ _ _ _ _ _ _ _ _ _ _ _ _ _ _ _ _ _ _ _ _ R) as (? & ? & _),
     (r1_len_i _ _ _ _ _ _ _ _ _ _ _ _ _ _ _ _ _ _ _ _ _ _ R), (r1_len_l _ _ _ _ _ _ _ _ _ _ _ _ _ _ _ _ _ _ _ _ _ _ R). now split. }
  assert (W1 : p1_input_share_wf p (k1, s1, ci1, cl1)).
  { destruct (r1_keys _ _ _ _ _ _ _ _ _ _ _ _ _ _ _ _ _ _ _ _ _ _ R), (r1_seeds _ _ _ _ _ _ _ _ _ _ _ _ _ _ _ _ _ _ _ _ _ _ R) as (? & ? & _),
     (r1_len_i _ _ _ _ _ _ _ _ _ _ _ _ _ _ _ _ _ _ _ _ _ _ R), (r1_len_l _ _ _ _ _ _ _ _ _ _ _ _ _ _ _ _ _ _ _ _ _ _ R). now split. }
  destruct (proj1 (p1_input_codec p HWi HWl 0) _ W0) as (b0 & E2 & D2).
  destruct (proj1 (p1_input_codec p HWi HWl 1) _ W1) as (b1 & E3 & D3).
  exists bps, b0, b1. split; [exact (r1_iss _ _ _ _ _ _ _ _ _ _ _ _ _ _ _ _ _ _ _ _ _ _ R)|].
  repeat (split; [assumption|]).
  intros st0 sh0 st1 sh1 V0 V1.
  apply init_state in V0 as (m0 & -> & _ & L0 & C0 & D0'). apply init_state in V1 as (m1 & -> & _ & L1 & C1 & D1').
  exists (fst ap). cbn [fst snd]. repeat split; try assumption; lia.
Qed.

Theorem p1_deploy key ctx agg_param level prefixes ms :
  p1_decode_agg_param agg_param = Ok (Z.of_nat level, prefixes) ->
  NoDup prefixes -> Forall (fun x => length x = S level) prefixes ->
  ctx_ok ctx -> length key = p1_VERIFY_KEY_SIZE p -> level < id_BITS (p1_idpf p) -> (Z.of_nat level < 65536)%Z ->
  p1_sizes_ok p ms -> Forall (fun r => length (fst (fst r)) = id_BITS (p1_idpf p)) ms ->
  p1_ran_out p (length prefixes) \/
  deploy V ctx key agg_param (Z.of_nat level, prefixes) ms
  = Ok (map (fun x => (Z.of_nat (count_prefix x (map (fun r => fst (fst r)) ms)) mod level_modulus p level)%Z) prefixes).
Proof.
  intros DA Hnd Hpl Hc Hk Hl H16 Hs Hm.
  set (ap := (Z.of_nat level, prefixes)) in *.
  assert (AC : p1_ran_out p (length prefixes) \/ filter (report_accepted V ctx key ap) ms = ms).
  { assert (FS : Forall (fun r : list bool * bytes * bytes => length (snd (fst r)) = p1_NONCE_SIZE /\ length (snd r) = p1_RAND_SIZE p) ms).
    { eapply Forall_impl; [|exact Hs]. intros ((? & ?) & ?) H. exact H. }
    clear Hs. induction ms as [|r ms IH]; [now right|].
    inversion FS as [|? ? FS1 FS2]; inversion Hm as [|? ? Hm1 Hm2]; subst.
    destruct (IH Hm2 FS2) as [O|E]; [now left|]. cbn [filter]. rewrite E.
    assert (SZ : p1_sizes_ok p [r]) by (constructor; [destruct r as ((? & ?) & ?); exact FS1|constructor]).
    assert (R : Forall (fun r : list bool * bytes * bytes => length (fst (fst r)) = id_BITS (p1_idpf p)) [r]) by (constructor; [exact Hm1|constructor]).
    destruct (run_ok1 p lim HO (length prefixes) key ctx level prefixes [r] eq_refl Hnd Hpl Hc Hk Hl H16 SZ R) as [X|(_ & O)]; [|now left].
    right. apply run_vdaf_Ok in X as (_ & outs & aggs & M & _). cbn [mapM] in M. unfold report_accepted.
    destruct (vdaf_outputs V ctx ap key r) eqn:Q; [reflexivity|]. fold ap in M. rewrite Q in M. discriminate M. }
  destruct AC as [O|AC]; [now left|].
  destruct (run_ok1 p lim HO (length prefixes) key ctx level prefixes ms eq_refl Hnd Hpl Hc Hk Hl H16 Hs Hm) as [X|(_ & O)]; [|now left].
  right. refine (proj2 (deploy_run V ctx key agg_param ap eq_refl _ Hk (p1_inv p) (p1_exchangeable p HWi HWl ctx ap Hfit) DA ms _ _ _) _).
  - cbn. unfold p1_ROUNDS. lia.
  - rewrite Forall_forall in *. intros r I. unfold p1_sizes_ok in Hs. rewrite Forall_forall in Hs. specialize (Hs r I).
    apply p1_wire; [exact Hc|exact (Hm r I)|destruct r as ((? & ?) & ?); apply Hs|destruct r as ((? & ?) & ?); apply Hs].
  - intros outs a E. apply bind_Ok in E as (i & E1 & E2).
    assert (C : of_class p (fst ap) i).
    { change (p1_agg_init p ap = Ok i) in E1. unfold p1_agg_init, ap in E1. cbn [fst ap]. unfold of_class.
      destruct (level_is_inner p (Z.of_nat level)) eqn:Q; injection E1 as <-; reflexivity. }
    exact (proj1 (field_vec_codec p HWi HWl (fst ap)) a (p1_fold_class ap outs i a E2 C)).
  - rewrite AC. exact X.
Qed.
End P1.

Section Std.
Context (P : NttFieldClass) (HP : NttOk P) (HW : wf_field P).
Context (ID : Z) (HID : (0 <= ID < 2 ^ 32)%Z) (ts : TurboShake) (bound proofs : nat).
Context (HsM : (Z.of_nat 2 < MODULUS P)%Z) (Hpr : proofs < 256).
Context (key ctx : bytes) (Hc : ctx_ok ctx) (Hk : length key = 32).
Notation obj v := (prio3_obj P ID v ts bound 2 proofs).

Lemma two_shares : 2 <= 2 < 256.
Proof. lia. Qed.

Lemma std_deploy v (ok : vMeasurement v -> Prop) expected ms : std_circuit P v -> p3_message_fits (obj v) ->
  (forall m, ok m -> exists enc, valid_encode v m = Ok enc /\ length enc = vMEAS_LEN v) ->
  (forall ms', sizes_ok (obj v) ms' -> Forall ok (map meas_of ms') -> run_result (obj v) (test_points_ok v) key ctx ms' (expected ms')) ->
  sizes_ok (obj v) ms -> Forall ok (map meas_of ms) ->
  deploy_result (obj v) (test_points_ok v) key ctx ms expected.
Proof.
  intros Hv Hfit EN R SZ OK.
  apply (p3_deploy (obj v) (obj_lim P bound) (obj_ok P HW ID HID ts bound 2 proofs two_shares HsM Hpr v) eq_refl
    (test_points_ok v) (circuit_zero v) (std_flp P HP ID ts bound 2 proofs v Hv) key ctx Hfit Hc Hk expected ms).
  - rewrite Forall_map in OK. unfold sizes_ok in SZ. rewrite Forall_forall in *. intros ((m & nonce) & rand) I.
    specialize (SZ _ I). specialize (OK _ I). cbn in SZ. destruct SZ as (S1 & S2).
    destruct (EN m OK) as (enc & E & L). split; [exact S1|]. split; [exact S2|]. exists enc. split; [exact E|exact L].
  - intros ms' I. apply R.
    + unfold sizes_ok in *. rewrite Forall_forall in *. intros x Hx. exact (SZ x (I x Hx)).
    + rewrite Forall_map in *. rewrite Forall_forall in *. intros x Hx. exact (OK x (I x Hx)).
Qed.

Theorem deploy_count ms : fits P Mul 1 -> p3_message_fits (obj (Count P)) -> sizes_ok (obj (Count P)) ms ->
  Forall (fun m => m = 0 \/ m = 1)%Z (map meas_of ms) ->
  deploy_result (obj (Count P)) (test_points_ok (Count P)) key ctx ms (fun ms' => zsuml (map meas_of ms') mod MODULUS P)%Z.
Proof.
  intros Hf Hfit SZ OK. apply (std_deploy (Count P) (fun m => m = 0 \/ m = 1)%Z); try assumption.
  - now apply std_Count.
  - intros m H. exists [fof m]. destruct (Count_encode HP m H) as (A & _). now split.
  - intros ms' S' O'. exact (run_count P HP HW ID HID ts bound 2 proofs two_shares HsM Hpr key ctx Hc Hk ms' Hf S' O').
Qed.

Theorem deploy_sum max ms : (0 < max)%Z -> (2 ^ Z.of_nat (bit_length max) < MODULUS P)%Z ->
  fits P (Sum_gadget (bit_length max)) (bit_length max) -> p3_message_fits (obj (Sum P max)) ->
  sizes_ok (obj (Sum P max)) ms -> Forall (fun m => 0 <= m <= max)%Z (map meas_of ms) ->
  deploy_result (obj (Sum P max)) (test_points_ok (Sum P max)) key ctx ms (fun ms' => zsuml (map meas_of ms') mod MODULUS P)%Z.
Proof.
  intros H0 H1 Hf Hfit SZ OK. apply (std_deploy (Sum P max) (fun m => 0 <= m <= max)%Z); try assumption.
  - eapply std_Sum; [apply Sum_init_Ok; split; [exact H1 | reflexivity] | easy | easy].
  - intros m H. destruct (Sum_encode HP max H0 H1 m H) as (enc & A & B & _). exists enc. now split.
  - intros ms' S' O'. exact (run_sum P HP HW ID HID ts bound 2 proofs two_shares HsM Hpr key ctx Hc Hk max ms' H0 H1 Hf S' O').
Qed.

Theorem deploy_sumvec len max chunk ms : 1 <= len -> 1 <= chunk ->
  (0 < max)%Z -> (2 ^ Z.of_nat (bit_length max) < MODULUS P)%Z ->
  fits P (ParallelSum Mul chunk) (SumVec_calls len (bit_length max) chunk) ->
  p3_message_fits (obj (SumVec P len max chunk)) -> sizes_ok (obj (SumVec P len max chunk)) ms ->
  Forall (fun m => length m = len /\ Forall (fun x => 0 <= x <= max)%Z m) (map meas_of ms) ->
  deploy_result (obj (SumVec P len max chunk)) (test_points_ok (SumVec P len max chunk)) key ctx ms
    (fun ms' => map (fun x => x mod MODULUS P)%Z (col_totals len (map meas_of ms'))).
Proof.
  intros Hl Hch H0 H1 Hf Hfit SZ OK.
  apply (std_deploy (SumVec P len max chunk) (fun m => length m = len /\ Forall (fun x => 0 <= x <= max)%Z m)); try assumption.
  - apply (std_SumVec P (Z.of_nat len) max (Z.of_nat chunk)).
    + apply SumVec_init_Ok. rewrite !Nat2Z.id. repeat split; try easy; lia.
    + now rewrite !Nat2Z.id.
  - intros m (L & H). destruct (SumVec_encode HP len max chunk Hl Hch H0 H1 m L H) as (enc & A & B & _). exists enc. now split.
  - intros ms' S' O'. exact (run_sumvec P HP HW ID HID ts bound 2 proofs two_shares HsM Hpr key ctx Hc Hk len max chunk ms' Hl Hch H0 H1 Hf S' O').
Qed.

Theorem deploy_histogram len chunk ms : 1 <= len -> 1 <= chunk ->
  fits P (ParallelSum Mul chunk) (Histogram_calls len chunk) ->
  p3_message_fits (obj (Histogram P len chunk)) -> sizes_ok (obj (Histogram P len chunk)) ms ->
  Forall (fun m => 0 <= m < Z.of_nat len)%Z (map meas_of ms) ->
  deploy_result (obj (Histogram P len chunk)) (test_points_ok (Histogram P len chunk)) key ctx ms
    (fun ms' => map (fun i => Z.of_nat (count_occ Z.eq_dec (map meas_of ms') (Z.of_nat i)) mod MODULUS P)%Z (seq 0 len)).
Proof.
  intros Hl Hch Hf Hfit SZ OK.
  apply (std_deploy (Histogram P len chunk) (fun m => 0 <= m < Z.of_nat len)%Z); try assumption.
  - apply (std_Histogram P (Z.of_nat len) (Z.of_nat chunk)).
    + apply Histogram_init_Ok. rewrite !Nat2Z.id. repeat split; try easy; lia.
    + now rewrite !Nat2Z.id.
  - intros m H. destruct (Histogram_encode HP len chunk Hl Hch m H) as (A & _). exists (onehot len (Z.to_nat m)). split; [exact A|apply onehot_length].
  - intros ms' S' O'. exact (run_histogram P HP HW ID HID ts bound 2 proofs two_shares HsM Hpr key ctx Hc Hk len chunk ms' Hl Hch Hf S' O').
Qed.

Theorem deploy_multihot len mw chunk ms : 1 <= len -> 1 <= mw <= len -> (Z.of_nat len < MODULUS P)%Z -> 1 <= chunk ->
  fits P (ParallelSum Mul chunk) (Multihot_calls len mw chunk) ->
  p3_message_fits (obj (MultihotCountVec P len mw chunk)) -> sizes_ok (obj (MultihotCountVec P len mw chunk)) ms ->
  Forall (fun m => length m = len /\ (weight m <= Z.of_nat mw)%Z) (map meas_of ms) ->
  deploy_result (obj (MultihotCountVec P len mw chunk)) (test_points_ok (MultihotCountVec P len mw chunk)) key ctx ms
    (fun ms' => map (fun i => Z.of_nat (length (filter (fun m => nth i m false) (map meas_of ms'))) mod MODULUS P)%Z (seq 0 len)).
Proof.
  intros Hl Hmw HlM Hch Hf Hfit SZ OK.
  apply (std_deploy (MultihotCountVec P len mw chunk) (fun m => length m = len /\ (weight m <= Z.of_nat mw)%Z)); try assumption.
  - apply (std_MultihotCountVec P (Z.of_nat len) (Z.of_nat mw) (Z.of_nat chunk)).
    + apply MultihotCountVec_init_Ok. rewrite !Nat2Z.id. repeat split; try easy; lia.
    + now rewrite !Nat2Z.id.
  - intros m (L & H). destruct (MultihotCountVec_encode HP len mw chunk Hl (proj1 Hmw) ltac:(lia) Hch m L H) as (enc & A & B & _). exists enc. now split.
  - intros ms' S' O'. exact (run_multihot P HP HW ID HID ts bound 2 proofs two_shares HsM Hpr key ctx Hc Hk len mw chunk ms' Hl Hmw HlM Hch Hf S' O').
Qed.
End Std.
