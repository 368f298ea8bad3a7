(** Prio3 as listed in the document and in the reference code: proofs. *)
From Verif Require Import Draft DraftSpec DraftFacts BaseFacts Poplar1Inst.
From Coq Require Import Lia.
Open Scope nat_scope.

Section P3Same.
Context {P : NttFieldClass} (v : Valid P) enc trunc ev (H : circuit_same v enc trunc ev) (HP : 0 < ENCODED_SIZE P).
Context (ID : Z) (ts : TurboShake) (bound shares proofs : nat).
Notation v' := (relist v enc trunc ev).
Notation X := (XofTurboShake128 ts bound).
Notation X' := (DraftXofTurboShake128 ts bound).
Let p : Prio3 := {| p3_field := P; p3_flp := FlpBBCGGI19 v; p3_xof := X; p3_ID := ID;
     p3_VERIFY_KEY_SIZE := 32; p3_SHARES := shares; p3_PROOFS := proofs |}.
Let p' : Prio3 := draft_prio3 ID v' ts bound shares proofs.

Lemma s_helper_meas ctx i s : same_unless_removed (helper_meas_share p ctx i s) (helper_meas_share p' ctx i s).
Proof. unfold helper_meas_share. apply same_bind; [apply same_refl|]. intros d. apply same_bind; [apply same_refl|]. intros b.
  left. symmetry. now apply draft_ts_expand. Qed.
Lemma s_helper_proofs ctx i s : same_unless_removed (helper_proofs_share p ctx i s) (helper_proofs_share p' ctx i s).
Proof. unfold helper_proofs_share. apply same_bind; [apply same_refl|]. intros d. apply same_bind; [apply same_refl|]. intros b.
  apply same_bind; [apply same_refl|]. intros b1. left. symmetry. now apply draft_ts_expand. Qed.
Lemma s_expand ctx i sh : same_unless_removed (expand_input_share p ctx i sh) (expand_input_share p' ctx i sh).
Proof.
  unfold expand_input_share. destruct (0 <? i); destruct sh; try apply same_refl.
  apply same_bind; [apply s_helper_meas|]. intros ms. apply same_bind; [apply s_helper_proofs|]. intros; apply same_refl.
Qed.
Lemma s_prove_rands ctx s : same_unless_removed (prove_rands p ctx s) (prove_rands p' ctx s).
Proof. unfold prove_rands. apply same_bind; [apply same_refl|]. intros d. apply same_bind; [apply same_refl|]. intros b.
  left. symmetry. now apply draft_ts_expand. Qed.
Lemma s_query_rands vk ctx n : same_unless_removed (query_rands p vk ctx n) (query_rands p' vk ctx n).
Proof. unfold query_rands. apply same_bind; [apply same_refl|]. intros d. apply same_bind; [apply same_refl|]. intros b.
  left. symmetry. now apply draft_ts_expand. Qed.
Lemma s_part ctx i b ms n : same_unless_removed (joint_rand_part p ctx i b ms n) (joint_rand_part p' ctx i b ms n).
Proof. unfold joint_rand_part. apply same_bind; [apply same_refl|]. intros d. apply same_bind; [apply same_refl|]. intros b0.
  apply same_bind; [apply same_refl|]. intros e. left. symmetry. apply draft_ts_derive. Qed.
Lemma s_seed ctx l : same_unless_removed (joint_rand_seed p ctx l) (joint_rand_seed p' ctx l).
Proof. unfold joint_rand_seed. apply same_bind; [apply same_refl|]. intros d. left. symmetry. apply draft_ts_derive. Qed.
Lemma s_joint_rands ctx s : same_unless_removed (joint_rands p ctx s) (joint_rands p' ctx s).
Proof. unfold joint_rands. apply same_bind; [apply same_refl|]. intros d. apply same_bind; [apply same_refl|]. intros b.
  left. symmetry. now apply draft_ts_expand. Qed.
Lemma s_leader_proofs ctx hs l : same_unless_removed (leader_proofs p ctx hs l) (leader_proofs p' ctx hs l).
Proof. unfold leader_proofs. apply same_for_range. intros x i. apply same_bind; [apply same_refl|]. intros s.
  apply same_bind; [apply s_helper_proofs|]. intros; apply same_refl. Qed.

Lemma s_shard0 ctx meas seeds : same_unless_removed (shard_without_joint_rand p ctx meas seeds) (shard_without_joint_rand p' ctx meas seeds).
Proof.
  unfold shard_without_joint_rand.
  apply same_bind; [apply same_refl|]. intros [hs seeds1]. apply same_bind; [apply same_refl|]. intros [ps_ seeds2].
  apply same_bind; [apply same_refl|]. intros ps.
  apply same_bind.
  { apply same_for_range. intros x i. apply same_bind; [apply same_refl|]. intros s.
    apply same_bind; [apply s_helper_meas|]. intros; apply same_refl. }
  intros lms. apply same_bind; [apply s_prove_rands|]. intros prs.
  apply same_bind.
  { apply same_for_range. intros [x r] i. apply same_bind; [apply same_refl|]. intros [pr r'].
    apply same_bind; [apply (prove_same v enc trunc ev H)|]. intros; apply same_refl. }
  intros [lps r]. apply same_bind; [apply s_leader_proofs|]. intros lps'. apply same_refl.
Qed.
Lemma s_shard1 ctx meas nonce seeds :
  same_unless_removed (shard_with_joint_rand p ctx meas nonce seeds) (shard_with_joint_rand p' ctx meas nonce seeds).
Proof.
  unfold shard_with_joint_rand.
  apply same_bind; [apply same_refl|]. intros [hs seeds1]. apply same_bind; [apply same_refl|]. intros even.
  apply same_bind; [apply same_refl|]. intros hsh. apply same_bind; [apply same_refl|]. intros odd.
  apply same_bind; [apply same_refl|]. intros hb. apply same_bind; [apply same_refl|]. intros [ls seeds2].
  apply same_bind; [apply same_refl|]. intros lb. apply same_bind; [apply same_refl|]. intros ps.
  apply same_bind.
  { apply same_for_range. intros [x parts] i. apply same_bind; [apply same_refl|]. intros s.
    apply same_bind; [apply s_helper_meas|]. intros h. apply same_bind; [apply same_refl|]. intros l.
    apply same_bind; [apply same_refl|]. intros bl. apply same_bind; [apply s_part|]. intros; apply same_refl. }
  intros [lms parts]. apply same_bind; [apply s_part|]. intros part. apply same_bind; [apply s_prove_rands|]. intros prs.
  apply same_bind; [apply s_seed|]. intros seed. apply same_bind; [apply s_joint_rands|]. intros jrs.
  apply same_bind.
  { apply same_for_range. intros [[x r] j] i. apply same_bind; [apply same_refl|]. intros [pr r'].
    apply same_bind; [apply same_refl|]. intros [jr j'].
    apply same_bind; [apply (prove_same v enc trunc ev H)|]. intros; apply same_refl. }
  intros [[lps r] j]. apply same_bind; [apply s_leader_proofs|]. intros lps'. apply same_refl.
Qed.

Lemma s_shard ctx m nonce rand : same_unless_removed (p3_shard p ctx m nonce rand) (p3_shard p' ctx m nonce rand).
Proof.
  unfold p3_shard. apply same_bind; [apply same_refl|]. intros _. apply same_bind; [apply same_refl|]. intros _.
  apply same_bind; [apply same_refl|]. intros starts. apply same_bind; [apply (proj1 H)|]. intros meas.
  change (JOINT_RAND_LEN (p3_flp p')) with (JOINT_RAND_LEN (p3_flp p)).
  destruct (0 <? _); [apply s_shard1|apply s_shard0].
Qed.

Lemma s_verify_joint_rand ctx i b ms n parts :
  same_unless_removed (verify_joint_rand p ctx i b ms n parts) (verify_joint_rand p' ctx i b ms n parts).
Proof.
  unfold verify_joint_rand. change (JOINT_RAND_LEN (p3_flp p')) with (JOINT_RAND_LEN (p3_flp p)).
  destruct (0 <? _); [|apply same_refl]. destruct b as [b|]; [|apply same_refl]. destruct parts as [parts|]; [|apply same_refl].
  apply same_bind; [apply s_part|]. intros part. apply same_bind; [apply same_refl|]. intros parts'.
  apply same_bind; [apply s_seed|]. intros c. apply same_bind; [apply s_joint_rands|]. intros; apply same_refl.
Qed.
Lemma s_verify_init vk ctx i n ps sh :
  same_unless_removed (p3_verify_init p vk ctx i tt n ps sh) (p3_verify_init p' vk ctx i tt n ps sh).
Proof.
  unfold p3_verify_init. apply same_bind; [apply s_expand|]. intros [[ms pfs] b].
  apply same_bind; [apply (proj1 (proj2 H))|]. intros out.
  apply same_bind; [apply s_verify_joint_rand|]. intros [[c part] jrs].
  apply same_bind; [apply s_query_rands|]. intros qrs.
  apply same_bind; [|intros [[[? ?] ?] ?]; apply same_refl].
  apply same_for_range. intros [[[vs pf] qr] jr] k. apply same_bind; [apply same_refl|]. intros [pf1 pf2].
  apply same_bind; [apply same_refl|]. intros [q1 q2]. apply same_bind; [apply same_refl|]. intros [j1 j2].
  apply same_bind; [apply (query_same v enc trunc ev H)|]. intros; apply same_refl.
Qed.
Lemma s_message ctx l :
  same_unless_removed (p3_verifier_shares_to_message p ctx tt l) (p3_verifier_shares_to_message p' ctx tt l).
Proof.
  unfold p3_verifier_shares_to_message. apply same_bind; [apply same_refl|]. intros [vs parts].
  apply same_bind.
  { apply same_for_range. intros x i. apply same_bind; [apply same_refl|]. intros [v1 v2].
    apply same_bind; [apply (decide_same v enc trunc ev)|]. intros; apply same_refl. }
  intros _. change (JOINT_RAND_LEN (p3_flp p')) with (JOINT_RAND_LEN (p3_flp p)).
  destruct (0 <? _); [|apply same_refl]. apply same_bind; [apply s_seed|]. intros; apply same_refl.
Qed.

Lemma s_run vk ctx ms :
  same_unless_removed (run_vdaf (Prio3Vdaf p) vk tt ctx ms) (draft_run_vdaf (Prio3Vdaf p') vk tt ctx ms).
Proof.
  unfold run_vdaf, draft_run_vdaf. apply same_check; [cbn; tauto|].
  apply same_bind; [apply same_refl|]. intros aggs.
  apply same_bind; [|intros; apply same_refl].
  apply same_foldM. intros acc [[m nonce] rand]. unfold run_report.
  apply same_bind; [apply s_shard|]. intros [ps shs].
  apply same_bind.
  { unfold run_verify_init. apply same_for_range. intros [a b] i. apply same_bind; [apply same_refl|]. intros sh.
    apply same_bind; [apply s_verify_init|]. intros [st vs]. apply same_refl. }
  intros [sts vss]. apply same_bind; [apply same_refl|]. intros [sts' vss'].
  unfold run_finish. apply same_bind; [apply s_message|]. intros msg. apply same_refl.
Qed.
End P3Same.

(** ** A VDAF with other sharding and preparation algorithms *)
Section Revdaf.
Context (V : Vdaf)
  (shard : bytes -> vd_Measurement V -> bytes -> bytes -> res (vd_PublicShare V * list (vd_InputShare V)))
  (init : bytes -> bytes -> nat -> vd_AggParam V -> bytes -> vd_PublicShare V -> vd_InputShare V -> res (vd_VerifyState V * vd_VerifierShare V)).
Definition revdaf : Vdaf := {|
  vd_Measurement := vd_Measurement V;
  vd_AggParam := vd_AggParam V;
  vd_PublicShare := vd_PublicShare V;
  vd_InputShare := vd_InputShare V;
  vd_OutShare := vd_OutShare V;
  vd_AggShare := vd_AggShare V;
  vd_AggResult := vd_AggResult V;
  vd_VerifyState := vd_VerifyState V;
  vd_VerifierShare := vd_VerifierShare V;
  vd_VerifierMessage := vd_VerifierMessage V;
  vd_ID := vd_ID V;
  vd_VERIFY_KEY_SIZE := vd_VERIFY_KEY_SIZE V;
  vd_NONCE_SIZE := vd_NONCE_SIZE V;
  vd_RAND_SIZE := vd_RAND_SIZE V;
  vd_SHARES := vd_SHARES V;
  vd_ROUNDS := vd_ROUNDS V;
  vd_shard := shard;
  vd_is_valid := vd_is_valid V;
  vd_verify_init := init;
  vd_verify_next := vd_verify_next V;
  vd_verifier_shares_to_message := vd_verifier_shares_to_message V;
  vd_agg_init := vd_agg_init V;
  vd_agg_update := vd_agg_update V;
  vd_merge := vd_merge V;
  vd_unshard := vd_unshard V;
  vd_encode_agg_param := vd_encode_agg_param V;
  vd_decode_agg_param := vd_decode_agg_param V;
  vd_encode_input_share := vd_encode_input_share V;
  vd_decode_input_share := vd_decode_input_share V;
  vd_encode_public_share := vd_encode_public_share V;
  vd_decode_public_share := vd_decode_public_share V;
  vd_encode_agg_share := vd_encode_agg_share V;
  vd_decode_agg_share := vd_decode_agg_share V;
  vd_encode_verifier_share := vd_encode_verifier_share V;
  vd_decode_verifier_share := vd_decode_verifier_share V;
  vd_encode_verifier_message := vd_encode_verifier_message V;
  vd_decode_verifier_message := vd_decode_verifier_message V;
  vd_encode_out_share := vd_encode_out_share V;
  vd_decode_out_share := vd_decode_out_share V |}.
Lemma revdaf_run vk ap ctx ms :
  (forall m nonce rand, same_unless_removed (vd_shard V ctx m nonce rand) (shard ctx m nonce rand)) ->
  (forall i nonce ps sh, same_unless_removed (vd_verify_init V vk ctx i ap nonce ps sh) (init vk ctx i ap nonce ps sh)) ->
  same_unless_removed (run_vdaf V vk ap ctx ms) (draft_run_vdaf revdaf vk ap ctx ms).
Proof.
  intros Hs Hi. unfold run_vdaf, draft_run_vdaf. apply same_check; [cbn; tauto|].
  apply same_bind; [apply same_refl|]. intros aggs.
  apply same_bind; [|intros; apply same_refl].
  apply same_foldM. intros acc [[m nonce] rand]. unfold run_report.
  apply same_bind; [apply Hs|]. intros [ps shs].
  apply same_bind.
  { unfold run_verify_init. apply same_for_range. intros [a b] i. apply same_bind; [apply same_refl|]. intros sh.
    apply same_bind; [apply Hi|]. intros [st vs]. apply same_refl. }
  intros [sts vss]. apply same_refl.
Qed.
End Revdaf.

(** ** Poplar1 *)
Section P1Same.
Context (ts : TurboShake) (aes : BlockCipher) (bound bits : nat).
Let p : Poplar1 := p1_obj ts aes bound bits.
Let p' : Poplar1 := draft_poplar1 ts aes bound bits.
Notation X := (XofTurboShake128 ts bound).
Notation X' := (DraftXofTurboShake128 ts bound).
Notation A := (XofFixedKeyAes128 ts aes bound).
Notation A' := (DraftXofFixedKeyAes128 ts aes bound).

Lemma x_next st len : 0 < len -> xof_next X' st len = xof_next X st len.
Proof. intros H. now apply draft_next. Qed.
Lemma x_vec P (HP : 0 < ENCODED_SIZE P) st len : next_vec X' P st len = next_vec X P st len.
Proof. exact (renext_vec X (xof_init X') (draft_ts_next ts) x_next P HP st len). Qed.
Lemma a_vec P (HP : 0 < ENCODED_SIZE P) st len : next_vec A' P st len = next_vec A P st len.
Proof. exact (renext_vec A (xof_init A') (xof_next A) (fun _ _ _ => eq_refl) P HP st len). Qed.

Lemma p_extend level seed ctx nonce :
  same_unless_removed (extend (p1_idpf p) level seed ctx nonce) (extend (p1_idpf p') level seed ctx nonce).
Proof.
  left. unfold extend. change (is_inner (p1_idpf p') level) with (is_inner (p1_idpf p) level).
  destruct (is_inner _ _); unfold extend_with; (destruct (format_dst 1 0 0) as [d|e]; [cbn [bind]|reflexivity]).
  - change (id_xof_inner (p1_idpf p')) with A'. rewrite draft_aes_init. reflexivity.
  - change (id_xof_leaf (p1_idpf p')) with X'. rewrite draft_ts_init. change (id_xof_leaf (p1_idpf p)) with X.
    destruct (xof_init X seed (d ++ ctx) nonce) as [st|e]; [cbn [bind]|reflexivity].
    change (id_KEY_SIZE (p1_idpf p')) with 16. change (id_KEY_SIZE (p1_idpf p)) with 16.
    rewrite x_next by lia. destruct (xof_next X st 16) as [[s0 st1]|e]; [cbn [bind]|reflexivity].
    rewrite x_next by lia. reflexivity.
Qed.
Lemma p_convert level seed ctx nonce :
  same_unless_removed (convert (p1_idpf p) level seed ctx nonce) (convert (p1_idpf p') level seed ctx nonce).
Proof.
  left. unfold convert. change (is_inner (p1_idpf p') level) with (is_inner (p1_idpf p) level).
  destruct (is_inner _ _); unfold convert_with; (destruct (format_dst 1 0 1) as [d|e]; [cbn [bind]|reflexivity]).
  - change (id_xof_inner (p1_idpf p')) with A'. rewrite draft_aes_init. change (id_xof_inner (p1_idpf p)) with A.
    destruct (xof_init A seed (d ++ ctx) nonce) as [st|e]; [cbn [bind]|reflexivity].
    change (xof_next A' st (id_KEY_SIZE (p1_idpf p'))) with (xof_next A st (id_KEY_SIZE (p1_idpf p))).
    destruct (xof_next A st _) as [[s0 st1]|e]; [cbn [bind]|reflexivity].
    rewrite a_vec by (cbn; lia). reflexivity.
  - change (id_xof_leaf (p1_idpf p')) with X'. rewrite draft_ts_init. change (id_xof_leaf (p1_idpf p)) with X.
    destruct (xof_init X seed (d ++ ctx) nonce) as [st|e]; [cbn [bind]|reflexivity].
    change (id_KEY_SIZE (p1_idpf p')) with 16. change (id_KEY_SIZE (p1_idpf p)) with 16.
    rewrite x_next by lia. destruct (xof_next X st 16) as [[s0 st1]|e]; [cbn [bind]|reflexivity].
    rewrite x_vec by (cbn; lia). reflexivity.
Qed.

Lemma p_gen alpha bi bl ctx nonce rand :
  same_unless_removed (idpf_gen (p1_idpf p) alpha bi bl ctx nonce rand) (idpf_gen (p1_idpf p') alpha bi bl ctx nonce rand).
Proof.
  unfold idpf_gen. do 4 (apply same_bind; [apply same_refl|]; intros _).
  apply same_bind; [|intros [[? ?] ?]; apply same_refl].
  apply same_for_range. intros [[seed ctrl] ps] level. unfold gen_level.
  apply same_bind; [apply same_refl|]. intros bit. apply same_bind; [apply p_extend|]. intros [s0 t0].
  apply same_bind; [apply p_extend|]. intros [s1 t1]. cbv zeta.
  match goal with |- same_unless_removed (let '(_, _) := ?c in _) _ => destruct c as [x0 c0] end.
  match goal with |- same_unless_removed (let '(_, _) := ?c in _) _ => destruct c as [x1 c1] end.
  apply same_bind; [apply p_convert|]. intros [sd0 w0]. apply same_bind; [apply p_convert|]. intros [sd1 w1]. apply same_refl.
Qed.
Lemma p_eval i ps key level prefixes ctx nonce :
  same_unless_removed (idpf_eval (p1_idpf p) i ps key level prefixes ctx nonce) (idpf_eval (p1_idpf p') i ps key level prefixes ctx nonce).
Proof.
  unfold idpf_eval. do 3 (apply same_bind; [apply same_refl|]; intros _).
  apply same_foldM. intros out prefix. apply same_bind; [|intros; apply same_refl].
  unfold eval_prefix. apply same_bind; [apply same_refl|]. intros _.
  apply same_bind; [|intros [[? ?] ?]; apply same_refl].
  apply same_for_range. intros [[seed ctrl] y] l. apply same_bind; [apply same_refl|]. intros bit.
  apply same_bind; [apply same_refl|]. intros [[scw ccw] wcw]. unfold eval_next.
  apply same_bind; [apply p_extend|]. intros [s t]. destruct ctrl; cbv zeta iota.
  - apply same_bind; [apply p_convert|]. intros [ns y']. apply same_refl.
  - apply same_bind; [apply p_convert|]. intros [ns y']. apply same_refl.
Qed.

Lemma p_vec P (HP : 0 < ENCODED_SIZE P) st len : same_unless_removed (next_vec (p1_xof p) P st len) (next_vec (p1_xof p') P st len).
Proof. left. symmetry. now apply x_vec. Qed.
Lemma p_init seed dst binder : same_unless_removed (xof_init (p1_xof p) seed dst binder) (xof_init (p1_xof p') seed dst binder).
Proof. left. symmetry. apply draft_ts_init. Qed.
Lemma p_offsets P (HP : 0 < ENCODED_SIZE P) usage cs ctx nonce len :
  same_unless_removed (corr_offsets_of p P usage cs ctx nonce len) (corr_offsets_of p' P usage cs ctx nonce len).
Proof.
  unfold corr_offsets_of. do 3 (apply same_bind; [apply same_refl|]; intros ?).
  apply same_bind; [left; symmetry; now apply draft_ts_expand|]. intros v0. do 3 (apply same_bind; [apply same_refl|]; intros ?).
  apply same_bind; [left; symmetry; now apply draft_ts_expand|]. intros v1. apply same_refl.
Qed.
Lemma p_corr_level {P} (HP : 0 < ENCODED_SIZE P) (k : F P) offs st :
  same_unless_removed (corr_level p k offs st) (corr_level p' k offs st).
Proof.
  unfold corr_level. destruct (slice offs 0 3) as [|a [|b [|c [|]]]]; try apply same_refl.
  apply same_bind; [apply same_refl|]. intros two. cbv zeta.
  apply same_bind; [now apply p_vec|]. intros [c1 st']. apply same_refl.
Qed.

Lemma p_shard ctx m nonce rand : same_unless_removed (p1_shard p ctx m nonce rand) (p1_shard p' ctx m nonce rand).
Proof.
  unfold p1_shard. do 3 (apply same_bind; [apply same_refl|]; intros _).
  apply same_bind; [apply same_refl|]. intros [ir r]. apply same_bind; [apply same_refl|]. intros starts.
  apply same_bind; [apply same_refl|]. intros [cs seeds]. apply same_bind; [apply same_refl|]. intros [ss seeds'].
  apply same_bind; [apply same_refl|]. intros seed. apply same_bind; [apply same_refl|]. intros dst.
  apply same_bind; [apply p_init|]. intros st. apply same_bind; [apply p_vec; cbn; lia|]. intros [ks st1].
  apply same_bind; [apply same_refl|]. intros one. apply same_bind; [apply same_refl|]. intros one'.
  apply same_bind; [apply p_vec; cbn; lia|]. intros [kl st2].
  apply same_bind; [apply p_gen|]. intros [ps keys].
  apply same_bind; [apply p_offsets; cbn; lia|]. intros oi. apply same_bind; [apply p_offsets; cbn; lia|]. intros ol.
  apply same_bind.
  { apply same_for_range. intros [[[c0 c1] o] s] level. apply same_bind; [apply same_refl|]. intros b.
    apply same_bind; [apply same_refl|]. intros k. apply same_bind; [apply p_corr_level; cbn; lia|].
    intros [[[d0 d1] o'] s']. apply same_refl. }
  intros [[[c0 c1] o] s]. apply same_bind; [apply same_refl|]. intros k.
  apply same_bind; [apply p_corr_level; cbn; lia|]. intros [[[d0 d1] o'] s']. apply same_refl.
Qed.

Lemma p_init_in P (HP : 0 < ENCODED_SIZE P) usage ff AB vk ctx i level n nonce cs value :
  same_unless_removed (verify_init_in p P usage ff AB vk ctx i level n nonce cs value)
                      (verify_init_in p' P usage ff AB vk ctx i level n nonce cs value).
Proof.
  unfold verify_init_in. do 2 (apply same_bind; [apply same_refl|]; intros ?).
  apply same_bind; [apply p_init|]. intros st.
  apply same_bind.
  { destruct ff as [k|]; [|apply same_refl]. apply same_bind; [now apply p_vec|]. intros [? st']. apply same_refl. }
  intros st1. apply same_bind; [now apply p_vec|]. intros [abc st2].
  destruct abc as [|a [|b [|c [|]]]]; try apply same_refl. destruct AB as [|a' [|b' [|]]]; try apply same_refl.
  apply same_bind; [|intros; apply same_refl]. unfold verify_rand_of.
  do 2 (apply same_bind; [apply same_refl|]; intros ?). apply same_bind; [apply p_init|]. intros s.
  apply same_bind; [now apply p_vec|]. intros [? ?]. apply same_refl.
Qed.
Lemma p_verify_init vk ctx i ap nonce ps sh :
  same_unless_removed (p1_verify_init p vk ctx i ap nonce ps sh) (p1_verify_init p' vk ctx i ap nonce ps sh).
Proof.
  unfold p1_verify_init. destruct ap as [level prefixes], sh as [[[key cs] ci] cl].
  apply same_bind; [apply p_eval|]. intros value. change (level_is_inner p' level) with (level_is_inner p level).
  destruct (level_is_inner p level).
  - apply same_bind; [apply p_init_in; cbn; lia|]. intros [? ?]. apply same_refl.
  - apply same_bind; [apply p_init_in; cbn; lia|]. intros [? ?]. apply same_refl.
Qed.

Lemma p_run vk ap ctx ms :
  same_unless_removed (run_vdaf (p1_vdaf p) vk ap ctx ms) (draft_run_vdaf (p1_vdaf p') vk ap ctx ms).
Proof. exact (revdaf_run (p1_vdaf p) (p1_shard p') (p1_verify_init p') vk ap ctx ms (fun m n r => p_shard ctx m n r) (fun i n ps sh => p_verify_init vk ctx i ap n ps sh)). Qed.
End P1Same.
