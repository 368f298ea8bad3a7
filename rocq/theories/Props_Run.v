(** Properties C47, C55 and C56: what run_daf and run_vdaf compute for any DAF or
    VDAF, and Prio3's verify_init on any decoded shares. *)
From Verif Require Import Daf Vdaf RunSpec RunFacts PingPongSpec PingPongInst Prio3 Prio3Spec PostFacts.
Open Scope nat_scope.

(** C47.  run_daf returns [r] exactly if every report can be sharded and prepared
    by every Aggregator, every Aggregator's fold of agg_update over its output
    shares succeeds, and unshard of these aggregate shares is [r]. *)
Theorem C47_run_daf : forall (daf : Daf) ctx ap ms r, run_daf daf ctx ap ms = Ok r <->
  exists outs aggs, mapM (daf_outputs daf ctx ap) ms = Ok outs /\
    fold_all (df_SHARES daf) (df_agg_init daf ap) (df_agg_update daf ap) outs = Ok aggs /\
    df_unshard daf ap aggs (length ms) = Ok r.
Proof. exact run_daf_Ok. Qed.
Print Assumptions C47_run_daf.

(** Every Aggregator has one output share of every report. *)
Theorem C47_one_output_each : forall (daf : Daf) ctx ap ms outs, mapM (daf_outputs daf ctx ap) ms = Ok outs ->
  length outs = length ms /\ Forall (fun o => length o = df_SHARES daf) outs.
Proof.
  intros daf ctx ap ms outs M. split; [exact (mapM_Ok_length _ _ _ M)|]. apply Forall_forall. intros o Ho.
  apply In_nth_error in Ho. destruct Ho as (j & E). pose proof (mapM_Ok_length _ _ _ M) as L.
  apply mapM_nth_Ok in M. destruct M as [_ M].
  destruct (nth_error ms j) as [[[m n] rd]|] eqn:Er.
  - specialize (M j _ o Er E). apply bind_Ok in M. destruct M as ([ps iss] & _ & H).
    apply mapM_Ok_length in H. now rewrite length_range, Nat.sub_0_r in H.
  - apply nth_error_None in Er. assert (j < length outs) by (apply nth_error_Some; congruence). lia.
Qed.
Print Assumptions C47_one_output_each.

(** A DAF after TestDaf of poc/tests/test_daf.py:10-93, with the integers modulo
    97 and a share read off the random string. *)
Definition toy_daf : Daf := {|
  df_Measurement := Z; df_AggParam := unit; df_PublicShare := unit; df_InputShare := Z; df_OutShare := Z;
  df_AggShare := Z; df_AggResult := Z;
  df_ID := 4294967295; df_SHARES := 2; df_NONCE_SIZE := 0; df_RAND_SIZE := 1;
  df_shard := fun _ m _ rand => let* b := get rand 0 in Ok (tt, [(m - b2z b) mod 97; b2z b mod 97])%Z;
  df_is_valid := fun _ _ => Ok true;
  df_prep := fun _ _ _ _ _ is => Ok is;
  df_agg_init := fun _ => Ok 0%Z;
  df_agg_update := fun _ a o => Ok ((a + o) mod 97)%Z;
  df_merge := fun _ l => Ok (fold_left Z.add l 0 mod 97)%Z;
  df_unshard := fun _ l _ => Ok (fold_left Z.add l 0 mod 97)%Z;
|}.
Example C47_example : run_daf toy_daf [] tt [(1, [], [xa1]); (2, [], [xb2]); (3, [], [xc3]); (4, [], [xd4])]%Z = Ok 10%Z.
Proof. vm_compute. reflexivity. Qed.
Example C47_example_outputs : mapM (daf_outputs toy_daf [] tt) [(1, [], [xa1]); (2, [], [xb2])]%Z = Ok [[34; 64]; [18; 81]]%Z /\
  fold_all 2 (df_agg_init toy_daf tt) (df_agg_update toy_daf tt) [[34; 64]; [18; 81]]%Z = Ok [52; 48]%Z.
Proof. split; vm_compute; reflexivity. Qed.
Example C47_example_fails : run_daf toy_daf [] tt [(1, [], [])]%Z = Raise IndexError.
Proof. vm_compute. reflexivity. Qed.

(** C55.  The same for run_vdaf, for any number of Aggregators and rounds. *)
Theorem C55_run_vdaf : forall (vdaf : Vdaf) ctx ap key ms r, run_vdaf vdaf key ap ctx ms = Ok r <->
  length key = vd_VERIFY_KEY_SIZE vdaf /\
  exists outs aggs, mapM (vdaf_outputs vdaf ctx ap key) ms = Ok outs /\
    fold_all (vd_SHARES vdaf) (vd_agg_init vdaf ap) (vd_agg_update vdaf ap) outs = Ok aggs /\
    vd_unshard vdaf ap aggs (length ms) = Ok r.
Proof. exact run_vdaf_Ok. Qed.
Print Assumptions C55_run_vdaf.

Theorem C55_one_output_each : forall (vdaf : Vdaf) ctx ap key rep outs,
  vdaf_outputs vdaf ctx ap key rep = Ok outs -> length outs = vd_SHARES vdaf.
Proof. exact vdaf_outputs_length. Qed.
Print Assumptions C55_one_output_each.

(** With two Aggregators, verification is the execution that C44 compares
    ping-pong with. *)
Theorem C55_two_parties : forall (vdaf : Vdaf) ctx ap key nonce ps is0 is1 o0 o1, vd_SHARES vdaf = 2 ->
  broadcast_run vdaf ctx ap key nonce ps is0 is1 = Ok (o0, o1) <->
  verify_report vdaf ctx ap key nonce ps [is0; is1] = Ok [o0; o1].
Proof. exact broadcast_report. Qed.
Print Assumptions C55_two_parties.

(** C56.  Prio3's verify_init is total on decoded shares: it returns a state and
    a well-formed verifier share, or the query randomness is one the FLP refuses. *)
Theorem C56_verify_init_total : forall (p : Prio3) (lim : Z), Prio3Ok p lim ->
  forall good valid, FlpOk (p3_flp p) good valid ->
  forall key ctx j nonce ps is,
  ctx_ok ctx -> length key = p3_VERIFY_KEY_SIZE p -> j < p3_SHARES p -> input_share_wf p j is -> public_share_wf p ps ->
  match p3_verify_init p key ctx j tt nonce ps is with
  | Ok (st, sh) => length (fst st) = OUTPUT_LEN (p3_flp p) /\ blind_wf p (snd st) /\ verifier_share_wf p sh /\
      ~ bad_query p good key ctx nonce
  | Raise OutOfFuel => ran_out p
  | Raise (ValueError _) => bad_query p good key ctx nonce
  | Raise _ => False
  end.
Proof.
  intros p lim HO good valid HF key ctx j nonce ps is A B C D E.
  pose proof (p3_verify_init_post p lim HO good valid HF key ctx j nonce ps is A B C D E) as H.
  unfold post in H. destruct (p3_verify_init p key ctx j tt nonce ps is) as [[st sh]|e]; [exact H|].
  destruct H as [[-> R]|(msg & -> & Q)]; assumption.
Qed.
Print Assumptions C56_verify_init_total.
