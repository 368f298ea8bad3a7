(** The encodings of Prio3 and of Poplar1 are read back. *)
From Verif Require Import RobustSpec DeploySpec DeployFacts DeployInst RunSpec RunFacts PingPongSpec PingPongInst Prio3 Prio3Spec FlpSpec Poplar1 Poplar1Spec.
From Verif Require Import CodecProofs BaseFacts PostFacts Prio3Facts Prio3Run Prio3Props IdpfSpec Poplar1Props Poplar1Codec Poplar1Run Poplar1End.
From Verif Require Import TestVectors TestVecSpec TestVecFacts TestVecGen.
Open Scope nat_scope.

Section P3.
Context (p : Prio3) (lim : Z) (HO : Prio3Ok p lim).
Notation flp := (p3_flp p).
Notation F := (F (p3_field p)).
Context (good : list F -> Prop) (valid : list F -> list F -> Prop) (HF : FlpOk flp good valid).
Context (key ctx : bytes) (Hc : ctx_ok ctx) (Hk : length key = p3_VERIFY_KEY_SIZE p).
Notation V := (Prio3Vdaf p).

Lemma p3_public_reads ps : public_share_wf p ps -> reads_back p3_encode_public_share (p3_decode_public_share p) ps.
Proof.
  intros W. destruct (Nat.eq_dec (JOINT_RAND_LEN flp) 0) as [J|J].
  - unfold public_share_wf in W. rewrite J in W. cbn [Nat.ltb Nat.leb] in W. subst ps.
    destruct (public_share_codec_none p J) as (E & D). eexists; eauto.
  - exact (proj1 (public_share_codec p ltac:(lia)) ps W).
Qed.
Lemma p3_message_reads shares st msg : p3_verifier_shares_to_message p ctx tt shares = Ok msg ->
  reads_back p3_encode_verifier_message (p3_decode_verifier_message p st) msg.
Proof.
  intros H. unfold p3_verifier_shares_to_message in H.
  apply bind_Ok in H as ((vs & parts) & _ & H); cbv beta iota in H. apply bind_Ok in H as (r & _ & H).
  assert (W : msg <> Some []).
  { destruct (0 <? JOINT_RAND_LEN flp).
    - apply bind_Ok in H as (seed & E & H). destruct (joint_rand_seed_ok p lim HO ctx parts Hc) as (seed' & E' & L).
      assert (seed' = seed) by congruence; subst seed'. injection H as <-.
      intros F; injection F as ->. pose proof (po_seed _ _ HO). cbn in L. lia.
    - injection H as <-. discriminate. }
  exact (proj1 (message_codec p st) msg W).
Qed.

Theorem p3_codec reports : Forall (encodable p) reports ->
  CodecOk V ctx key tt (fun _ sh => verifier_share_wf p sh) reports.
Proof.
  intros HE. rewrite Forall_forall in HE.
  assert (WF : forall m nonce rand ps iss, In (m, nonce, rand) reports -> vd_shard V ctx m nonce rand = Ok (ps, iss) ->
    length iss = p3_SHARES p /\ public_share_wf p ps /\ forall j is, nth_error iss j = Some is -> j < p3_SHARES p /\ input_share_wf p j is).
  { intros m nonce rand ps iss IN S. destruct (shard_wf p lim HO good valid HF ctx m nonce rand ps iss Hc (HE _ IN) S) as (L & WP & WI).
    split; [exact L|]. split; [exact WP|]. intros j is N. change (@nth_error (Prio3InputShare (p3_field p)) iss j = Some is) in N. change (@length (Prio3InputShare (p3_field p)) iss = p3_SHARES p) in L.
    assert (Hj : j < p3_SHARES p). { rewrite <- L. apply nth_error_Some. rewrite N. discriminate. }
    split; [exact Hj|]. specialize (WI j is Hj). pose proof (nth_error_nth _ _ is N) as EN. exact (eq_ind _ (input_share_wf p j) WI _ EN). }
  split.
  - exists []. split; reflexivity.
  - intros m nonce rand ps iss IN S. destruct (WF _ _ _ _ _ IN S) as (_ & WP & _). exact (p3_public_reads ps WP).
  - intros m nonce rand ps iss j is IN S N. destruct (WF _ _ _ _ _ IN S) as (_ & _ & WI).
    destruct (WI j is N) as (_ & W). exact (proj1 (input_share_codec p (po_field _ _ HO) j) is W).
  - intros m nonce rand ps iss IN S. now destruct (WF _ _ _ _ _ IN S).
  - intros m nonce rand ps iss j is st sh IN S N E. destruct (WF _ _ _ _ _ IN S) as (_ & WP & WI).
    destruct (WI j is N) as (Hj & W).
    exact (proj1 (p3_init_wf p lim HO good valid HF key ctx Hc Hk j nonce ps is st sh Hj W WP E)).
  - intros st sh W. exact (proj1 (verifier_share_codec p (po_field _ _ HO) st) sh W).
  - intros sts shs msg st _ M _. exact (p3_message_reads shs st msg M).
  - intros sts shs msg st st' sh' _ _ _ N. exfalso.
    change (p3_verify_next p ctx st msg = Ok (inl (st', sh'))) in N. unfold p3_verify_next in N. destruct st as (o & s).
    apply bind_Ok in N as (u & _ & N); discriminate N.
  - intros sts shs msg st o _ _ _ _. destruct (encode_vec_ok (P := p3_field p) o (po_field _ _ HO)) as (b & E & _ & D).
    exists b. split; [exact E | exact D].
  - intros outs a _. destruct (encode_vec_ok (P := p3_field p) a (po_field _ _ HO)) as (b & E & _ & D).
    exists b. split; [exact E | exact D].
Qed.
End P3.

Section P1.
Context (p : Poplar1) (lim : Z) (HO : Poplar1Ok p lim).
Context (HWi : wf_field (id_field_inner (p1_idpf p))) (HWl : wf_field (id_field_leaf (p1_idpf p))).
Context (key ctx : bytes) (Hc : ctx_ok ctx) (ap : Poplar1AggParam) (Hap : agg_param_wf ap).
Notation V := (p1_vdaf p).
Notation FVec := (FieldVec (id_field_inner (p1_idpf p)) (id_field_leaf (p1_idpf p))).

(** The state and the verifier share belong to the level of the aggregation
    parameter. *)
Definition p1_level_inv (st : Poplar1VerifyState p) (sh : FVec) : Prop :=
  snd (fst st) = fst ap /\ of_class p (fst ap) (snd st) /\ of_class p (fst ap) sh.
Definition p1_report_ok (r : list bool * bytes * bytes) : Prop :=
  length (fst (fst r)) = id_BITS (p1_idpf p) /\ length (snd (fst r)) = p1_NONCE_SIZE /\ length (snd r) = p1_RAND_SIZE p.

Lemma p1_class_reads v : of_class p (fst ap) v -> reads_back (encode_idpf_field_vec p) (decode_at p (fst ap)) v.
Proof. intros C. exact (proj1 (field_vec_codec p HWi HWl (fst ap)) v C). Qed.

Lemma p1_shares_inv sts shs msg (st : Poplar1VerifyState p) : Forall2 p1_level_inv sts shs -> p1_verifier_shares_to_message p ctx ap shs = Ok msg ->
  In st sts -> snd (fst st) = fst ap /\ of_class p (fst ap) (snd st) /\
   match msg with None => True | Some v => of_class p (fst ap) v /\ 0 < fv_len v end.
Proof.
  intros F2 M IN. assert (Hst : snd (fst st) = fst ap /\ of_class p (fst ap) (snd st)).
  { clear M. induction F2 as [|a b l l' H F2 IH]; [destruct IN|]. destruct IN as [<-|IN]; [|exact (IH IN)]. destruct H as (? & ? & _). auto. }
  split; [apply Hst|]. split; [apply Hst|].
  apply shares_to_message in M as (a & b & s & -> & A & Lab & D). destruct (fv_add_len p _ _ _ A) as (L1 & L2).
  inversion F2 as [|x y lx ly Hx F2' E1 E2]; subst. destruct Hx as (_ & _ & C).
  destruct D as [(L & ->)|(_ & -> & _)]; [|exact I]. split; [exact (fv_add_class p _ _ _ _ A C)|lia].
Qed.

Theorem p1_codec reports : Forall p1_report_ok reports -> CodecOk V ctx key ap p1_level_inv reports.
Proof.
  intros HE. rewrite Forall_forall in HE.
  assert (W : forall m nonce rand, In (m, nonce, rand) reports -> wire_ok V ctx key ap (p1_inv p) (m, nonce, rand)).
  { intros m nonce rand IN. destruct (HE _ IN) as (A & B & C). exact (p1_wire p lim HO HWi HWl key ctx ap (m, nonce, rand) Hc A B C). }
  split.
  - exact (proj1 agg_param_codec1 ap Hap).
  - intros m nonce rand ps iss IN S. destruct (W _ _ _ IN ps iss S) as (is0 & is1 & bps & b0 & b1 & _ & E & D & _). exists bps; auto.
  - intros m nonce rand ps iss j is IN S N. destruct (W _ _ _ IN ps iss S) as (is0 & is1 & bps & b0 & b1 & -> & _ & _ & E0 & D0 & E1 & D1 & _).
    destruct j as [|[|j]]; cbn in N; [injection N as <-; exists b0; auto|injection N as <-; exists b1; auto|destruct j; discriminate N].
  - intros m nonce rand ps iss IN S. destruct (W _ _ _ IN ps iss S) as (is0 & is1 & bps & b0 & b1 & -> & _). reflexivity.
  - intros m nonce rand ps iss j is st sh IN S N E. apply init_state in E as (m0 & -> & _ & L0 & C0 & D0).
    repeat split; assumption.
  - intros st sh (L & _ & C).
    change (reads_back (encode_idpf_field_vec p) (decode_at p (snd (fst st))) sh). rewrite L. exact (p1_class_reads sh C).
  - intros sts shs msg st F2 M IN. destruct (p1_shares_inv sts shs msg st F2 M IN) as (L & C & H). rewrite <- L in H.
    exact (proj1 (p1_message_codec p HWi HWl st) msg H).
  - intros sts shs msg st st' sh' F2 M IN N. destruct (p1_shares_inv sts shs msg st F2 M IN) as (L & C & H).
    destruct (p1_next_inl p ctx st (fst ap) msg st' sh' L C N) as (A & B & D & _). repeat split; assumption.
  - intros sts shs msg st o F2 M IN N. destruct (p1_shares_inv sts shs msg st F2 M IN) as (L & C & H).
    apply p1_class_reads. change (p1_verify_next p ctx st msg = Ok (inr o)) in N. destruct st as ((step & lv) & mem). cbn [fst snd] in *.
    unfold p1_verify_next in N. destruct (bytes_eqb step EVALUATE_SKETCH).
    + exfalso. destruct msg as [v|]; [|discriminate N]. apply bind_Ok in N as (u & _ & N). apply bind_Ok in N as ((z0 & t) & _ & N). cbv beta iota in N.
      destruct mem as [m|m]; apply bind_Ok in N as ((m' & sh) & _ & N); discriminate N.
    + destruct (bytes_eqb step REVEAL_SKETCH); [|discriminate N]. destruct msg; [discriminate N|]. injection N as <-. exact C.
  - intros outs a E. apply p1_class_reads. apply bind_Ok in E as (a0 & E0 & E).
    apply (p1_fold_class p ap outs a0 a E). change (p1_agg_init p ap = Ok a0) in E0.
    destruct ap as (lv & pre). unfold p1_agg_init in E0. cbn [fst]. unfold of_class.
    destruct (level_is_inner p lv) eqn:EL; injection E0 as <-; cbn; (exact EL || reflexivity).
Qed.
End P1.
