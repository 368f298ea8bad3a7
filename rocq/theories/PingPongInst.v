(** Prio3 and Poplar1 through the ping-pong functions. *)
From Verif Require Import Vdaf PingPong PingPongSpec Prio3 Prio3Spec FlpSpec XofSpec Poplar1 Poplar1Spec.
From Verif Require Import BaseFacts CommonFacts FieldFacts ParseFacts PostFacts Prio3Facts Prio3Run Prio3Props Poplar1Props PingPongFacts.
Open Scope nat_scope.

(** * Prio3 *)
Section P3.
Context (p : Prio3) (lim : Z) (HO : Prio3Ok p lim).
Notation field := (p3_field p).
Notation flp := (p3_flp p).
Notation xof := (p3_xof p).
Notation S_ := (p3_SHARES p).
Notation PR := (p3_PROOFS p).
Notation F := (F (p3_field p)).
Notation E0 := (fun e => e = OutOfFuel /\ ran_out p).
Context (good : list F -> Prop) (valid : list F -> list F -> Prop) (HF : FlpOk flp good valid).

Lemma query_good meas proof q jr : length meas = MEAS_LEN flp -> length proof = PROOF_LEN flp ->
  length q = QUERY_RAND_LEN flp -> length jr = JOINT_RAND_LEN flp -> good q ->
  exists v, flp_query flp meas proof q jr S_ = Ok v /\ length v = VERIFIER_LEN flp.
Proof.
  intros Lm Lp Lq Lj G. pose proof (po_shares _ _ HO) as HS.
  destruct (fo_query _ _ _ HF S_ (repeat meas S_) (repeat proof S_) q jr) as (vs & (Lv & Fv) & Q & _); try assumption.
  - lia.
  - exact (po_shares_field _ _ HO).
  - split; [apply repeat_length|]. apply Forall_forall; intros x I; apply repeat_spec in I; now subst.
  - split; [apply repeat_length|]. apply Forall_forall; intros x I; apply repeat_spec in I; now subst.
  - exists (nth 0 vs []). specialize (Q 0 ltac:(lia)). rewrite !nth_repeat' in Q.
    replace (0 <? S_) with true in Q by (symmetry; apply Nat.ltb_lt; lia). split; [exact Q|].
    rewrite Forall_forall in Fv. apply Fv, nth_In. lia.
Qed.

Lemma expand_share_post ctx j is : ctx_ok ctx -> j < S_ -> input_share_wf p j is ->
  post (expand_input_share p ctx j is)
    (fun '(ms, ps, b) => length ms = MEAS_LEN flp /\ length ps = PROOF_LEN flp * PR /\ blind_wf p b) E0.
Proof.
  intros Hc Hj W. pose proof (po_shares _ _ HO) as HS. unfold expand_input_share.
  destruct is as [ms ps b|s b]; cbn [input_share_wf] in W.
  - destruct W as (-> & Lm & Lp & B). cbn [Nat.ltb Nat.leb post]. auto.
  - destruct W as (Nj & Ls & B). replace (0 <? j) with true by (symmetry; apply Nat.ltb_lt; lia).
    eapply post_bind; [apply (helper_meas_post p lim HO); [exact Hc|lia|exact Ls]|]. intros ms _ Lm.
    eapply post_bind; [apply (helper_proofs_post p lim HO); [exact Hc|lia|exact Ls]|]. intros ps _ Lp.
    cbn [post]. auto.
Qed.

Lemma verify_joint_post ctx j b ms nonce ps : ctx_ok ctx -> j < S_ -> blind_wf p b -> public_share_wf p ps ->
  post (verify_joint_rand p ctx j b ms nonce ps)
    (fun '(seed, part, jr) => blind_wf p seed /\ blind_wf p part /\ length jr = JOINT_RAND_LEN flp * PR) E0.
Proof.
  intros Hc Hj B W. pose proof (po_shares _ _ HO) as HS. unfold verify_joint_rand, blind_wf, public_share_wf in *.
  destruct (0 <? JOINT_RAND_LEN flp) eqn:J.
  - destruct B as (bl & -> & Lb). destruct W as (parts & -> & Lp & _).
    destruct (joint_rand_part_ok p lim HO ctx j bl ms nonce Hc ltac:(lia) Lb) as (part & E1 & L1).
    eapply post_step; [exact E1|]. eapply post_step; [apply set_lt; lia|].
    destruct (joint_rand_seed_ok p lim HO ctx (upd parts j part) Hc) as (seed & E2 & L2).
    eapply post_step; [exact E2|].
    eapply post_bind; [apply (joint_rands_post p lim HO); [exact Hc|exact L2]|]. intros jr _ Lj.
    cbn [post]. eauto 10.
  - cbn [post]. apply Nat.ltb_ge in J. replace (JOINT_RAND_LEN flp) with 0 by lia. auto.
Qed.

Theorem p3_verify_init_post key ctx j nonce ps is :
  ctx_ok ctx -> length key = p3_VERIFY_KEY_SIZE p -> j < S_ -> input_share_wf p j is -> public_share_wf p ps ->
  post (p3_verify_init p key ctx j tt nonce ps is)
    (fun '(st, sh) => length (fst st) = OUTPUT_LEN flp /\ blind_wf p (snd st) /\ verifier_share_wf p sh /\
       ~ bad_query p good key ctx nonce)
    (fun e => E0 e \/ exists msg, e = ValueError msg /\ bad_query p good key ctx nonce).
Proof.
  intros Hc Hk Hj WI WP. unfold p3_verify_init.
  assert (EE : forall A (m : res A) Q, post m Q E0 -> post m Q (fun e => E0 e \/ exists msg, e = ValueError msg /\ bad_query p good key ctx nonce)).
  { intros A m Q H; eapply post_weak; [exact H|auto|intros e He; left; exact He]. }
  eapply post_bind; [apply EE, expand_share_post; assumption|]. intros ((ms & prs) & b) _ (Lm & Lp & B).
  destruct (fo_truncate _ _ _ HF 1 [ms]) as (outs & (Lo & Fo) & T & _); [exact (conj eq_refl (Forall_cons _ Lm (Forall_nil _)))|].
  destruct outs as [|out [|? ?]]; try discriminate Lo.
  assert (T1 : flp_truncate flp ms = Ok out).
  { cbn [mapM] in T. apply bind_Ok in T as (o & T1 & T). cbn [bind] in T. congruence. }
  eapply post_step; [exact T1|].
  eapply post_bind; [apply EE, verify_joint_post; eassumption|]. intros ((seed & part) & jr) _ (Bs & Bp & Lj).
  eapply post_bind; [apply EE, (query_rands_post p lim HO); [exact Hc|rewrite Hk; exact (po_key _ _ HO)]|].
  intros qr Eq Lq. cbv beta in Lq.
  assert (QG : forall k, k < PR -> good (piece (QUERY_RAND_LEN flp) k qr) ->
    exists v, flp_query flp ms (piece (PROOF_LEN flp) k prs) (piece (QUERY_RAND_LEN flp) k qr)
                         (piece (JOINT_RAND_LEN flp) k jr) S_ = Ok v /\ length v = VERIFIER_LEN flp).
  { intros k Hk' G. apply query_good; [exact Lm| | | |exact G]; (apply piece_length with PR; assumption). }
  destruct (least_bad p good valid HF qr Lq) as [G|(k & Hk' & NG & Gs)].
  - assert (EX : exists vs : nat -> list F, forall k, k < PR ->
       flp_query flp ms (piece (PROOF_LEN flp) k prs) (piece (QUERY_RAND_LEN flp) k qr)
                         (piece (JOINT_RAND_LEN flp) k jr) S_ = Ok (vs k) /\ length (vs k) = VERIFIER_LEN flp).
    { exists (fun k => match flp_query flp ms (piece (PROOF_LEN flp) k prs) (piece (QUERY_RAND_LEN flp) k qr)
                         (piece (JOINT_RAND_LEN flp) k jr) S_ with Ok v => v | Raise _ => [] end).
      intros k Hk'. destruct (QG k Hk' (G k Hk')) as (v & E & L). rewrite E. auto. }
    destruct EX as (vs & EX).
    destruct (verify_init_loop p ms prs qr jr vs Lp Lq Lj (fun k H => proj1 (EX k H))) as (st & L).
    eapply post_step; [exact L|]. cbn [post fst snd].
    inversion Fo; subst. split; [assumption|]. split; [exact Bs|]. split; [split; [|exact Bp]; cbn [fst]|].
    2:{ intros (qr' & k & Eq' & Hk' & NG). assert (qr' = qr) by congruence. subst qr'. exact (NG (G k Hk')). }
    assert (LC : forall n, n <= PR -> length (concat (map vs (seq 0 n))) = VERIFIER_LEN flp * n).
    { induction n as [|n IH]; intros Hn; [cbn; lia|].
      rewrite seq_S, map_app, concat_app, app_length, IH by lia. cbn [map concat]. rewrite app_nil_r, Nat.add_0_l.
      rewrite (proj2 (EX n ltac:(lia))). lia. }
    apply LC; lia.
  - destruct (fo_query_bad _ _ _ HF S_ ms (piece (PROOF_LEN flp) k prs) (piece (QUERY_RAND_LEN flp) k qr)
                         (piece (JOINT_RAND_LEN flp) k jr)) as (msg & E); try assumption;
      try (apply piece_length with PR; assumption).
    + pose proof (po_shares _ _ HO); lia.
    + exact (po_shares_field _ _ HO).
    + assert (G' : forall i, i < k -> exists v, flp_query flp ms (piece (PROOF_LEN flp) i prs) (piece (QUERY_RAND_LEN flp) i qr)
                         (piece (JOINT_RAND_LEN flp) i jr) S_ = Ok v)
        by (intros i Hi; destruct (QG i ltac:(lia) (Gs i Hi)) as (v & Ev & _); eauto).
      pose proof (verify_init_loop_raise p ms prs qr jr k (fun _ => []) (ValueError msg) Lp Lq Lj Hk' G' E) as L.
      match goal with |- post (bind ?m _) _ _ => replace m with (@Raise (list F * list F * list F * list F) (ValueError msg)) by (symmetry; exact L) end.
      cbn [bind post]. right. exists msg. split; [reflexivity|]. exists qr, k. auto.
Qed.

Notation p3_message_fits := (p3_message_fits p).

Lemma p3_share_carries st s : p3_message_fits -> verifier_share_wf p s ->
  carries (p3_encode_verifier_share p) (p3_decode_verifier_share p st) s.
Proof.
  intros Hfit W. destruct (proj1 (verifier_share_codec p (po_field _ _ HO) st) s W) as (b & E & D). exists b.
  split; [exact E|]. split; [exact D|]. destruct s as (v & part), W as (Lv & B). cbn [fst snd] in Lv, B.
  unfold p3_encode_verifier_share in E. apply bind_Ok in E as (u & _ & E). apply bind_Ok in E as (e & E1 & E).
  destruct (encode_vec_ok v (po_field _ _ HO)) as (e' & E1' & Le & _).
  assert (e' = e) by congruence; subst e'. injection E as <-.
  unfold p3_message_fits in Hfit. unfold blind_wf in B. rewrite Lv in Le.
  destruct (0 <? JOINT_RAND_LEN flp).
  - destruct B as (bl & -> & Lb). cbn [app_opt]. rewrite app_length. lia.
  - subst part. cbn [app_opt]. lia.
Qed.

Lemma p3_message_carries ctx shares st msg : p3_message_fits -> ctx_ok ctx ->
  p3_verifier_shares_to_message p ctx tt shares = Ok msg ->
  carries p3_encode_verifier_message (p3_decode_verifier_message p st) msg.
Proof.
  intros Hfit Hc H. unfold p3_verifier_shares_to_message in H.
  apply bind_Ok in H as ((vs & parts) & _ & H); cbv beta iota in H. apply bind_Ok in H as (r & _ & H).
  assert (W : msg <> Some [] /\ match msg with None => True | Some s => length s = SEED_SIZE xof end).
  { destruct (0 <? JOINT_RAND_LEN flp).
    - apply bind_Ok in H as (seed & E & H). destruct (joint_rand_seed_ok p lim HO ctx parts Hc) as (seed' & E' & L).
      assert (seed' = seed) by congruence; subst seed'. injection H as <-. split; [|exact L].
      intros F; injection F as ->. pose proof (po_seed _ _ HO). cbn in L. lia.
    - injection H as <-. split; [discriminate|exact I]. }
  destruct W as (W & L). destruct (proj1 (message_codec p st) msg W) as (b & E & D). exists b.
  split; [exact E|]. split; [exact D|]. unfold p3_encode_verifier_message in E. injection E as <-.
  unfold p3_message_fits in Hfit. destruct msg as [s|]; cbn [app_opt app]; [|cbn; lia]. rewrite L. lia.
Qed.

Lemma p3_exchangeable ctx : p3_message_fits -> ctx_ok ctx ->
  Exchangeable (Prio3Vdaf p) ctx tt (fun _ s0 _ s1 => verifier_share_wf p s0 /\ verifier_share_wf p s1).
Proof.
  intros Hfit Hc. split.
  - intros st0 s0 st1 s1 (W & _). exact (p3_share_carries st1 s0 Hfit W).
  - intros st0 s0 st1 s1 (_ & W). exact (p3_share_carries st0 s1 Hfit W).
  - intros st0 s0 st1 s1 msg _ M. exact (p3_message_carries ctx [s0; s1] st0 msg Hfit Hc M).
  - intros st0 s0 st1 s1 msg _ M. exact (p3_message_carries ctx [s0; s1] st1 msg Hfit Hc M).
  - intros st0 s0 st1 s1 msg st0' s0' st1' s1' _ _ N _. exfalso.
    change (p3_verify_next p ctx st0 msg = Ok (inl (st0', s0'))) in N. unfold p3_verify_next in N.
    destruct st0 as (o & c). apply bind_Ok in N as (u & _ & N). discriminate N.
Qed.

Theorem p3_ping_pong key ctx nonce public_share input_share0 input_share1 ps is0 is1 o0 o1 :
  p3_message_fits -> ctx_ok ctx -> length key = p3_VERIFY_KEY_SIZE p ->
  p3_decode_public_share p public_share = Ok ps ->
  p3_decode_input_share p 0 input_share0 = Ok is0 -> p3_decode_input_share p 1 input_share1 = Ok is1 ->
  pp_outputs (Prio3Vdaf p) (pp_run (Prio3Vdaf p) ctx key [] nonce public_share input_share0 input_share1) o0 o1 <->
  broadcast_run (Prio3Vdaf p) ctx tt key nonce ps is0 is1 = Ok (o0, o1).
Proof.
  intros Hfit Hc Hk DP D0 D1. pose proof (po_shares _ _ HO) as HS.
  assert (WP : public_share_wf p ps).
  { destruct (Nat.eq_dec (JOINT_RAND_LEN flp) 0) as [J|J].
    - destruct (public_share_codec_none p J) as (_ & E). rewrite E in DP. injection DP as <-.
      unfold public_share_wf. rewrite J. reflexivity.
    - exact (proj1 (proj2 (public_share_codec p ltac:(lia)) _ _ DP)). }
  pose proof (proj1 (proj2 (input_share_codec p (po_field _ _ HO) 0) _ _ D0)) as W0.
  pose proof (proj1 (proj2 (input_share_codec p (po_field _ _ HO) 1) _ _ D1)) as W1.
  apply (run_correct (Prio3Vdaf p) ctx tt _ (p3_exchangeable ctx Hfit Hc)); try assumption.
  - reflexivity.
  - cbn; lia.
  - intros st0 s0 st1 s1 V0 V1. split.
    + pose proof (post_Ok _ _ _ _ (p3_verify_init_post key ctx 0 nonce ps is0 Hc Hk ltac:(lia) W0 WP) V0) as (_ & _ & W & _). exact W.
    + pose proof (post_Ok _ _ _ _ (p3_verify_init_post key ctx 1 nonce ps is1 Hc Hk ltac:(lia) W1 WP) V1) as (_ & _ & W & _). exact W.
Qed.
End P3.

(** * Poplar1 *)
Section P1.
Context (p : Poplar1) (HWi : wf_field (id_field_inner (p1_idpf p))) (HWl : wf_field (id_field_leaf (p1_idpf p))).
Notation Pi := (id_field_inner (p1_idpf p)).
Notation Pl := (id_field_leaf (p1_idpf p)).
Notation FVec := (FieldVec Pi Pl).

Notation p1_message_fits := (p1_message_fits p).

Lemma fv_encode_len (v : FVec) b : encode_idpf_field_vec p v = Ok b -> p1_message_fits -> fv_len v <= 3 ->
  (Z.of_nat (length b) < 2 ^ 32)%Z.
Proof.
  intros E (H1 & H2) L. destruct v as [v|v]; cbn [fv_len] in L.
  - assert (E' : b = vec_bytes v).
    { destruct v as [|x v]; [now injection E as <-|]. change (encode_vec (x :: v) = Ok b) in E. rewrite (encode_vec_bytes _ HWi) in E. now injection E as <-. }
    subst b. rewrite (vec_bytes_length _ HWi). nia.
  - assert (E' : b = vec_bytes v).
    { destruct v as [|x v]; [now injection E as <-|]. change (encode_vec (x :: v) = Ok b) in E. rewrite (encode_vec_bytes _ HWl) in E. now injection E as <-. }
    subst b. rewrite (vec_bytes_length _ HWl). nia.
Qed.

Definition p1_inv (st0 : Poplar1VerifyState p) (s0 : FVec) (st1 : Poplar1VerifyState p) (s1 : FVec) : Prop :=
  exists lv, snd (fst st0) = lv /\ snd (fst st1) = lv /\ of_class p lv (snd st0) /\ of_class p lv (snd st1) /\
    of_class p lv s0 /\ of_class p lv s1 /\ fv_len s0 <= 3 /\ fv_len s1 <= 3.

Lemma p1_share_carries lv (st : Poplar1VerifyState p) s : p1_message_fits -> snd (fst st) = lv -> of_class p lv s -> fv_len s <= 3 ->
  carries (p1_encode_verifier_share p) (p1_decode_verifier_share p st) s.
Proof.
  intros Hfit <- C L. destruct (proj1 (field_vec_codec p HWi HWl (snd (fst st))) s C) as (b & E & D).
  exists b. split; [exact E|]. split; [exact D|]. exact (fv_encode_len s b E Hfit L).
Qed.

Lemma fv_add_class lv (a b s : FVec) : fv_add a b = Ok s -> of_class p lv a -> of_class p lv s.
Proof.
  intros H C. destruct a as [a|a]; cbn [fv_add] in H; apply bind_Ok in H as (v & _ & H); injection H as <-; exact C.
Qed.

Lemma p1_message_carries ctx ap lv s0 s1 (st : Poplar1VerifyState p) msg : p1_message_fits ->
  snd (fst st) = lv -> of_class p lv s0 ->
  p1_verifier_shares_to_message p ctx ap [s0; s1] = Ok msg ->
  carries (p1_encode_verifier_message p) (p1_decode_verifier_message p st) msg.
Proof.
  intros Hfit <- C M. apply shares_to_message in M as (a & b & s & E & A & Lab & D).
  injection E as <- <-. destruct (fv_add_len p _ _ _ A) as (L1 & L2).
  assert (W : match msg with None => True | Some v => of_class p (snd (fst st)) v /\ 0 < fv_len v end).
  { destruct D as [(L & ->)|(_ & -> & _)]; [|exact I]. split; [exact (fv_add_class _ _ _ _ A C)|lia]. }
  destruct (proj1 (p1_message_codec p HWi HWl st) msg W) as (e & E & DD). exists e. split; [exact E|]. split; [exact DD|].
  destruct D as [(L & ->)|(_ & -> & _)].
  - exact (fv_encode_len s e E Hfit ltac:(lia)).
  - unfold p1_encode_verifier_message in E. injection E as <-. cbn; lia.
Qed.

Lemma p1_next_inl ctx st lv msg st' s' : snd (fst st) = lv -> of_class p lv (snd st) ->
  p1_verify_next p ctx st msg = Ok (inl (st', s')) ->
  snd (fst st') = lv /\ of_class p lv (snd st') /\ of_class p lv s' /\ fv_len s' <= 3.
Proof.
  destruct st as ((step & lv') & mem). cbn [fst snd]. intros -> C H. unfold p1_verify_next in H.
  destruct (bytes_eqb step EVALUATE_SKETCH).
  - destruct msg as [v|]; [|discriminate H]. apply bind_Ok in H as (u & _ & H).
    apply bind_Ok in H as ((z0 & t) & _ & H). cbv beta iota in H.
    destruct mem as [m|m]; (apply bind_Ok in H as ((m' & sh) & EV & H); cbv beta iota in H; injection H as <- <-;
      cbn [fst snd]; split; [reflexivity|]; split; [exact C|]; split; [exact C|];
      unfold evaluate_in in EV; apply bind_Ok in EV as (a & _ & EV); apply bind_Ok in EV as (b & _ & EV);
      apply bind_Ok in EV as (c & _ & EV); injection EV as <- <-; cbn; lia).
  - destruct (bytes_eqb step REVEAL_SKETCH); [|discriminate H]. destruct msg; discriminate H.
Qed.

Lemma p1_exchangeable ctx ap : p1_message_fits -> Exchangeable (p1_vdaf p) ctx ap p1_inv.
Proof.
  intros Hfit. split.
  - intros st0 s0 st1 s1 (lv & A0 & A1 & C0 & C1 & D0 & D1 & L0 & L1). exact (p1_share_carries lv st1 s0 Hfit A1 D0 L0).
  - intros st0 s0 st1 s1 (lv & A0 & A1 & C0 & C1 & D0 & D1 & L0 & L1). exact (p1_share_carries lv st0 s1 Hfit A0 D1 L1).
  - intros st0 s0 st1 s1 msg (lv & A0 & A1 & C0 & C1 & D0 & D1 & L0 & L1) M. exact (p1_message_carries ctx ap lv s0 s1 st0 msg Hfit A0 D0 M).
  - intros st0 s0 st1 s1 msg (lv & A0 & A1 & C0 & C1 & D0 & D1 & L0 & L1) M. exact (p1_message_carries ctx ap lv s0 s1 st1 msg Hfit A1 D0 M).
  - intros st0 s0 st1 s1 msg st0' s0' st1' s1' (lv & A0 & A1 & C0 & C1 & D0 & D1 & L0 & L1) _ N0 N1.
    destruct (p1_next_inl ctx st0 lv msg st0' s0' A0 C0 N0) as (B0 & E0 & F0 & G0).
    destruct (p1_next_inl ctx st1 lv msg st1' s1' A1 C1 N1) as (B1 & E1 & F1 & G1).
    exists lv. auto 10.
Qed.

Lemma p1_execute_broadcast key ctx ap nonce ps is0 is1 :
  broadcast_run (p1_vdaf p) ctx ap key nonce ps is0 is1 = p1_execute p key ctx ap nonce ps is0 is1.
Proof. reflexivity. Qed.

Theorem p1_ping_pong key ctx agg_param nonce public_share input_share0 input_share1 ap ps is0 is1 o0 o1 :
  p1_message_fits ->
  p1_decode_agg_param agg_param = Ok ap -> p1_decode_public_share p public_share = Ok ps ->
  p1_decode_input_share p 0 input_share0 = Ok is0 -> p1_decode_input_share p 1 input_share1 = Ok is1 ->
  pp_outputs (p1_vdaf p) (pp_run (p1_vdaf p) ctx key agg_param nonce public_share input_share0 input_share1) o0 o1 <->
  p1_execute p key ctx ap nonce ps is0 is1 = Ok (o0, o1).
Proof.
  intros Hfit DA DP D0 D1. rewrite <- p1_execute_broadcast.
  apply (run_correct (p1_vdaf p) ctx ap p1_inv (p1_exchangeable ctx ap Hfit)); try assumption.
  - cbn; unfold p1_ROUNDS; lia.
  - intros st0 s0 st1 s1 V0 V1.
    apply init_state in V0 as (m0 & -> & _ & L0 & C0 & D0'). apply init_state in V1 as (m1 & -> & _ & L1 & C1 & D1').
    exists (fst ap). cbn [fst snd]. repeat split; try assumption; lia.
Qed.
End P1.
