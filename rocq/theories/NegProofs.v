(** The negative test vectors of Poplar1, the tampered shares of an honest report. *)
From Coq Require Import Strings.String.
From Verif Require Import NegVectors NegFacts Poplar1Corr Poplar1ViewSpec Poplar1ViewFacts.
From Verif Require Import TestVecSpec TestVecFacts TestVecInst BaseFacts.
From Verif Require Import DeployInst RunSpec PingPongInst Poplar1Spec.
From Verif Require Import CodecProofs PostFacts IdpfSpec IdpfFacts Poplar1Facts Poplar1Props Poplar1Codec Poplar1Run Poplar1End VecFacts.
Open Scope nat_scope.

Section P1.
Context (p : Poplar1) (lim : Z) (HO : Poplar1Ok p lim).
Notation Pi := (id_field_inner (p1_idpf p)).
Notation Pl := (id_field_leaf (p1_idpf p)).
Context (HWi : wf_field Pi) (HWl : wf_field Pl).
Context (key ctx : bytes) (Hc : ctx_ok ctx) (ap : Poplar1AggParam) (Hap : agg_param_wf ap).

Lemma next_not_out st msg o : fst (fst st) = EVALUATE_SKETCH -> p1_verify_next p ctx st msg <> Ok (inr o).
Proof.
  destruct st as ((step & lv) & mem). cbn [fst]. intros ->. unfold p1_verify_next.
  rewrite (proj2 (bytes_eqb_eq _ _) eq_refl). destruct msg as [sk|]; [|discriminate].
  intros H. apply bind_Ok in H as (? & _ & H). apply bind_Ok in H as ((z & t) & _ & H).
  destruct mem; apply bind_Ok in H as ((m & sh) & _ & H); discriminate H.
Qed.

Lemma failure_of_real none nonce rand ps is0 is1 :
  idpf_public_wf (p1_idpf p) ps -> p1_input_share_wf p is0 -> p1_input_share_wf p is1 ->
  let gen := poplar1_message_failure p none key nonce rand ctx ap ps is0 is1 in
  match real_messages p key ctx ap nonce ps is0 is1 with
  | Ok [s0; s1; t0; t1] =>
    match p1_verifier_shares_to_message p ctx ap [t0; t1] with
    | Ok _ => gen = Raise (Exception_ "verifier_shares_to_message should fail")
    | Raise (ValueError _) => exists tv, gen = Ok tv
    | Raise e => gen = Raise e
    end
  | Ok _ => False
  | Raise e => gen = Raise e
  end.
Proof.
  intros WP W0 W1 gen. subst gen. unfold real_messages.
  destruct (p1_verify_init p key ctx 0 ap nonce ps is0) as [(st0 & s0)|e] eqn:V0; cbn [bind].
  2:{ unfold poplar1_message_failure. now rewrite V0. }
  destruct (p1_verify_init p key ctx 1 ap nonce ps is1) as [(st1 & s1)|e] eqn:V1; cbn [bind].
  2:{ unfold poplar1_message_failure. rewrite V0. cbn [bind]. now rewrite V1. }
  destruct (p1_verifier_shares_to_message p ctx ap [s0; s1]) as [msg|e] eqn:M; cbn [bind].
  2:{ unfold poplar1_message_failure. rewrite V0. cbn [bind]. rewrite V1. cbn [bind]. now rewrite M. }
  pose proof V0 as V0'. apply init_state in V0' as (m0 & ES0 & _).
  pose proof V1 as V1'. apply init_state in V1' as (m1 & ES1 & _).
  pose proof (fun o => next_not_out st0 msg o ltac:(rewrite ES0; reflexivity)) as X0.
  pose proof (fun o => next_not_out st1 msg o ltac:(rewrite ES1; reflexivity)) as X1.
  destruct (p1_verify_next p ctx st0 msg) as [[(st0' & t0)|o]|e] eqn:N0; cbn [bind].
  2:{ now destruct (X0 o). }
  2:{ unfold poplar1_message_failure. rewrite V0. cbn [bind]. rewrite V1. cbn [bind]. rewrite M. cbn [bind]. now rewrite N0. }
  destruct (p1_verify_next p ctx st1 msg) as [[(st1' & t1)|o]|e] eqn:N1; cbn [bind].
  2:{ now destruct (X1 o). }
  2:{ unfold poplar1_message_failure. rewrite V0. cbn [bind]. rewrite V1. cbn [bind]. rewrite M. cbn [bind]. rewrite N0. cbn [bind]. now rewrite N1. }
  exact (p1_failure_total p lim HO HWi HWl key ctx Hc ap Hap none nonce rand ps is0 is1 st0 s0 st1 s1 msg st0' t0 st1' t1
           WP W0 W1 V0 V1 M N0 N1).
Qed.
End P1.

Section Gen.
Context (p : Poplar1) (lim : Z) (HO : Poplar1Ok p lim).
Notation idpf := (p1_idpf p).
Notation Pi := (id_field_inner (p1_idpf p)).
Notation Pl := (id_field_leaf (p1_idpf p)).
Notation BITS := (id_BITS (p1_idpf p)).
Context (HWi : wf_field Pi) (HWl : wf_field Pl) (HK : id_KEY_SIZE idpf = SEED_SIZE (id_xof_inner idpf)).
Context (ctx : bytes) (m : list bool) (nonce rand : bytes) (ps : Poplar1PublicShare p) (iss : list (Poplar1InputShare p))
  (k0 k1 s0 s1 shard_seed : bytes) (ks : list (F Pi)) (kl : F Pl) (ci0 ci1 : list (F Pi)) (cl0 cl1 : list (F Pl))
  (oi0 oi1 : list (F Pi)) (ol0 ol1 : list (F Pl)).
Context (R : P1Report p ctx m nonce rand ps iss k0 k1 s0 s1 shard_seed ks kl ci0 ci1 cl0 cl1 oi0 oi1 ol0 ol1).
Context (Hc : ctx_ok ctx) (Hm : length m = BITS) (Hn : length nonce = p1_NONCE_SIZE).
Context (key : bytes) (Hk : length key = SEED_SIZE (p1_xof p)) (level : nat) (prefixes : list (list bool)).
Context (Hnd : NoDup prefixes) (Hpl : Forall (fun x => length x = S level) prefixes) (Hl : level < BITS)
  (Hap : agg_param_wf (Z.of_nat level, prefixes)).
Add Ring FringNP : (@F_ring Pi).
Add Ring FringNL : (@F_ring Pl).
Notation F0 := (@f0 Pi).

Lemma report_public : idpf_public_wf idpf ps.
Proof.
  destruct (pk_idpf _ _ HO) as [lim' HI].
  pose proof (gen_total idpf lim' HI _ _ _ _ _ _ (report_args p lim HO _ _ _ _ _ _ _ _ _ _ _ _ _ _ _ _ _ _ _ _ _ R Hc Hm Hn)) as Hps.
  rewrite (r1_gen _ _ _ _ _ _ _ _ _ _ _ _ _ _ _ _ _ _ _ _ _ _ R) in Hps. apply Hps.
Qed.

(** The generator, with 1 added to the first element of [ci0]. *)
Theorem p1_generator none c cs : ci0 = c :: cs ->
  match poplar1_message_failure p none key nonce rand ctx (Z.of_nat level, prefixes) ps
          (k0, s0, fadd c (fof 1) :: cs, cl0) (k1, s1, ci1, cl1) with
  | Ok _ => level = 0 /\ exists r, verify_rand_of p Pi key ctx nonce (Z.of_nat level) (length prefixes) = Ok r /\
      fadd (fadd (nth 0 oi0 f0) (nth 0 oi1 f0)) (path_rand prefixes level m r) <> f0
  | Raise e =>
      e = Exception_ "verifier_shares_to_message should fail" /\
      (level = 0 -> level < BITS - 1 -> exists r, verify_rand_of p Pi key ctx nonce (Z.of_nat level) (length prefixes) = Ok r /\
         fadd (fadd (nth 0 oi0 f0) (nth 0 oi1 f0)) (path_rand prefixes level m r) = f0) \/
      e = OutOfFuel /\ p1_ran_out p (length prefixes)
  end.
Proof.
  intros Ec.
  destruct (r1_keys _ _ _ _ _ _ _ _ _ _ _ _ _ _ _ _ _ _ _ _ _ _ R) as [Lk0 Lk1].
  destruct (r1_seeds _ _ _ _ _ _ _ _ _ _ _ _ _ _ _ _ _ _ _ _ _ _ R) as (Ls0 & Ls1 & _).
  destruct (r1_len_i _ _ _ _ _ _ _ _ _ _ _ _ _ _ _ _ _ _ _ _ _ _ R) as (Li0 & Li1).
  destruct (r1_len_l _ _ _ _ _ _ _ _ _ _ _ _ _ _ _ _ _ _ _ _ _ _ R) as (Ll0 & Ll1).
  assert (Lb : length (fadd c (fof 1) :: cs) = 2 * (BITS - 1)) by (rewrite Ec in Li0; exact Li0).
  pose proof (failure_of_real p lim HO HWi HWl key ctx Hc _ Hap none nonce rand ps
    (k0, s0, fadd c (fof 1) :: cs, cl0) (k1, s1, ci1, cl1) report_public
    ltac:(unfold p1_input_share_wf; repeat split; congruence) ltac:(unfold p1_input_share_wf; repeat split; congruence)) as FR.
  cbv zeta in FR.
  assert (L16 : (Z.of_nat level < 65536)%Z) by (destruct Hap as [H _]; cbn in H; lia).
  destruct (lt_dec level (BITS - 1)) as [Hi|Hi].
  - destruct (r1_oi _ _ _ _ _ _ _ _ _ _ _ _ _ _ _ _ _ _ _ _ _ _ R) as (dst & Hd & Eo0 & Eo1).
    pose proof (corr_inner p lim HO _ _ _ _ _ _ _ _ _ _ _ _ _ _ _ _ _ _ _ _ _ R Hc Hm Hn key level prefixes
      s0 s1 (fadd c (fof 1) :: cs) ci1 cl0 cl1 dst oi0 oi1 Hi Hnd Hpl Hk L16 Lb Li1 Hd Eo0 Eo1) as CI.
    set (rm := real_messages _ _ _ _ _ _ _ _) in *. destruct rm as [msgs|e] eqn:Er.
    2:{ cbn [post] in CI. rewrite FR. right. exact CI. }
    cbn [post] in CI. destruct CI as (r & Hr & sh0 & sh1 & t0 & t1 & z & -> & M1 & Hz & M2). rewrite M2 in FR. clear M2.
    pose proof (r1_inner _ _ _ _ _ _ _ _ _ _ _ _ _ _ _ _ _ _ _ _ _ _ R level Hi) as HI.
    destruct (Nat.eq_dec level 0) as [E0|N0].
    + assert (EE : corr_error (piece 3 level oi0) (piece 3 level oi1) (piece 2 level (fadd c (fof 1) :: cs)) (piece 2 level ci1)
                 (nth level ks f0) (nth 0 z f0) = nth 0 z f0).
      { unfold corr_error. rewrite <- HI. rewrite E0 in HI |- *. rewrite Ec. 
        destruct cs as [|c1 cs]; [cbn in Lb; lia|]. destruct ci1 as [|d0 [|d1 ds]]; [cbn in Li1; lia|cbn in Li1; lia|].
        cbn. change (fof 1) with (@f1 Pi). ring. }
      rewrite EE in FR.
      assert (Hz' : nth 0 z f0 = fadd (fadd (nth 0 oi0 f0) (nth 0 oi1 f0)) (path_rand prefixes level m r)).
      { rewrite Hz, E0. unfold piece. f_equal. f_equal; [destruct oi0 | destruct oi1]; reflexivity. }
      rewrite Hz' in FR. destruct (feqb _ f0) eqn:Ef.
      * rewrite FR. left. split; [easy|]. intros _ _. exists r. split; [easy|]. now apply feqb_eq in Ef.
      * destruct FR as (tv & ->). split; [easy|]. exists r. split; [easy|]. now apply feqb_neq in Ef.
    + assert (EE : corr_error (piece 3 level oi0) (piece 3 level oi1) (piece 2 level (fadd c (fof 1) :: cs)) (piece 2 level ci1)
                 (nth level ks f0) (nth 0 z f0) = f0).
      { replace (piece 2 level (fadd c (fof 1) :: cs)) with (piece 2 level ci0).
        2:{ unfold piece, slice. rewrite Ec. destruct level as [|l]; [lia|]. reflexivity. }
        unfold corr_error. rewrite HI. ring. }
      rewrite EE, (proj2 (feqb_eq f0 f0) eq_refl) in FR. rewrite FR. left. split; [easy|]. intros; lia.
  - destruct (r1_ol _ _ _ _ _ _ _ _ _ _ _ _ _ _ _ _ _ _ _ _ _ _ R) as (dst & Hd & Eo0 & Eo1).
    pose proof (corr_leaf p lim HO _ _ _ _ _ _ _ _ _ _ _ _ _ _ _ _ _ _ _ _ _ R Hc Hm Hn key level prefixes
      s0 s1 (fadd c (fof 1) :: cs) ci1 cl0 cl1 dst ol0 ol1 ltac:(lia) Hnd Hpl Hk L16 Ll0 Ll1 Hd Eo0 Eo1) as CI.
    set (rm := real_messages _ _ _ _ _ _ _ _) in *. destruct rm as [msgs|e] eqn:Er.
    2:{ cbn [post] in CI. rewrite FR. right. exact CI. }
    cbn [post] in CI. destruct CI as (r & Hr & sh0 & sh1 & t0 & t1 & z & -> & M1 & Hz & M2). rewrite M2 in FR. clear M2.
    pose proof (r1_leaf _ _ _ _ _ _ _ _ _ _ _ _ _ _ _ _ _ _ _ _ _ _ R) as HI.
    assert (EE : corr_error ol0 ol1 cl0 cl1 kl (nth 0 z f0) = f0) by (unfold corr_error; rewrite HI; ring).
    rewrite EE, (proj2 (feqb_eq f0 f0) eq_refl) in FR. rewrite FR. left. split; [easy|]. intros; lia.
Qed.
End Gen.

(** The whole generator. *)
Lemma gen_poplar1 (p : Poplar1) (lim : Z) (HO : Poplar1Ok p lim)
  (HWi : wf_field (id_field_inner (p1_idpf p))) (HWl : wf_field (id_field_leaf (p1_idpf p)))
  (HK : id_KEY_SIZE (p1_idpf p) = SEED_SIZE (id_xof_inner (p1_idpf p)))
  none ctx m level prefixes result_eqb : ctx_ok ctx -> length m = id_BITS (p1_idpf p) -> NoDup prefixes ->
  Forall (fun x => length x = S level) prefixes -> level < id_BITS (p1_idpf p) -> 1 < id_BITS (p1_idpf p) ->
  agg_param_wf (Z.of_nat level, prefixes) -> p1_VERIFY_KEY_SIZE p = SEED_SIZE (p1_xof p) ->
  match gen_poplar1_negative p none ctx m (Z.of_nat level, prefixes) with
  | Ok tv => level = 0 /\ check_test_vector (p1_vdaf p) result_eqb tv = Ok tt
  | Raise e => e = Exception_ "verifier_shares_to_message should fail" \/ e = OutOfFuel /\ p1_ran_out p (length prefixes)
  end.
Proof.
  intros Hc Hm Hnd Hpl Hl Hb Hap Hvk. unfold gen_poplar1_negative. cbv zeta.
  set (nonce := test_vec_gen_rand p1_NONCE_SIZE). set (rand := test_vec_gen_rand (p1_RAND_SIZE p)).
  set (key := test_vec_gen_rand (p1_VERIFY_KEY_SIZE p)).
  assert (GL : forall n, length (test_vec_gen_rand n) = n).
  { intros n. unfold test_vec_gen_rand, range. rewrite map_length, seq_length. lia. }
  pose proof (Poplar1Facts.shard_post1 p lim HO (length prefixes) ctx m nonce rand Hc Hm (GL _) (GL _)) as SP.
  destruct (p1_shard p ctx m nonce rand) as [[ps iss]|e]; [|right; exact SP]. cbn [post bind] in SP |- *.
  destruct SP as (k0 & k1 & s0 & s1 & ss & ks & kl & ci0 & ci1 & cl0 & cl1 & oi0 & oi1 & ol0 & ol1 & R).
  rewrite (r1_iss _ _ _ _ _ _ _ _ _ _ _ _ _ _ _ _ _ _ _ _ _ _ R). 
  destruct (r1_keys _ _ _ _ _ _ _ _ _ _ _ _ _ _ _ _ _ _ _ _ _ _ R) as [Lk0 Lk1].
  destruct (r1_seeds _ _ _ _ _ _ _ _ _ _ _ _ _ _ _ _ _ _ _ _ _ _ R) as (Ls0 & Ls1 & _).
  destruct (r1_len_i _ _ _ _ _ _ _ _ _ _ _ _ _ _ _ _ _ _ _ _ _ _ R) as (Li0 & Li1).
  destruct (r1_len_l _ _ _ _ _ _ _ _ _ _ _ _ _ _ _ _ _ _ _ _ _ _ R) as (Ll0 & Ll1).
  destruct ci0 as [|c cs] eqn:Ec; [cbn in Li0; lia|]. cbn [bad_corr_inner add_one_first bind].
  pose proof (p1_generator p lim HO HWi HWl HK ctx m nonce rand ps iss k0 k1 s0 s1 ss ks kl (c :: cs) ci1 cl0 cl1 oi0 oi1 ol0 ol1 R Hc Hm (GL _) key
    (eq_trans (GL _) Hvk) level prefixes Hnd Hpl Hl Hap none c cs eq_refl) as G.
  destruct (poplar1_message_failure _ _ _ _ _ _ _ _ _ _) as [tv|e] eqn:EG.
  - destruct G as [-> _]. split; [easy|].
    refine (p1_failure_passes p lim HO HWi HWl key ctx Hc _ Hap result_eqb none nonce rand ps _ _ tv _ _ _ EG).
    + exact (report_public p lim HO ctx m nonce rand ps iss k0 k1 s0 s1 ss ks kl _ ci1 cl0 cl1 oi0 oi1 ol0 ol1 R Hc Hm (GL _)).
    + unfold p1_input_share_wf. repeat split; [congruence | exact Ls0 | exact Li0 | exact Ll0].
    + unfold p1_input_share_wf. repeat split; congruence.
  - destruct G as [[-> _]|G]; [now left|now right].
Qed.
