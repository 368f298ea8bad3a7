(** Proofs for C106: a public share that puts the vote of a report elsewhere. *)
From Verif Require Export ExtractSpec VotesSpec.
From Verif Require Import VotesFacts ExtractFacts IdpfFacts PostFacts Poplar1End HeavyRun CircuitFacts.
Open Scope nat_scope.

Section V.
Context (p : Poplar1) (lim : Z) (HO : Poplar1Ok p lim) (n : nat).
Notation idpf := (p1_idpf p).
Notation xof := (p1_xof p).
Notation Pi := (id_field_inner (p1_idpf p)).
Notation Pl := (id_field_leaf (p1_idpf p)).
Notation BITS := (id_BITS (p1_idpf p)).
Notation FVec := (FieldVec Pi Pl).
Notation E0 := (fun e => e = OutOfFuel /\ p1_ran_out p n).

Section R.
Context (ctx : bytes) (m : list bool) (nonce rand : bytes) (ps0 ps : Poplar1PublicShare p) (iss : list (Poplar1InputShare p))
  (k0 k1 s0 s1 ss : bytes) (ks : list (F Pi)) (kl : F Pl) (ci0 ci1 : list (F Pi)) (cl0 cl1 : list (F Pl))
  (oi0 oi1 : list (F Pi)) (ol0 ol1 : list (F Pl)).
Context (R : P1Report p ctx m nonce rand ps0 iss k0 k1 s0 s1 ss ks kl ci0 ci1 cl0 cl1 oi0 oi1 ol0 ol1).
Context (Hc : ctx_ok ctx) (Hps : idpf_public_wf idpf ps) (x : list bool).

Definition auth_value (level : nat) : FVec := if level <? BITS - 1 then Inner [fof 1; nth level ks f0] else Leaf [fof 1; kl].
Definition evaluates (level : nat) (prefixes : list (list bool)) : Prop :=
  exists out0 out1, idpf_eval idpf 0 ps k0 (Z.of_nat level) prefixes ctx nonce = Ok out0 /\
    idpf_eval idpf 1 ps k1 (Z.of_nat level) prefixes ctx nonce = Ok out1 /\
    length out0 = n /\ length out1 = n /\ Forall (of_level idpf level 2) out0 /\ Forall (of_level idpf level 2) out1 /\
    forall k d, k < n -> fv_add (nth k out0 d) (nth k out1 d)
      = Ok (if list_eq_dec Bool.bool_dec (nth k prefixes []) (firstn (S level) x) then auth_value level else zero_at idpf level 2).

Lemma double_inner key level prefixes a0 a1 : level < BITS - 1 ->
  length prefixes = n -> NoDup prefixes -> evaluates level prefixes ->
  length key = SEED_SIZE xof -> (Z.of_nat level < 65536)%Z ->
  length a0 = n -> length a1 = n ->
  post (run_report (sending (p1_vdaf p)) key ctx (Z.of_nat level, prefixes) [Inner a0; Inner a1] ((ps, iss), nonce, []))
    (fun aggs => exists d0 d1, length d0 = n /\ length d1 = n /\ zip_with fadd d0 d1 = vhot true prefixes level x /\
       aggs = [Inner (zip_with fadd a0 d0); Inner (zip_with fadd a1 d1)]) E0.
Proof.
  intros Hlev Lp Hnd HE Hk Hl16 La0 La1.   destruct (pk_idpf _ _ HO) as [lim' HI].
  pose proof (io_bits _ _ HI) as HB.
  rewrite (r1_iss _ _ _ _ _ _ _ _ _ _ _ _ _ _ _ _ _ _ _ _ _ _ R).
  destruct (r1_oi _ _ _ _ _ _ _ _ _ _ _ _ _ _ _ _ _ _ _ _ _ _ R) as (dst & Hd & Eo0 & Eo1).
  destruct (r1_keys _ _ _ _ _ _ _ _ _ _ _ _ _ _ _ _ _ _ _ _ _ _ R) as [Lk0 Lk1].
  destruct (r1_len_i _ _ _ _ _ _ _ _ _ _ _ _ _ _ _ _ _ _ _ _ _ _ R) as [Lc0 Lc1].
  assert (Lo0 : length oi0 = 3 * (BITS - 1)) by (eapply expand_len; eassumption).
  assert (Lo1 : length oi1 = 3 * (BITS - 1)) by (eapply expand_len; eassumption).
  eapply (votes_gen p lim HO n true Pi Inner key ctx level (Z.of_nat level) prefixes x nonce a0 a1 ps _ _
    (idpf_eval idpf 0 ps k0 (Z.of_nat level) prefixes ctx nonce) (idpf_eval idpf 1 ps k1 (Z.of_nat level) prefixes ctx nonce)
    (piece 3 level oi0) (piece 3 level oi1) (piece 2 level ci0) (piece 2 level ci1) (nth level ks f0) (view_inner p lim HO));
    try eassumption; try lia.
  - intros is j ev abc AB [E|E]; injection E as -> -> -> -> ->.
    + assert (LA : length (piece 2 level ci0) = 2) by (apply piece_length with (BITS - 1); [easy | lia]).
      assert (Lb : length (piece 3 level oi0) = 3) by (apply piece_length with (BITS - 1); [easy | lia]).
      split; [exact LA|]. split; [exact Lb|].
      unfold p1_verify_init. apply bind_ext. intros out Ho. rewrite (level_is_inner_nat p). rewrite (proj2 (Nat.ltb_lt _ _) Hlev), Nat2Z.id.
      destruct (eval_Ok_level p lim HO _ _ _ _ _ _ _ _ Hc Lk0 Hps Ho) as [Lo Fo].
      change (2 * (level + 1)) with ((level + 1) + ((level + 1) + 0)). replace ((level + 1) + ((level + 1) + 0)) with (level * 2 + 2) by lia. replace (2 * level) with (level * 2) by lia.
      rewrite Lp. erewrite (verify_init_in_ok p n Pi _ _ _ key ctx 0 (Z.of_nat level) nonce s0 _ dst (BITS - 1) oi0 (piece 3 level oi0)); try eassumption; try lia.
      * rewrite bind_assoc. apply bind_ext. intros vr _. easy.
      * apply (vw_mod _ _ _ (view_inner p lim HO)).
      * right. exists level. easy.
      * rewrite map_length. congruence.
      * apply Forall_forall. intros z Hz. apply in_map_iff in Hz. destruct Hz as (y & <- & Hy).
        rewrite Forall_forall in Fo. destruct (of_level_as_inner p level y Hlev (Fo y Hy)) as (l & -> & Hl). cbn [fv_as]. now rewrite map_length.
      * intros vr Hvr. pose proof (verify_rand_post p lim HO n Pi key ctx nonce (Z.of_nat level) (vw_P _ _ _ (view_inner p lim HO)) Hc Hk ltac:(lia)) as HV.
        rewrite Hvr in HV. exact HV.
    + assert (LA : length (piece 2 level ci1) = 2) by (apply piece_length with (BITS - 1); [easy | lia]).
      assert (Lb : length (piece 3 level oi1) = 3) by (apply piece_length with (BITS - 1); [easy | lia]).
      split; [exact LA|]. split; [exact Lb|].
      unfold p1_verify_init. apply bind_ext. intros out Ho. rewrite (level_is_inner_nat p). rewrite (proj2 (Nat.ltb_lt _ _) Hlev), Nat2Z.id.
      destruct (eval_Ok_level p lim HO _ _ _ _ _ _ _ _ Hc Lk1 Hps Ho) as [Lo Fo].
      change (2 * (level + 1)) with ((level + 1) + ((level + 1) + 0)). replace ((level + 1) + ((level + 1) + 0)) with (level * 2 + 2) by lia. replace (2 * level) with (level * 2) by lia.
      rewrite Lp. erewrite (verify_init_in_ok p n Pi _ _ _ key ctx 1 (Z.of_nat level) nonce s1 _ dst (BITS - 1) oi1 (piece 3 level oi1)); try eassumption; try lia.
      * rewrite bind_assoc. apply bind_ext. intros vr _. easy.
      * apply (vw_mod _ _ _ (view_inner p lim HO)).
      * right. exists level. easy.
      * rewrite map_length. congruence.
      * apply Forall_forall. intros z Hz. apply in_map_iff in Hz. destruct Hz as (y & <- & Hy).
        rewrite Forall_forall in Fo. destruct (of_level_as_inner p level y Hlev (Fo y Hy)) as (l & -> & Hl). cbn [fv_as]. now rewrite map_length.
      * intros vr Hvr. pose proof (verify_rand_post p lim HO n Pi key ctx nonce (Z.of_nat level) (vw_P _ _ _ (view_inner p lim HO)) Hc Hk ltac:(lia)) as HV.
        rewrite Hvr in HV. exact HV.
  - apply (r1_inner _ _ _ _ _ _ _ _ _ _ _ _ _ _ _ _ _ _ _ _ _ _ R). lia.
  - destruct HE as (out0 & out1 & -> & -> & L0 & L1 & F0 & F1 & Hsum). split; [congruence|]. split; [congruence|].
    intros k d Hk'. specialize (Hsum k d Hk').
    destruct (of_level_as_inner p level (nth k out0 d) Hlev) as (l0 & El0 & Ll0).
    { apply (Forall_nth_len (of_level idpf level 2)); [exact F0 | lia]. }
    destruct (of_level_as_inner p level (nth k out1 d) Hlev) as (l1 & El1 & Ll1).
    { apply (Forall_nth_len (of_level idpf level 2)); [exact F1 | lia]. }
    rewrite El0, El1 in Hsum |- *. cbn [fv_add fv_as] in Hsum |- *. rewrite !map_fcast_id in *.
    rewrite vec_add_ok in Hsum by congruence. cbn [bind] in Hsum.
    unfold auth_value, zero_at in Hsum. rewrite (proj2 (Nat.ltb_lt _ _) Hlev) in Hsum.
    destruct (list_eq_dec Bool.bool_dec (nth k prefixes []) (firstn (S level) x)); now injection Hsum as ->.
Qed.
Lemma double_leaf key level prefixes a0 a1 : BITS - 1 <= level < BITS ->
  length prefixes = n -> NoDup prefixes -> evaluates level prefixes ->
  length key = SEED_SIZE xof -> (Z.of_nat level < 65536)%Z ->
  length a0 = n -> length a1 = n ->
  post (run_report (sending (p1_vdaf p)) key ctx (Z.of_nat level, prefixes) [Leaf a0; Leaf a1] ((ps, iss), nonce, []))
    (fun aggs => exists d0 d1, length d0 = n /\ length d1 = n /\ zip_with fadd d0 d1 = vhot true prefixes level x /\
       aggs = [Leaf (zip_with fadd a0 d0); Leaf (zip_with fadd a1 d1)]) E0.
Proof.
  intros Hlev Lp Hnd HE Hk Hl16 La0 La1.   destruct (pk_idpf _ _ HO) as [lim' HI].
  pose proof (io_bits _ _ HI) as HB.
  rewrite (r1_iss _ _ _ _ _ _ _ _ _ _ _ _ _ _ _ _ _ _ _ _ _ _ R).
  destruct (r1_ol _ _ _ _ _ _ _ _ _ _ _ _ _ _ _ _ _ _ _ _ _ _ R) as (dst & Hd & Eo0 & Eo1).
  destruct (r1_keys _ _ _ _ _ _ _ _ _ _ _ _ _ _ _ _ _ _ _ _ _ _ R) as [Lk0 Lk1].
  destruct (r1_len_l _ _ _ _ _ _ _ _ _ _ _ _ _ _ _ _ _ _ _ _ _ _ R) as [Lc0 Lc1].
  assert (Lo0 : length ol0 = 3 * 1) by (eapply expand_len; eassumption).
  assert (Lo1 : length ol1 = 3 * 1) by (eapply expand_len; eassumption).
  eapply (votes_gen p lim HO n true Pl Leaf key ctx level (Z.of_nat level) prefixes x nonce a0 a1 ps _ _
    (idpf_eval idpf 0 ps k0 (Z.of_nat level) prefixes ctx nonce) (idpf_eval idpf 1 ps k1 (Z.of_nat level) prefixes ctx nonce)
    ol0 ol1 cl0 cl1 kl (view_leaf p lim HO));
    try eassumption; try lia.
  - intros is j ev abc AB [E|E]; injection E as -> -> -> -> ->.
    + assert (LA : length cl0 = 2) by easy.
      assert (Lb : length ol0 = 3) by easy.
      split; [exact LA|]. split; [exact Lb|].
      unfold p1_verify_init. apply bind_ext. intros out Ho. rewrite (level_is_inner_nat p). rewrite (proj2 (Nat.ltb_ge _ _) (proj1 Hlev)).
      destruct (eval_Ok_level p lim HO _ _ _ _ _ _ _ _ Hc Lk0 Hps Ho) as [Lo Fo].
      
      rewrite Lp. erewrite (verify_init_in_ok p n Pl _ _ _ key ctx 0 (Z.of_nat level) nonce s0 _ dst 1 ol0 ol0); try eassumption; try lia.
      * rewrite bind_assoc. apply bind_ext. intros vr _. easy.
      * apply (vw_mod _ _ _ (view_leaf p lim HO)).
      * left. easy.
      * rewrite map_length. congruence.
      * apply Forall_forall. intros z Hz. apply in_map_iff in Hz. destruct Hz as (y & <- & Hy).
        rewrite Forall_forall in Fo. destruct (of_level_as_leaf p level y (proj1 Hlev) (Fo y Hy)) as (l & -> & Hl). cbn [fv_as]. now rewrite map_length.
      * intros vr Hvr. pose proof (verify_rand_post p lim HO n Pl key ctx nonce (Z.of_nat level) (vw_P _ _ _ (view_leaf p lim HO)) Hc Hk ltac:(lia)) as HV.
        rewrite Hvr in HV. exact HV.
    + assert (LA : length cl1 = 2) by easy.
      assert (Lb : length ol1 = 3) by easy.
      split; [exact LA|]. split; [exact Lb|].
      unfold p1_verify_init. apply bind_ext. intros out Ho. rewrite (level_is_inner_nat p). rewrite (proj2 (Nat.ltb_ge _ _) (proj1 Hlev)).
      destruct (eval_Ok_level p lim HO _ _ _ _ _ _ _ _ Hc Lk1 Hps Ho) as [Lo Fo].
      
      rewrite Lp. erewrite (verify_init_in_ok p n Pl _ _ _ key ctx 1 (Z.of_nat level) nonce s1 _ dst 1 ol1 ol1); try eassumption; try lia.
      * rewrite bind_assoc. apply bind_ext. intros vr _. easy.
      * apply (vw_mod _ _ _ (view_leaf p lim HO)).
      * left. easy.
      * rewrite map_length. congruence.
      * apply Forall_forall. intros z Hz. apply in_map_iff in Hz. destruct Hz as (y & <- & Hy).
        rewrite Forall_forall in Fo. destruct (of_level_as_leaf p level y (proj1 Hlev) (Fo y Hy)) as (l & -> & Hl). cbn [fv_as]. now rewrite map_length.
      * intros vr Hvr. pose proof (verify_rand_post p lim HO n Pl key ctx nonce (Z.of_nat level) (vw_P _ _ _ (view_leaf p lim HO)) Hc Hk ltac:(lia)) as HV.
        rewrite Hvr in HV. exact HV.
  - apply (r1_leaf _ _ _ _ _ _ _ _ _ _ _ _ _ _ _ _ _ _ _ _ _ _ R).
  - destruct HE as (out0 & out1 & -> & -> & L0 & L1 & F0 & F1 & Hsum). split; [congruence|]. split; [congruence|].
    intros k d Hk'. specialize (Hsum k d Hk').
    destruct (of_level_as_leaf p level (nth k out0 d) (proj1 Hlev)) as (l0 & El0 & Ll0).
    { apply (Forall_nth_len (of_level idpf level 2)); [exact F0 | lia]. }
    destruct (of_level_as_leaf p level (nth k out1 d) (proj1 Hlev)) as (l1 & El1 & Ll1).
    { apply (Forall_nth_len (of_level idpf level 2)); [exact F1 | lia]. }
    rewrite El0, El1 in Hsum |- *. cbn [fv_add fv_as] in Hsum |- *. rewrite !map_fcast_id in *.
    rewrite vec_add_ok in Hsum by congruence. cbn [bind] in Hsum.
    unfold auth_value, zero_at in Hsum. rewrite (proj2 (Nat.ltb_ge _ _) (proj1 Hlev)) in Hsum.
    destruct (list_eq_dec Bool.bool_dec (nth k prefixes []) (firstn (S level) x)); now injection Hsum as ->.
Qed.

(** The evaluation at a list of prefixes, from those at each of them. *)
Lemma eval_single j (q : Poplar1PublicShare p) key level prefix y : j < 2 -> level < BITS ->
  idpf_eval idpf j q key (Z.of_nat level) [prefix] ctx nonce = Ok [y] ->
  eval_prefix idpf j q key (Z.of_nat level) ctx nonce prefix = Ok y.
Proof.
  intros Hj Hl H. rewrite eval_ok_args in H by (try lia; repeat constructor; easy). cbn [mapM] in H.
  destruct (eval_prefix _ _ _ _ _ _ _ _) as [z|e]; cbn [bind] in H; [now injection H as ->|discriminate].
Qed.

Lemma mapM_each {A B} (f : A -> res B) l : (forall x, In x l -> exists y, f x = Ok y) -> exists out, mapM f l = Ok out.
Proof.
  induction l as [|a l IH]; intros H; [now exists []|]. destruct (H a (or_introl eq_refl)) as [y Hy].
  destruct IH as [o Ho]; [intros z Hz; apply H; now right|]. exists (y :: o). cbn [mapM]. now rewrite Hy, Ho.
Qed.

Lemma mapM_nth {A B} (f : A -> res B) l out : mapM f l = Ok out -> forall k d d', k < length l -> f (nth k l d) = Ok (nth k out d').
Proof.
  revert out. induction l as [|a l IH]; intros out H k d d' Hk; [cbn in Hk; lia|]. cbn [mapM] in H.
  apply bind_Ok in H. destruct H as (y & Hy & H). apply bind_Ok in H. destruct H as (o & Ho & H). injection H as <-.
  destruct k; [exact Hy|]. cbn [nth]. apply IH; [exact Ho|cbn in Hk; lia].
Qed.

Lemma evaluates_of level prefixes : level < BITS -> length prefixes = n -> NoDup prefixes ->
  (forall y, In y prefixes -> joint_value ctx nonce ps k0 k1 level y
     (if list_eq_dec Bool.bool_dec y (firstn (S level) x) then auth_value level else zero_at idpf level 2)) ->
  evaluates level prefixes.
Proof.
  intros Hl Ln Hnd HJ. destruct (r1_keys _ _ _ _ _ _ _ _ _ _ _ _ _ _ _ _ _ _ _ _ _ _ R) as [Lk0 Lk1].
  destruct (mapM_each (eval_prefix idpf 0 ps k0 (Z.of_nat level) ctx nonce) prefixes) as [out0 O0].
  { intros y Hy. destruct (HJ y Hy) as (y0 & y1 & A & _). exists y0. eapply eval_single; try eassumption; lia. }
  destruct (mapM_each (eval_prefix idpf 1 ps k1 (Z.of_nat level) ctx nonce) prefixes) as [out1 O1].
  { intros y Hy. destruct (HJ y Hy) as (y0 & y1 & _ & B & _). exists y1. eapply eval_single; try eassumption; lia. }
  assert (P0 : idpf_eval idpf 0 ps k0 (Z.of_nat level) prefixes ctx nonce = Ok out0) by (rewrite eval_ok_args; try easy; lia).
  assert (P1 : idpf_eval idpf 1 ps k1 (Z.of_nat level) prefixes ctx nonce = Ok out1) by (rewrite eval_ok_args; try easy; lia).
  destruct (eval_Ok_level p lim HO _ _ _ _ _ _ _ _ Hc Lk0 Hps P0) as [L0 F0].
  destruct (eval_Ok_level p lim HO _ _ _ _ _ _ _ _ Hc Lk1 Hps P1) as [L1 F1].
  exists out0, out1. split; [exact P0|]. split; [exact P1|]. split; [congruence|]. split; [congruence|]. split; [exact F0|]. split; [exact F1|].
  intros k d Hk. assert (Hk' : k < length prefixes) by lia.
  pose proof (mapM_nth _ _ _ O0 k [] d Hk') as Q0. pose proof (mapM_nth _ _ _ O1 k [] d Hk') as Q1.
  destruct (HJ (nth k prefixes []) (nth_In _ _ Hk')) as (y0 & y1 & A & B & C).
  apply eval_single in A; [|lia|exact Hl]. apply eval_single in B; [|lia|exact Hl].
  rewrite A in Q0. rewrite B in Q1. injection Q0 as <-. injection Q1 as <-. exact C.
Qed.

(** What the honest report evaluates to at its own prefix. *)
Lemma honest_value level v : length m = BITS -> length nonce = p1_NONCE_SIZE -> level < BITS ->
  joint_value ctx nonce ps0 k0 k1 level (firstn (S level) m) v -> v = auth_value level.
Proof.
  intros Hm Hn Hl (y0 & y1 & A & B & C). destruct (pk_idpf _ _ HO) as [lim' HI].
  destruct (r1_keys _ _ _ _ _ _ _ _ _ _ _ _ _ _ _ _ _ _ _ _ _ _ R) as [Lk0 Lk1].
  assert (HG : gen_args_ok idpf m (map (fun k => [fof 1; k]) ks) [fof 1; kl] ctx nonce (k0 ++ k1)).
  { constructor; try easy.
    - rewrite map_length. apply (r1_ks _ _ _ _ _ _ _ _ _ _ _ _ _ _ _ _ _ _ _ _ _ _ R).
    - apply Forall_forall. intros z Hz. apply in_map_iff in Hz. destruct Hz as (k & <- & _). now rewrite (pk_value _ _ HO).
    - now rewrite (pk_value _ _ HO).
    - now rewrite (pk_nonce _ _ HO).
    - rewrite app_length, Lk0, Lk1. unfold id_RAND_SIZE, id_KEY_SIZE. lia. }
  pose proof (eval_sums idpf lim' HI _ _ _ _ _ _ ps0 k0 k1 level [firstn (S level) m] HG
    (r1_gen _ _ _ _ _ _ _ _ _ _ _ _ _ _ _ _ _ _ _ _ _ _ R) Hl
    ltac:(repeat constructor; easy) ltac:(repeat constructor; rewrite firstn_length; lia)) as HE.
  rewrite A, B in HE. destruct HE as (_ & _ & _ & _ & HE). specialize (HE 0 y0 ltac:(cbn; lia)). cbn [nth] in HE.
  unfold joint_value in C. rewrite C in HE. injection HE as ->.
  unfold point_value. destruct (list_eq_dec _ _ _) as [_|N]; [|now elim N].
  unfold beta_at, auth_value. destruct (level <? BITS - 1) eqn:EL; [|reflexivity]. apply Nat.ltb_lt in EL.
  rewrite (nth_map' _ _ _ f0); [reflexivity|]. rewrite (r1_ks _ _ _ _ _ _ _ _ _ _ _ _ _ _ _ _ _ _ _ _ _ _ R). exact EL.
Qed.

Theorem double_run key level prefixes : length x = BITS -> length nonce = p1_NONCE_SIZE -> level < BITS ->
  length prefixes = n -> NoDup prefixes -> evaluates level prefixes ->
  length key = SEED_SIZE xof -> (Z.of_nat level < 65536)%Z ->
  run_vdaf (sending (p1_vdaf p)) key (Z.of_nat level, prefixes) ctx [((ps, iss), nonce, [])] = Ok (vote_counts (fun _ => true) level x prefixes) \/
  (run_vdaf (sending (p1_vdaf p)) key (Z.of_nat level, prefixes) ctx [((ps, iss), nonce, [])] = Raise OutOfFuel /\ p1_ran_out p n).
Proof.
  intros Hx Hn Hl Lp Hnd HE Hk Hl16. assert (Lz : forall P, length (@fzeros P n) = n) by (intros P; unfold fzeros; apply repeat_length).
  destruct (Nat.lt_ge_cases level (BITS - 1)) as [Hi|Hi].
  - apply (votes_finish p n ctx x nonce ps iss Hx Hn (fun _ => true) Pi Inner (view_inner p lim HO)); try assumption; [|now apply double_inner].
    unfold p1_agg_init. rewrite level_is_inner_nat, (proj2 (Nat.ltb_lt _ _) Hi), Lp. reflexivity.
  - apply (votes_finish p n ctx x nonce ps iss Hx Hn (fun _ => true) Pl Leaf (view_leaf p lim HO)); try assumption; [|now apply double_leaf].
    unfold p1_agg_init. rewrite level_is_inner_nat, (proj2 (Nat.ltb_ge _ _) Hi), Lp. reflexivity.
Qed.
End R.
End V.

Theorem moved_vote (p : Poplar1) (lim : Z) : Poplar1Ok p lim -> forall ctx m nonce rand ps0 iss ps k0 k1 key level prefixes x v,
  ctx_ok ctx -> length m = id_BITS (p1_idpf p) -> length nonce = p1_NONCE_SIZE -> length rand = p1_RAND_SIZE p ->
  p1_shard p ctx m nonce rand = Ok (ps0, iss) -> map (fun '(k, _, _, _) => k) iss = [k0; k1] -> idpf_public_wf (p1_idpf p) ps ->
  level < id_BITS (p1_idpf p) -> (Z.of_nat level < 65536)%Z -> NoDup prefixes -> length x = S level ->
  length key = SEED_SIZE (p1_xof p) ->
  joint_value ctx nonce ps0 k0 k1 level (firstn (S level) m) v ->
  (forall y, In y prefixes -> joint_value ctx nonce ps k0 k1 level y
     (if list_eq_dec Bool.bool_dec y x then v else zero_at (p1_idpf p) level 2)) ->
  run_vdaf (sending (p1_vdaf p)) key (Z.of_nat level, prefixes) ctx [((ps, iss), nonce, [])]
    = Ok (map (fun y => if list_eq_dec Bool.bool_dec y x then 1%Z else 0%Z) prefixes) \/
  (run_vdaf (sending (p1_vdaf p)) key (Z.of_nat level, prefixes) ctx [((ps, iss), nonce, [])] = Raise OutOfFuel /\ p1_ran_out p (length prefixes)).
Proof.
  intros HO ctx m nonce rand ps0 iss ps k0 k1 key level prefixes x v Hc Hm Hn Hr ES EK W Hl Hl16 Hnd Hx Hk Hv HJ.
  pose proof (shard_post1 p lim HO 0 ctx m nonce rand Hc Hm Hn Hr) as HS. rewrite ES in HS.
  destruct HS as (a0 & a1 & s0 & s1 & ss & ks & kl & ci0 & ci1 & cl0 & cl1 & oi0 & oi1 & ol0 & ol1 & R).
  pose proof (r1_iss _ _ _ _ _ _ _ _ _ _ _ _ _ _ _ _ _ _ _ _ _ _ R) as EI. rewrite EI in EK. cbn [map] in EK. injection EK as -> ->.
  set (xx := x ++ repeat false (id_BITS (p1_idpf p) - S level)).
  assert (Lxx : length xx = id_BITS (p1_idpf p)) by (unfold xx; rewrite app_length, repeat_length; lia).
  assert (Fxx : firstn (S level) xx = x) by (unfold xx; rewrite <- Hx, firstn_app, Nat.sub_diag, firstn_all; apply app_nil_r).
  pose proof (honest_value p lim HO ctx m nonce rand ps0 iss k0 k1 s0 s1 ss ks kl ci0 ci1 cl0 cl1 oi0 oi1 ol0 ol1 R Hc level v Hm Hn Hl Hv) as ->.
  assert (HE : evaluates p (length prefixes) ctx nonce ps k0 k1 ks kl xx level prefixes).
  { eapply (evaluates_of p lim HO (length prefixes)); try eassumption; try reflexivity. intros y Hy. rewrite Fxx. now apply HJ. }
  pose proof (double_run p lim HO (length prefixes) ctx m nonce rand ps0 ps iss k0 k1 s0 s1 ss ks kl ci0 ci1 cl0 cl1 oi0 oi1 ol0 ol1 R Hc W xx
    key level prefixes Lxx Hn Hl eq_refl Hnd HE Hk Hl16) as [D|D]; [left|right; exact D].
  unfold vote_counts in D. rewrite Fxx in D. exact D.
Qed.
