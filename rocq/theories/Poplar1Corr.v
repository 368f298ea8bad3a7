(** What happens when the correlated randomness of a Poplar1 report is tampered
    with. *)
From Verif Require Export Poplar1CorrSpec.
From Verif Require Import Poplar1ViewSpec Poplar1ViewFacts Poplar1Run Poplar1Facts Poplar1Spec IdpfFacts PostFacts
  VecFacts FieldFacts BaseFacts CommonFacts SampleFacts.
Open Scope nat_scope.

Section C.
Context (p : Poplar1) (lim : Z) (HO : Poplar1Ok p lim).
Notation idpf := (p1_idpf p).
Notation Pi := (id_field_inner (p1_idpf p)).
Notation Pl := (id_field_leaf (p1_idpf p)).
Notation FVec := (FieldVec Pi Pl).
Notation BITS := (id_BITS (p1_idpf p)).

Section G.
Context (P : FieldClass) (inj : list (F P) -> FVec) (V : View p P inj).
Add Ring FringPC : (@F_ring P).

Lemma fint_feqb (x : F P) : (fint x =? 0)%Z = feqb x f0.
Proof.
  assert (E0v : fint (@f0 P) = 0%Z) by (unfold fint, f0; rewrite val_fof; apply Z.mod_0_l; pose proof (vw_mod _ _ _ V); lia).
  destruct (feqb x f0) eqn:E.
  - apply feqb_eq in E. subst. now rewrite E0v.
  - apply Z.eqb_neq. intros H. assert (x = f0) as ->; [|now rewrite (proj2 (feqb_eq f0 f0) eq_refl) in E].
    apply F_eq. change (fint x = fint (@f0 P)). congruence.
Qed.

Lemma corr_gen key ctx level lv prefixes m nonce ps is0 is1 (ev0 ev1 : res (list FVec))
  (abc0 abc1 AB0 AB1 : list (F P)) kk :
  NoDup prefixes -> length AB0 = 2 -> length AB1 = 2 -> length abc0 = 3 -> length abc1 = 3 ->
  ctx_ok ctx -> length key = SEED_SIZE (p1_xof p) -> (0 <= lv < 65536)%Z ->
  p1_verify_init p key ctx 0 (lv, prefixes) nonce ps is0
  = (let* out := ev0 in
     let* vr := verify_rand_of p P key ctx nonce lv (length prefixes) in
     Ok ((EVALUATE_SKETCH, lv, inj (AB0 ++ [fof 0] ++ data_of (map (fv_as P) out))), inj (sk abc0 (map (fv_as P) out) vr))) ->
  p1_verify_init p key ctx 1 (lv, prefixes) nonce ps is1
  = (let* out := ev1 in
     let* vr := verify_rand_of p P key ctx nonce lv (length prefixes) in
     Ok ((EVALUATE_SKETCH, lv, inj (AB1 ++ [fof 1] ++ data_of (map (fv_as P) out))), inj (sk abc1 (map (fv_as P) out) vr))) ->
  match ev0, ev1 with
  | Ok out0, Ok out1 => length out0 = length prefixes /\ length out1 = length prefixes /\
      forall k d, k < length prefixes -> zip_with fadd (fv_as P (nth k out0 d)) (fv_as P (nth k out1 d))
        = if list_eq_dec Bool.bool_dec (nth k prefixes []) (firstn (S level) m) then [fof 1; kk] else [f0; f0]
  | Raise e, _ => e = OutOfFuel /\ p1_ran_out p (length prefixes)
  | Ok _, Raise e => e = OutOfFuel /\ p1_ran_out p (length prefixes)
  end ->
  post (real_messages p key ctx (lv, prefixes) nonce ps is0 is1)
    (fun msgs => exists r, verify_rand_of p P key ctx nonce lv (length prefixes) = Ok r /\
       corr_outcome p inj ctx (lv, prefixes) abc0 abc1 AB0 AB1 kk (path_rand prefixes level m r) msgs)
    (fun e => e = OutOfFuel /\ p1_ran_out p (length prefixes)).
Proof.
  intros Hnd LA0 LA1 Lb0 Lb1 Hc Hk Hlv E1 E2 Hev. unfold real_messages. rewrite E1.
  pose proof (verify_rand_post p lim HO (length prefixes) P key ctx nonce lv (vw_P _ _ _ V) Hc Hk Hlv) as Hvr.
  destruct ev0 as [out0|e]; [|exact Hev]. cbn [bind].
  destruct (verify_rand_of p P key ctx nonce lv (length prefixes)) as [vr|e] eqn:Evr; [|exact Hvr]. cbn [bind]. rewrite E2.
  destruct ev1 as [out1|e]; [|exact Hev]. cbn [bind]. cbn [post] in Hvr.
  destruct Hev as (L0 & L1 & Hsum). set (n := length prefixes) in *.
  destruct (index_of prefixes (firstn (S level) m) Hnd) as [t Ht].
  set (v0 := map (fv_as P) out0). set (v1 := map (fv_as P) out1).
  assert (Lv0 : length v0 = n) by (unfold v0; now rewrite map_length).
  assert (Lv1 : length v1 = n) by (unfold v1; now rewrite map_length).
  assert (Hs : forall k, k < n -> zip_with fadd (nth k v0 []) (nth k v1 [])
     = if list_eq_dec Bool.bool_dec (nth k prefixes []) (firstn (S level) m) then [fof 1; kk] else [f0; f0]).
  { intros k Hk'. unfold v0, v1. rewrite !(nth_map' _ _ _ (inj [])) by lia. now apply Hsum. }
  assert (Hd : forall i, i < n -> fadd (nth i (data_of v0) f0) (nth i (data_of v1) f0) = if i =? t then f1 else f0).
  { intros i Hi. unfold data_of. rewrite !(nth_map' _ _ _ []) by lia. specialize (Hs i Hi). specialize (Ht i ltac:(lia)).
    destruct (list_eq_dec Bool.bool_dec (nth i prefixes []) (firstn (S level) m)); rewrite <- Ht;
    destruct (nth i v0 []) as [|x0 l0], (nth i v1 []) as [|y0 l1]; try discriminate; cbn [zip_with nth] in Hs |- *;
    apply (f_equal (fun l => nth 0 l f0)) in Hs; exact Hs. }
  assert (Hka : forall i, i < n -> fadd (nth i (auth_of v0) f0) (nth i (auth_of v1) f0) = if i =? t then kk else f0).
  { intros i Hi. unfold auth_of. rewrite !(nth_map' _ _ _ []) by lia. specialize (Hs i Hi). specialize (Ht i ltac:(lia)).
    destruct (list_eq_dec Bool.bool_dec (nth i prefixes []) (firstn (S level) m)); rewrite <- Ht;
    destruct (nth i v0 []) as [|x0 [|x1 l0]], (nth i v1 []) as [|y0 [|y1 l1]]; try discriminate; cbn [zip_with nth] in Hs |- *;
    apply (f_equal (fun l => nth 1 l f0)) in Hs; exact Hs. }
  unfold p1_verifier_shares_to_message at 1. cbn [length Nat.eqb check bind].
  match goal with |- context [get [?x; ?y] 0] => change (get [x; y] 0) with (Ok x); change (get [x; y] 1) with (Ok y) end. cbn [bind].
  rewrite (vw_add _ _ _ V). rewrite vec_add_ok by easy. cbn [bind]. rewrite (vw_len _ _ _ V).
  assert (M1 : zip_with fadd (sk abc0 v0 vr) (sk abc1 v1 vr) = _) by (apply msg1_sum; try easy; congruence).
  cbv zeta in M1. rewrite M1.
  set (D := zip_with fadd (data_of v0) (data_of v1)) in *. set (K := zip_with fadd (auth_of v0) (auth_of v1)) in *.
  set (abc := zip_with fadd abc0 abc1) in *.
  assert (Ld0 : length (data_of v0) = n) by (unfold data_of; now rewrite map_length).
  assert (Ld1 : length (data_of v1) = n) by (unfold data_of; now rewrite map_length).
  assert (Lk0 : length (auth_of v0) = n) by (unfold auth_of; now rewrite map_length).
  assert (Lk1 : length (auth_of v1) = n) by (unfold auth_of; now rewrite map_length).
  assert (LD : length D = n) by (unfold D; rewrite zip_with_length; lia).
  assert (ED : forall i, i < n -> nth i D f0 = if i =? t then f1 else f0).
  { intros i Hi. unfold D. rewrite (nth_zip_with _ _ _ _ f0 f0) by lia. now apply Hd. }
  assert (EK : K = map (fmul kk) D).
  { apply (vec_eq n).
    - unfold K. rewrite zip_with_length. lia.
    - now rewrite map_length.
    - intros i Hi. unfold K. rewrite (nth_zip_with _ _ _ _ f0 f0) by lia. rewrite Hka by easy.
      rewrite (nth_map' _ _ _ f0) by lia. rewrite ED by easy. destruct (i =? t); ring. }
  assert (EH : D = hot prefixes level m).
  { apply (vec_eq n); [easy | unfold hot; now rewrite map_length|]. intros i Hi. rewrite ED by easy. unfold hot.
    rewrite (nth_map' _ _ _ []) by lia. rewrite <- Ht by lia.
    now destruct (list_eq_dec Bool.bool_dec (nth i prefixes []) (firstn (S level) m)). }
  pose proof (sketch_identity abc (corr_pair abc kk) kk D vr t ltac:(congruence) ltac:(intros; apply ED; lia) eq_refl) as HS.
  cbv zeta in HS. rewrite <- EK in HS.
  set (z0 := fadd (nth 0 abc f0) (dot D vr)) in *.
  set (z1 := fadd (nth 1 abc f0) (dot D (squares vr))) in *.
  set (z2 := fadd (nth 2 abc f0) (dot K vr)) in *.
  destruct AB0 as [|A0 [|B0 [|]]]; try (simpl in LA0; lia).
  destruct AB1 as [|A1 [|B1 [|]]]; try (simpl in LA1; lia). cbn [app].
  cbn [length Nat.eqb bind].
  set (mv := fsub (fsub (fpow z0 2) z1) z2).
  assert (EN : forall j A B (d : list (F P)), p1_verify_next p ctx (EVALUATE_SKETCH, lv, inj (A :: B :: j :: d)) (Some (inj [z0; z1; z2]))
    = Ok (inl ((REVEAL_SKETCH, lv, inj d), inj [fadd (fadd (fmul j mv) (fmul A z0)) B]))).
  { intros j A B d. rewrite (vw_next _ _ _ V). cbn [length Nat.eqb check bind].
    unfold sketch_terms_in. cbn [get nth_error bind]. fold mv. unfold evaluate_in.
    cbn [get nth_error bind skipn]. now rewrite !fof_val. }
  rewrite !EN. cbn [bind post]. exists vr. split; [reflexivity|].
  do 4 eexists. exists [z0; z1; z2]. split; [reflexivity|]. split; [|split].
  - unfold p1_verifier_shares_to_message. cbn [length Nat.eqb check bind].
    match goal with |- context [get [?x; ?y] 0] => change (get [x; y] 0) with (Ok x); change (get [x; y] 1) with (Ok y) end. cbn [bind].
    rewrite (vw_add _ _ _ V), vec_add_ok by easy. cbn [bind]. rewrite (vw_len _ _ _ V), M1. reflexivity.
  - cbn [nth]. unfold z0, path_rand. rewrite EH. f_equal. unfold abc.
    destruct abc0 as [|a0 ?], abc1 as [|a1 ?]; try discriminate. reflexivity.
  - unfold p1_verifier_shares_to_message. cbn [length Nat.eqb check bind].
    match goal with |- context [get [?x; ?y] 0] => change (get [x; y] 0) with (Ok x); change (get [x; y] 1) with (Ok y) end. cbn [bind].
    rewrite (vw_add _ _ _ V). rewrite vec_add_ok by easy. cbn [bind zip_with]. rewrite (vw_len _ _ _ V). cbn [length Nat.eqb].
    rewrite (vw_vals _ _ _ V). cbn [map nth]. rewrite fint_feqb.
    match goal with |- (if feqb ?a _ then _ else _) = (if feqb ?b _ then _ else _) => assert (EZ : a = b) end.
    { unfold corr_error. fold abc. cbn [zip_with nth]. unfold mv. rewrite fpow_2. change (fof 0) with (@f0 P). change (fof 1) with (@f1 P).
      set (AA := nth 0 (corr_pair abc kk) f0) in *. set (BB := nth 1 (corr_pair abc kk) f0) in *.
      assert (EB : BB = fneg (fadd (fsub (fsub (fmul z0 z0) z1) z2) (fmul AA z0))).
      { transitivity (fsub (fadd (fadd (fsub (fsub (fmul z0 z0) z1) z2) (fmul AA z0)) BB) (fadd (fsub (fsub (fmul z0 z0) z1) z2) (fmul AA z0))); [ring|]. rewrite HS. ring. }
      rewrite EB. ring. }
    now rewrite EZ.
Qed.
End G.

Context (ctx : bytes) (m : list bool) (nonce rand : bytes) (ps : Poplar1PublicShare p) (iss : list (Poplar1InputShare p))
  (k0 k1 s0 s1 ss : bytes) (ks : list (F Pi)) (kl : F Pl) (ci0 ci1 : list (F Pi)) (cl0 cl1 : list (F Pl))
  (oi0 oi1 : list (F Pi)) (ol0 ol1 : list (F Pl)).
Context (R : P1Report p ctx m nonce rand ps iss k0 k1 s0 s1 ss ks kl ci0 ci1 cl0 cl1 oi0 oi1 ol0 ol1).
Context (Hc : ctx_ok ctx) (Hm : length m = BITS) (Hn : length nonce = p1_NONCE_SIZE).

Lemma report_args : gen_args_ok idpf m (map (fun k => [fof 1; k]) ks) [fof 1; kl] ctx nonce (k0 ++ k1).
Proof.
  constructor; try easy.
  - rewrite map_length. apply R.
  - apply Forall_forall. intros x Hx. apply in_map_iff in Hx. destruct Hx as (k & <- & _). now rewrite (pk_value _ _ HO).
  - now rewrite (pk_value _ _ HO).
  - now rewrite (pk_nonce _ _ HO).
  - rewrite app_length. destruct (r1_keys _ _ _ _ _ _ _ _ _ _ _ _ _ _ _ _ _ _ _ _ _ _ R) as [-> ->].
    unfold id_RAND_SIZE, id_KEY_SIZE. lia.
Qed.

Theorem corr_inner key level prefixes s0' s1' ci0' ci1' cl0' cl1' dst o0 o1 :
  level < BITS - 1 -> NoDup prefixes -> Forall (fun x => length x = S level) prefixes ->
  length key = SEED_SIZE (p1_xof p) -> (Z.of_nat level < 65536)%Z ->
  length ci0' = 2 * (BITS - 1) -> length ci1' = 2 * (BITS - 1) ->
  p1_dst USAGE_CORR_INNER ctx = Ok dst ->
  expand_into_vec (p1_xof p) Pi s0' dst (x00 :: nonce) (3 * (BITS - 1)) = Ok o0 ->
  expand_into_vec (p1_xof p) Pi s1' dst (x01 :: nonce) (3 * (BITS - 1)) = Ok o1 ->
  post (real_messages p key ctx (Z.of_nat level, prefixes) nonce ps (k0, s0', ci0', cl0') (k1, s1', ci1', cl1'))
    (fun msgs => exists r, verify_rand_of p Pi key ctx nonce (Z.of_nat level) (length prefixes) = Ok r /\
       corr_outcome p Inner ctx (Z.of_nat level, prefixes) (piece 3 level o0) (piece 3 level o1)
         (piece 2 level ci0') (piece 2 level ci1') (nth level ks f0) (path_rand prefixes level m r) msgs)
    (fun e => e = OutOfFuel /\ p1_ran_out p (length prefixes)).
Proof.
  intros Hlev Hnd Hpl Hk Hl16 Lc0 Lc1 Hd Eo0 Eo1.
  destruct (pk_idpf _ _ HO) as [lim' HI]. pose proof report_args as HG.
  pose proof (eval_sums idpf lim' HI _ _ _ _ _ _ ps k0 k1 level prefixes HG
    (r1_gen _ _ _ _ _ _ _ _ _ _ _ _ _ _ _ _ _ _ _ _ _ _ R) ltac:(lia) Hnd Hpl) as HE.
  pose proof (gen_total idpf lim' HI _ _ _ _ _ _ HG) as Hps.
  rewrite (r1_gen _ _ _ _ _ _ _ _ _ _ _ _ _ _ _ _ _ _ _ _ _ _ R) in Hps. destruct Hps as [Hps _].
  destruct (r1_keys _ _ _ _ _ _ _ _ _ _ _ _ _ _ _ _ _ _ _ _ _ _ R) as [Lk0 Lk1].
  rewrite (pk_value _ _ HO) in HE.
  assert (Lo0 : length o0 = 3 * (BITS - 1)) by (eapply expand_len; eassumption).
  assert (Lo1 : length o1 = 3 * (BITS - 1)) by (eapply expand_len; eassumption).
  apply (corr_gen Pi Inner (view_inner p lim HO) key ctx level (Z.of_nat level) prefixes m nonce ps _ _
    (idpf_eval idpf 0 ps k0 (Z.of_nat level) prefixes ctx nonce) (idpf_eval idpf 1 ps k1 (Z.of_nat level) prefixes ctx nonce));
    try easy; try (apply piece_length with (BITS - 1); [easy | lia]).
  - lia.
  - apply (init_inner p lim HO (length prefixes)) with (dst := dst); try easy. lia.
  - apply (init_inner p lim HO (length prefixes)) with (dst := dst); try easy. lia.
  - destruct (idpf_eval idpf 0 ps k0 (Z.of_nat level) prefixes ctx nonce) as [out0|e]; [|now destruct HE; split; [|left]].
    destruct (idpf_eval idpf 1 ps k1 (Z.of_nat level) prefixes ctx nonce) as [out1|e]; [|now destruct HE; split; [|left]].
    destruct HE as (L0 & L1 & F0 & F1 & Hsum). split; [congruence|]. split; [congruence|].
    intros k d Hk'. specialize (Hsum k d ltac:(lia)).
    destruct (of_level_as_inner p level (nth k out0 d) Hlev) as (l0 & El0 & Ll0).
    { apply (Forall_nth_len (of_level idpf level 2)); [exact F0 | lia]. }
    destruct (of_level_as_inner p level (nth k out1 d) Hlev) as (l1 & El1 & Ll1).
    { apply (Forall_nth_len (of_level idpf level 2)); [exact F1 | lia]. }
    rewrite El0, El1 in Hsum |- *. cbn [fv_add fv_as] in Hsum |- *. rewrite !map_fcast_id in *.
    rewrite vec_add_ok in Hsum by congruence. cbn [bind] in Hsum.
    unfold point_value, beta_at, zero_at in Hsum. rewrite (proj2 (Nat.ltb_lt _ _) Hlev) in Hsum. rewrite (pk_value _ _ HO) in Hsum.
    destruct (list_eq_dec Bool.bool_dec (nth k prefixes []) (firstn (S level) m)).
    + rewrite (nth_map' _ _ _ f0) in Hsum by (rewrite (r1_ks _ _ _ _ _ _ _ _ _ _ _ _ _ _ _ _ _ _ _ _ _ _ R); lia). now injection Hsum as ->.
    + now injection Hsum as ->.
Qed.

Theorem corr_leaf key level prefixes s0' s1' ci0' ci1' cl0' cl1' dst o0 o1 :
  BITS - 1 <= level < BITS -> NoDup prefixes -> Forall (fun x => length x = S level) prefixes ->
  length key = SEED_SIZE (p1_xof p) -> (Z.of_nat level < 65536)%Z ->
  length cl0' = 2 -> length cl1' = 2 ->
  p1_dst USAGE_CORR_LEAF ctx = Ok dst ->
  expand_into_vec (p1_xof p) Pl s0' dst (x00 :: nonce) 3 = Ok o0 ->
  expand_into_vec (p1_xof p) Pl s1' dst (x01 :: nonce) 3 = Ok o1 ->
  post (real_messages p key ctx (Z.of_nat level, prefixes) nonce ps (k0, s0', ci0', cl0') (k1, s1', ci1', cl1'))
    (fun msgs => exists r, verify_rand_of p Pl key ctx nonce (Z.of_nat level) (length prefixes) = Ok r /\
       corr_outcome p Leaf ctx (Z.of_nat level, prefixes) o0 o1 cl0' cl1' kl (path_rand prefixes level m r) msgs)
    (fun e => e = OutOfFuel /\ p1_ran_out p (length prefixes)).
Proof.
  intros Hlev Hnd Hpl Hk Hl16 Lc0 Lc1 Hd Eo0 Eo1.
  destruct (pk_idpf _ _ HO) as [lim' HI]. pose proof report_args as HG.
  pose proof (eval_sums idpf lim' HI _ _ _ _ _ _ ps k0 k1 level prefixes HG
    (r1_gen _ _ _ _ _ _ _ _ _ _ _ _ _ _ _ _ _ _ _ _ _ _ R) ltac:(lia) Hnd Hpl) as HE.
  pose proof (gen_total idpf lim' HI _ _ _ _ _ _ HG) as Hps.
  rewrite (r1_gen _ _ _ _ _ _ _ _ _ _ _ _ _ _ _ _ _ _ _ _ _ _ R) in Hps. destruct Hps as [Hps _].
  destruct (r1_keys _ _ _ _ _ _ _ _ _ _ _ _ _ _ _ _ _ _ _ _ _ _ R) as [Lk0 Lk1].
  rewrite (pk_value _ _ HO) in HE.
  assert (Lo0 : length o0 = 3) by (eapply expand_len; eassumption).
  assert (Lo1 : length o1 = 3) by (eapply expand_len; eassumption).
  apply (corr_gen Pl Leaf (view_leaf p lim HO) key ctx level (Z.of_nat level) prefixes m nonce ps _ _
    (idpf_eval idpf 0 ps k0 (Z.of_nat level) prefixes ctx nonce) (idpf_eval idpf 1 ps k1 (Z.of_nat level) prefixes ctx nonce));
    try easy.
  - lia.
  - apply (init_leaf p lim HO (length prefixes)) with (dst := dst); try easy. lia.
  - apply (init_leaf p lim HO (length prefixes)) with (dst := dst); try easy. lia.
  - destruct (idpf_eval idpf 0 ps k0 (Z.of_nat level) prefixes ctx nonce) as [out0|e]; [|now destruct HE; split; [|left]].
    destruct (idpf_eval idpf 1 ps k1 (Z.of_nat level) prefixes ctx nonce) as [out1|e]; [|now destruct HE; split; [|left]].
    destruct HE as (L0 & L1 & F0 & F1 & Hsum). split; [congruence|]. split; [congruence|].
    intros k d Hk'. specialize (Hsum k d ltac:(lia)).
    destruct (of_level_as_leaf p level (nth k out0 d) (proj1 Hlev)) as (l0 & El0 & Ll0).
    { apply (Forall_nth_len (of_level idpf level 2)); [exact F0 | lia]. }
    destruct (of_level_as_leaf p level (nth k out1 d) (proj1 Hlev)) as (l1 & El1 & Ll1).
    { apply (Forall_nth_len (of_level idpf level 2)); [exact F1 | lia]. }
    rewrite El0, El1 in Hsum |- *. cbn [fv_add fv_as] in Hsum |- *. rewrite !map_fcast_id in *.
    rewrite vec_add_ok in Hsum by congruence. cbn [bind] in Hsum.
    unfold point_value, beta_at, zero_at in Hsum. rewrite (proj2 (Nat.ltb_ge _ _) (proj1 Hlev)) in Hsum. rewrite (pk_value _ _ HO) in Hsum.
    destruct (list_eq_dec Bool.bool_dec (nth k prefixes []) (firstn (S level) m)).
    + now injection Hsum as ->.
    + now injection Hsum as ->.
Qed.
End C.

Section Offsets.
Context {P : FieldClass} (Hp : prime (MODULUS P)).
Add Ring FringCO : (@F_ring P).
Lemma corr_offsets (abc0 abc1 AB0 AB1 : list (F P)) (k z0 dA dB : F P) :
  length AB0 = 2 -> length AB1 = 2 -> zip_with fadd AB0 AB1 = corr_pair (zip_with fadd abc0 abc1) k ->
  let error := corr_error abc0 abc1 (zip_with fadd AB0 [dA; dB]) AB1 k z0 in
  error = fadd (fmul dA z0) dB /\
  (dA = f0 -> (error = f0 <-> dB = f0)) /\
  (dB = f0 -> dA <> f0 -> (error = f0 <-> z0 = f0)).
Proof.
  intros L0 L1 HE error.
  assert (E : error = fadd (fmul dA z0) dB).
  { unfold error, corr_error. rewrite <- HE.
    destruct AB0 as [|a [|b [|? ?]]]; try discriminate L0. destruct AB1 as [|a' [|b' [|? ?]]]; try discriminate L1. cbn. ring. }
  split; [exact E|]. rewrite E. split.
  - intros ->. now replace (fadd (fmul f0 z0) dB) with dB by ring.
  - intros -> Hd. replace (fadd (fmul dA z0) f0) with (fmul dA z0) by ring. split.
    + intros H. destruct (fmul_0 Hp _ _ H); [contradiction|easy].
    + intros ->. ring.
Qed.
End Offsets.
