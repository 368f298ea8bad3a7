(** Proofs for C96. *)
From Verif Require Export VotesSpec.
From Verif Require Import Poplar1End HeavyRun CircuitFacts.
Open Scope nat_scope.

Section V.
Context (p : Poplar1) (lim : Z) (HO : Poplar1Ok p lim) (n : nat).
Notation idpf := (p1_idpf p).
Notation xof := (p1_xof p).
Notation Pi := (id_field_inner (p1_idpf p)).
Notation Pl := (id_field_leaf (p1_idpf p)).
Notation BITS := (id_BITS (p1_idpf p)).
Notation FVec := (FieldVec Pi Pl).
Notation E0 := (fun e => e = OutOfFuel /\ p1_ran_out p n).

Definition vhot {P : FieldClass} (vote : bool) (prefixes : list (list bool)) (level : nat) (m : list bool) : list (F P) :=
  map (fun x => if list_eq_dec Bool.bool_dec x (firstn (S level) m) then (if vote then f1 else f0) else f0) prefixes.

Lemma vote_index vote (prefixes : list (list bool)) x : NoDup prefixes -> exists t, forall i, i < length prefixes ->
  (if list_eq_dec Bool.bool_dec (nth i prefixes []) x then vote else false) = (i =? t).
Proof.
  intros N. destruct vote; [now apply index_of|]. exists (length prefixes). intros i Hi.
  rewrite (proj2 (Nat.eqb_neq i (length prefixes))) by lia. now destruct (list_eq_dec _ _ _).
Qed.

Lemma votes_gen (vote : bool) P inj key ctx level lv prefixes m nonce a0 a1 ps is0 is1 (ev0 ev1 : res (list FVec))
  (abc0 abc1 AB0 AB1 : list (F P)) kk :
  View p P inj -> length prefixes = n -> NoDup prefixes ->
  ctx_ok ctx -> length key = SEED_SIZE xof -> (0 <= lv < 65536)%Z ->
  (forall is j ev (abc AB : list (F P)), (is, j, ev, abc, AB) = (is0, 0, ev0, abc0, AB0) \/ (is, j, ev, abc, AB) = (is1, 1, ev1, abc1, AB1) ->
   length AB = 2 /\ length abc = 3 /\
   p1_verify_init p key ctx j (lv, prefixes) nonce ps is
   = let* out := ev in
     let* vr := verify_rand_of p P key ctx nonce lv n in
     Ok ((EVALUATE_SKETCH, lv, inj (AB ++ [fof (Z.of_nat j)] ++ data_of (map (fv_as P) out))), inj (sk abc (map (fv_as P) out) vr))) ->
  zip_with fadd AB0 AB1 = corr_pair (zip_with fadd abc0 abc1) kk ->
  match ev0, ev1 with
  | Ok out0, Ok out1 => length out0 = n /\ length out1 = n /\
      forall k d, k < n -> zip_with fadd (fv_as P (nth k out0 d)) (fv_as P (nth k out1 d))
        = if list_eq_dec Bool.bool_dec (nth k prefixes []) (firstn (S level) m) then (if vote then [fof 1; kk] else [f0; f0]) else [f0; f0]
  | Raise e, _ => E0 e
  | Ok _, Raise e => E0 e
  end ->
  length a0 = n -> length a1 = n ->
  post (run_report (sending (p1_vdaf p)) key ctx (lv, prefixes) [inj a0; inj a1] ((ps, [is0; is1]), nonce, []))
    (fun aggs => exists d0 d1, length d0 = n /\ length d1 = n /\ zip_with fadd d0 d1 = vhot vote prefixes level m /\
       aggs = [inj (zip_with fadd a0 d0); inj (zip_with fadd a1 d1)]) E0.
Proof.
  intros V Lp Hnd Hc Hk Hlv Hvi HAB Hev La0 La1. unfold run_report.
  change (vd_shard (sending (p1_vdaf p)) ctx (ps, [is0; is1]) nonce []) with (@Ok (Poplar1PublicShare p * list (Poplar1InputShare p)) (ps, [is0; is1])). cbn [bind].
  change (run_verify_init (sending (p1_vdaf p))) with (run_verify_init (p1_vdaf p)).
  change (run_rounds (sending (p1_vdaf p))) with (run_rounds (p1_vdaf p)).
  change (run_finish (sending (p1_vdaf p))) with (run_finish (p1_vdaf p)).
  destruct (Hvi is0 0 ev0 abc0 AB0 (or_introl eq_refl)) as (LA0 & Lb0 & E1).
  destruct (Hvi is1 1 ev1 abc1 AB1 (or_intror eq_refl)) as (LA1 & Lb1 & E2).
  unfold run_verify_init. change (vd_SHARES (p1_vdaf p)) with 2. rewrite for_range_2.
  change (get [is0; is1] 0) with (Ok is0). cbn [bind].
  change (vd_verify_init (p1_vdaf p)) with (p1_verify_init p). rewrite E1.
  pose proof (verify_rand_post p lim HO n P key ctx nonce lv (vw_P _ _ _ V) Hc Hk Hlv) as Hvr.
  destruct ev0 as [out0|e]; [|exact Hev]. cbn [bind].
  destruct (verify_rand_of p P key ctx nonce lv n) as [vr|e] eqn:Evr; [|exact Hvr]. cbn [bind].
  change (get [is0; is1] 1) with (Ok is1). cbn [bind].
  change (vd_verify_init (p1_vdaf p)) with (p1_verify_init p). rewrite E2.
  destruct ev1 as [out1|e]; [|exact Hev]. cbn [bind app]. cbn [post] in Hvr.
  destruct Hev as (L0 & L1 & Hsum).
  destruct (vote_index vote prefixes (firstn (S level) m) Hnd) as [t Ht].
  set (v0 := map (fv_as P) out0). set (v1 := map (fv_as P) out1).
  assert (Lv0 : length v0 = n) by (unfold v0; now rewrite map_length).
  assert (Lv1 : length v1 = n) by (unfold v1; now rewrite map_length).
  assert (Hs : forall k, k < n -> zip_with fadd (nth k v0 []) (nth k v1 [])
     = if list_eq_dec Bool.bool_dec (nth k prefixes []) (firstn (S level) m) then (if vote then [fof 1; kk] else [f0; f0]) else [f0; f0]).
  { intros k Hk'. unfold v0, v1. rewrite !(nth_map' _ _ _ (inj [])) by lia. now apply Hsum. }
  assert (Hd : forall i, i < n -> fadd (nth i (data_of v0) f0) (nth i (data_of v1) f0) = if i =? t then f1 else f0).
  { intros i Hi. unfold data_of. rewrite !(nth_map' _ _ _ []) by lia. specialize (Hs i Hi). specialize (Ht i ltac:(lia)).
    destruct (list_eq_dec Bool.bool_dec (nth i prefixes []) (firstn (S level) m)); [destruct vote|]; rewrite <- Ht;
    destruct (nth i v0 []) as [|x0 l0], (nth i v1 []) as [|y0 l1]; try discriminate; cbn [zip_with nth] in Hs |- *;
    apply (f_equal (fun l => nth 0 l f0)) in Hs; exact Hs. }
  assert (Hka : forall i, i < n -> fadd (nth i (auth_of v0) f0) (nth i (auth_of v1) f0) = if i =? t then kk else f0).
  { intros i Hi. unfold auth_of. rewrite !(nth_map' _ _ _ []) by lia. specialize (Hs i Hi). specialize (Ht i ltac:(lia)).
    destruct (list_eq_dec Bool.bool_dec (nth i prefixes []) (firstn (S level) m)); [destruct vote|]; rewrite <- Ht;
    destruct (nth i v0 []) as [|x0 [|x1 l0]], (nth i v1 []) as [|y0 [|y1 l1]]; try discriminate; cbn [zip_with nth] in Hs |- *;
    apply (f_equal (fun l => nth 1 l f0)) in Hs; exact Hs. }
  match goal with |- post ?m _ _ => assert (EM : m = Ok [inj (zip_with fadd a0 (data_of v0)); inj (zip_with fadd a1 (data_of v1))]) end.
  { exact (two_rounds p n P inj ctx lv prefixes abc0 abc1 AB0 AB1 v0 v1 vr kk t a0 a1 V LA0 LA1 Lb0 Lb1 HAB Lv0 Lv1 Hvr La0 La1 Hd Hka). }
  rewrite EM. cbn [post]. exists (data_of v0), (data_of v1).
  assert (Ld0 : length (data_of v0) = n) by (unfold data_of; now rewrite map_length).
  assert (Ld1 : length (data_of v1) = n) by (unfold data_of; now rewrite map_length).
  split; [easy|]. split; [easy|]. split; [|easy].
  apply (vec_eq n).
  - rewrite zip_with_length. lia.
  - unfold vhot. now rewrite map_length.
  - intros i Hi. rewrite (nth_zip_with _ _ _ _ f0 f0) by lia. rewrite Hd by easy.
    unfold vhot. rewrite (nth_map' _ _ _ []) by lia. rewrite <- Ht by lia.
    now destruct (list_eq_dec Bool.bool_dec (nth i prefixes []) (firstn (S level) m)); [destruct vote|].
Qed.


Section R.
Context (ctx : bytes) (m : list bool) (nonce rand : bytes) (ps0 ps : Poplar1PublicShare p) (iss : list (Poplar1InputShare p))
  (k0 k1 s0 s1 ss : bytes) (ks : list (F Pi)) (kl : F Pl) (ci0 ci1 : list (F Pi)) (cl0 cl1 : list (F Pl))
  (oi0 oi1 : list (F Pi)) (ol0 ol1 : list (F Pl)).
Context (R : P1Report p ctx m nonce rand ps0 iss k0 k1 s0 s1 ss ks kl ci0 ci1 cl0 cl1 oi0 oi1 ol0 ol1).
Context (Hc : ctx_ok ctx) (Hm : length m = BITS) (Hn : length nonce = p1_NONCE_SIZE) (votes : nat -> bool).
Let bi : list (list (F Pi)) := map (fun l => if votes l then [fof 1; nth l ks f0] else [f0; f0]) (seq 0 (BITS - 1)).
Let bl : list (F Pl) := if votes (BITS - 1) then [fof 1; kl] else [f0; f0].

Lemma votes_args : gen_args_ok idpf m bi bl ctx nonce (k0 ++ k1).
Proof.
  constructor; try easy.
  - unfold bi. now rewrite map_length, seq_length.
  - apply Forall_forall. intros x Hx. apply in_map_iff in Hx. destruct Hx as (k & <- & _). rewrite (pk_value _ _ HO). now destruct (votes k).
  - unfold bl. rewrite (pk_value _ _ HO). now destruct (votes (BITS - 1)).
  - now rewrite (pk_nonce _ _ HO).
  - rewrite app_length. destruct (r1_keys _ _ _ _ _ _ _ _ _ _ _ _ _ _ _ _ _ _ _ _ _ _ R) as [-> ->].
    unfold id_RAND_SIZE, id_KEY_SIZE. lia.
Qed.
Context (Hgen : idpf_gen idpf m bi bl ctx nonce (k0 ++ k1) = Ok (ps, [k0; k1])).

Lemma votes_inner key level prefixes a0 a1 : level < BITS - 1 ->
  length prefixes = n -> NoDup prefixes -> Forall (fun x => length x = S level) prefixes ->
  length key = SEED_SIZE xof -> (Z.of_nat level < 65536)%Z ->
  length a0 = n -> length a1 = n ->
  post (run_report (sending (p1_vdaf p)) key ctx (Z.of_nat level, prefixes) [Inner a0; Inner a1] ((ps, iss), nonce, []))
    (fun aggs => exists d0 d1, length d0 = n /\ length d1 = n /\ zip_with fadd d0 d1 = vhot (votes level) prefixes level m /\
       aggs = [Inner (zip_with fadd a0 d0); Inner (zip_with fadd a1 d1)]) E0.
Proof.
  intros Hlev Lp Hnd Hpl Hk Hl16 La0 La1. pose proof votes_args as HG.
  destruct (pk_idpf _ _ HO) as [lim' HI].
  pose proof (io_bits _ _ HI) as HB.
  rewrite (r1_iss _ _ _ _ _ _ _ _ _ _ _ _ _ _ _ _ _ _ _ _ _ _ R).
  destruct (r1_oi _ _ _ _ _ _ _ _ _ _ _ _ _ _ _ _ _ _ _ _ _ _ R) as (dst & Hd & Eo0 & Eo1).
  pose proof (eval_sums idpf lim' HI _ _ _ _ _ _ ps k0 k1 level prefixes HG
    Hgen ltac:(lia) Hnd Hpl) as HE.
  pose proof (gen_total idpf lim' HI _ _ _ _ _ _ HG) as Hps.
  rewrite Hgen in Hps. destruct Hps as [Hps _].
  destruct (r1_keys _ _ _ _ _ _ _ _ _ _ _ _ _ _ _ _ _ _ _ _ _ _ R) as [Lk0 Lk1].
  rewrite (pk_value _ _ HO) in HE.
  destruct (r1_len_i _ _ _ _ _ _ _ _ _ _ _ _ _ _ _ _ _ _ _ _ _ _ R) as [Lc0 Lc1].
  assert (Lo0 : length oi0 = 3 * (BITS - 1)) by (eapply expand_len; eassumption).
  assert (Lo1 : length oi1 = 3 * (BITS - 1)) by (eapply expand_len; eassumption).
  eapply (votes_gen (votes level) Pi Inner key ctx level (Z.of_nat level) prefixes m nonce a0 a1 ps _ _
    (idpf_eval idpf 0 ps k0 (Z.of_nat level) prefixes ctx nonce) (idpf_eval idpf 1 ps k1 (Z.of_nat level) prefixes ctx nonce)
    (piece 3 level oi0) (piece 3 level oi1) (piece 2 level ci0) (piece 2 level ci1) (nth level ks f0) (view_inner p lim HO));
    try eassumption; try lia.
  - intros is j ev abc AB [E|E]; injection E as -> -> -> -> ->.
    + assert (LA : length (piece 2 level ci0) = 2) by (apply piece_length with (BITS - 1); [easy | lia]).
      assert (Lb : length (piece 3 level oi0) = 3) by (apply piece_length with (BITS - 1); [easy | lia]).
      split; [exact LA|]. split; [exact Lb|].
      unfold p1_verify_init. apply bind_ext. intros out Ho. rewrite (level_is_inner_nat p). rewrite (proj2 (Nat.ltb_lt _ _) Hlev), Nat2Z.id.
      destruct (eval_Ok_level p lim HO _ _ _ _ _ _ _ _ Hc Lk0 Hps Ho) as [Lo Fo].
      change (2 * (level + 1)) with ((level + 1) + ((level + 1) + 0)). replace ((level + 1) + ((level + 1) + 0)) with (level * 2 + 2) by lia. replace (2 * level) with (level * 2) by lia.
      rewrite Lp. erewrite (verify_init_in_ok p n Pi _ _ _ key ctx 0 (Z.of_nat level) nonce s0 _ dst (BITS - 1) oi0 (piece 3 level oi0)); try eassumption; try lia.
      * rewrite bind_assoc. apply bind_ext. intros vr _. easy.
      * apply (vw_mod _ _ _ (view_inner p lim HO)).
      * right. exists level. easy.
      * rewrite map_length. congruence.
      * apply Forall_forall. intros x Hx. apply in_map_iff in Hx. destruct Hx as (y & <- & Hy).
        rewrite Forall_forall in Fo. destruct (of_level_as_inner p level y Hlev (Fo y Hy)) as (l & -> & Hl). cbn [fv_as]. now rewrite map_length.
      * intros vr Hvr. pose proof (verify_rand_post p lim HO n Pi key ctx nonce (Z.of_nat level) (vw_P _ _ _ (view_inner p lim HO)) Hc Hk ltac:(lia)) as HV.
        rewrite Hvr in HV. exact HV.
    + assert (LA : length (piece 2 level ci1) = 2) by (apply piece_length with (BITS - 1); [easy | lia]).
      assert (Lb : length (piece 3 level oi1) = 3) by (apply piece_length with (BITS - 1); [easy | lia]).
      split; [exact LA|]. split; [exact Lb|].
      unfold p1_verify_init. apply bind_ext. intros out Ho. rewrite (level_is_inner_nat p). rewrite (proj2 (Nat.ltb_lt _ _) Hlev), Nat2Z.id.
      destruct (eval_Ok_level p lim HO _ _ _ _ _ _ _ _ Hc Lk1 Hps Ho) as [Lo Fo].
      change (2 * (level + 1)) with ((level + 1) + ((level + 1) + 0)). replace ((level + 1) + ((level + 1) + 0)) with (level * 2 + 2) by lia. replace (2 * level) with (level * 2) by lia.
      rewrite Lp. erewrite (verify_init_in_ok p n Pi _ _ _ key ctx 1 (Z.of_nat level) nonce s1 _ dst (BITS - 1) oi1 (piece 3 level oi1)); try eassumption; try lia.
      * rewrite bind_assoc. apply bind_ext. intros vr _. easy.
      * apply (vw_mod _ _ _ (view_inner p lim HO)).
      * right. exists level. easy.
      * rewrite map_length. congruence.
      * apply Forall_forall. intros x Hx. apply in_map_iff in Hx. destruct Hx as (y & <- & Hy).
        rewrite Forall_forall in Fo. destruct (of_level_as_inner p level y Hlev (Fo y Hy)) as (l & -> & Hl). cbn [fv_as]. now rewrite map_length.
      * intros vr Hvr. pose proof (verify_rand_post p lim HO n Pi key ctx nonce (Z.of_nat level) (vw_P _ _ _ (view_inner p lim HO)) Hc Hk ltac:(lia)) as HV.
        rewrite Hvr in HV. exact HV.
  - apply (r1_inner _ _ _ _ _ _ _ _ _ _ _ _ _ _ _ _ _ _ _ _ _ _ R). lia.
  - destruct (idpf_eval idpf 0 ps k0 (Z.of_nat level) prefixes ctx nonce) as [out0|e]; [|now destruct HE; split; [|left]].
    destruct (idpf_eval idpf 1 ps k1 (Z.of_nat level) prefixes ctx nonce) as [out1|e]; [|now destruct HE; split; [|left]].
    destruct HE as (L0 & L1 & F0 & F1 & Hsum). split; [congruence|]. split; [congruence|].
    intros k d Hk'. specialize (Hsum k d ltac:(lia)).
    destruct (of_level_as_inner p level (nth k out0 d) Hlev) as (l0 & El0 & Ll0).
    { apply (Forall_nth_len (of_level idpf level 2)); [exact F0 | lia]. }
    destruct (of_level_as_inner p level (nth k out1 d) Hlev) as (l1 & El1 & Ll1).
    { apply (Forall_nth_len (of_level idpf level 2)); [exact F1 | lia]. }
    rewrite El0, El1 in Hsum |- *. cbn [fv_add fv_as] in Hsum |- *. rewrite !map_fcast_id in *.
    rewrite vec_add_ok in Hsum by congruence. cbn [bind] in Hsum.
    unfold point_value, beta_at, zero_at in Hsum. rewrite (proj2 (Nat.ltb_lt _ _) Hlev) in Hsum. rewrite (pk_value _ _ HO) in Hsum.
    destruct (list_eq_dec Bool.bool_dec (nth k prefixes []) (firstn (S level) m)).
    + unfold bi in Hsum. rewrite (nth_map' _ _ _ 0), seq_nth in Hsum by (rewrite ?seq_length; lia). now injection Hsum as ->.
    + now injection Hsum as ->.
Qed.

Lemma votes_leaf key level prefixes a0 a1 : BITS - 1 <= level < BITS ->
  length prefixes = n -> NoDup prefixes -> Forall (fun x => length x = S level) prefixes ->
  length key = SEED_SIZE xof -> (Z.of_nat level < 65536)%Z ->
  length a0 = n -> length a1 = n ->
  post (run_report (sending (p1_vdaf p)) key ctx (Z.of_nat level, prefixes) [Leaf a0; Leaf a1] ((ps, iss), nonce, []))
    (fun aggs => exists d0 d1, length d0 = n /\ length d1 = n /\ zip_with fadd d0 d1 = vhot (votes level) prefixes level m /\
       aggs = [Leaf (zip_with fadd a0 d0); Leaf (zip_with fadd a1 d1)]) E0.
Proof.
  intros Hlev Lp Hnd Hpl Hk Hl16 La0 La1. pose proof votes_args as HG.
  destruct (pk_idpf _ _ HO) as [lim' HI].
  pose proof (io_bits _ _ HI) as HB.
  rewrite (r1_iss _ _ _ _ _ _ _ _ _ _ _ _ _ _ _ _ _ _ _ _ _ _ R).
  destruct (r1_ol _ _ _ _ _ _ _ _ _ _ _ _ _ _ _ _ _ _ _ _ _ _ R) as (dst & Hd & Eo0 & Eo1).
  pose proof (eval_sums idpf lim' HI _ _ _ _ _ _ ps k0 k1 level prefixes HG
    Hgen ltac:(lia) Hnd Hpl) as HE.
  pose proof (gen_total idpf lim' HI _ _ _ _ _ _ HG) as Hps.
  rewrite Hgen in Hps. destruct Hps as [Hps _].
  destruct (r1_keys _ _ _ _ _ _ _ _ _ _ _ _ _ _ _ _ _ _ _ _ _ _ R) as [Lk0 Lk1].
  rewrite (pk_value _ _ HO) in HE.
  destruct (r1_len_l _ _ _ _ _ _ _ _ _ _ _ _ _ _ _ _ _ _ _ _ _ _ R) as [Lc0 Lc1].
  assert (Lo0 : length ol0 = 3 * 1) by (eapply expand_len; eassumption).
  assert (Lo1 : length ol1 = 3 * 1) by (eapply expand_len; eassumption).
  eapply (votes_gen (votes level) Pl Leaf key ctx level (Z.of_nat level) prefixes m nonce a0 a1 ps _ _
    (idpf_eval idpf 0 ps k0 (Z.of_nat level) prefixes ctx nonce) (idpf_eval idpf 1 ps k1 (Z.of_nat level) prefixes ctx nonce)
    ol0 ol1 cl0 cl1 kl (view_leaf p lim HO));
    try eassumption; try lia.
  - intros is j ev abc AB [E|E]; injection E as -> -> -> -> ->.
    + assert (LA : length cl0 = 2) by easy.
      assert (Lb : length ol0 = 3) by easy.
      split; [exact LA|]. split; [exact Lb|].
      unfold p1_verify_init. apply bind_ext. intros out Ho. rewrite (level_is_inner_nat p). rewrite (proj2 (Nat.ltb_ge _ _) (proj1 Hlev)).
      destruct (eval_Ok_level p lim HO _ _ _ _ _ _ _ _ Hc Lk0 Hps Ho) as [Lo Fo].
      
      rewrite Lp. erewrite (verify_init_in_ok p n Pl _ _ _ key ctx 0 (Z.of_nat level) nonce s0 _ dst 1 ol0 ol0); try eassumption; try lia.
      * rewrite bind_assoc. apply bind_ext. intros vr _. easy.
      * apply (vw_mod _ _ _ (view_leaf p lim HO)).
      * left. easy.
      * rewrite map_length. congruence.
      * apply Forall_forall. intros x Hx. apply in_map_iff in Hx. destruct Hx as (y & <- & Hy).
        rewrite Forall_forall in Fo. destruct (of_level_as_leaf p level y (proj1 Hlev) (Fo y Hy)) as (l & -> & Hl). cbn [fv_as]. now rewrite map_length.
      * intros vr Hvr. pose proof (verify_rand_post p lim HO n Pl key ctx nonce (Z.of_nat level) (vw_P _ _ _ (view_leaf p lim HO)) Hc Hk ltac:(lia)) as HV.
        rewrite Hvr in HV. exact HV.
    + assert (LA : length cl1 = 2) by easy.
      assert (Lb : length ol1 = 3) by easy.
      split; [exact LA|]. split; [exact Lb|].
      unfold p1_verify_init. apply bind_ext. intros out Ho. rewrite (level_is_inner_nat p). rewrite (proj2 (Nat.ltb_ge _ _) (proj1 Hlev)).
      destruct (eval_Ok_level p lim HO _ _ _ _ _ _ _ _ Hc Lk1 Hps Ho) as [Lo Fo].
      
      rewrite Lp. erewrite (verify_init_in_ok p n Pl _ _ _ key ctx 1 (Z.of_nat level) nonce s1 _ dst 1 ol1 ol1); try eassumption; try lia.
      * rewrite bind_assoc. apply bind_ext. intros vr _. easy.
      * apply (vw_mod _ _ _ (view_leaf p lim HO)).
      * left. easy.
      * rewrite map_length. congruence.
      * apply Forall_forall. intros x Hx. apply in_map_iff in Hx. destruct Hx as (y & <- & Hy).
        rewrite Forall_forall in Fo. destruct (of_level_as_leaf p level y (proj1 Hlev) (Fo y Hy)) as (l & -> & Hl). cbn [fv_as]. now rewrite map_length.
      * intros vr Hvr. pose proof (verify_rand_post p lim HO n Pl key ctx nonce (Z.of_nat level) (vw_P _ _ _ (view_leaf p lim HO)) Hc Hk ltac:(lia)) as HV.
        rewrite Hvr in HV. exact HV.
  - apply (r1_leaf _ _ _ _ _ _ _ _ _ _ _ _ _ _ _ _ _ _ _ _ _ _ R).
  - destruct (idpf_eval idpf 0 ps k0 (Z.of_nat level) prefixes ctx nonce) as [out0|e]; [|now destruct HE; split; [|left]].
    destruct (idpf_eval idpf 1 ps k1 (Z.of_nat level) prefixes ctx nonce) as [out1|e]; [|now destruct HE; split; [|left]].
    destruct HE as (L0 & L1 & F0 & F1 & Hsum). split; [congruence|]. split; [congruence|].
    intros k d Hk'. specialize (Hsum k d ltac:(lia)).
    destruct (of_level_as_leaf p level (nth k out0 d) (proj1 Hlev)) as (l0 & El0 & Ll0).
    { apply (Forall_nth_len (of_level idpf level 2)); [exact F0 | lia]. }
    destruct (of_level_as_leaf p level (nth k out1 d) (proj1 Hlev)) as (l1 & El1 & Ll1).
    { apply (Forall_nth_len (of_level idpf level 2)); [exact F1 | lia]. }
    rewrite El0, El1 in Hsum |- *. cbn [fv_add fv_as] in Hsum |- *. rewrite !map_fcast_id in *.
    rewrite vec_add_ok in Hsum by congruence. cbn [bind] in Hsum.
    unfold point_value, beta_at, zero_at in Hsum. rewrite (proj2 (Nat.ltb_ge _ _) (proj1 Hlev)) in Hsum. rewrite (pk_value _ _ HO) in Hsum.
    destruct (list_eq_dec Bool.bool_dec (nth k prefixes []) (firstn (S level) m)).
    + replace level with (BITS - 1) by lia. unfold bl in Hsum. now injection Hsum as ->.
    + now injection Hsum as ->.
Qed.


Lemma votes_finish P (inj : list (F P) -> FVec) (V : View p P inj) key level prefixes :
  length prefixes = n -> length key = SEED_SIZE xof -> p1_agg_init p (Z.of_nat level, prefixes) = Ok (inj (fzeros n)) ->
  post (run_report (sending (p1_vdaf p)) key ctx (Z.of_nat level, prefixes) [inj (fzeros n); inj (fzeros n)] ((ps, iss), nonce, []))
    (fun aggs => exists d0 d1, length d0 = n /\ length d1 = n /\ zip_with fadd d0 d1 = vhot (votes level) prefixes level m /\
       aggs = [inj (zip_with fadd (fzeros n) d0); inj (zip_with fadd (fzeros n) d1)]) E0 ->
  run_vdaf (sending (p1_vdaf p)) key (Z.of_nat level, prefixes) ctx [((ps, iss), nonce, [])] = Ok (vote_counts votes level m prefixes) \/
  (run_vdaf (sending (p1_vdaf p)) key (Z.of_nat level, prefixes) ctx [((ps, iss), nonce, [])] = Raise OutOfFuel /\ p1_ran_out p n).
Proof.
  intros Lp Hk Hinit HB. unfold run_vdaf. change (vd_VERIFY_KEY_SIZE (sending (p1_vdaf p))) with (SEED_SIZE xof).
  rewrite Hk, Nat.eqb_refl. cbn [check bind]. change (vd_SHARES (sending (p1_vdaf p))) with 2.
  change (range 0 2) with [0; 1]. cbn [mapM]. change (vd_agg_init (sending (p1_vdaf p))) with (p1_agg_init p). rewrite Hinit. cbn [bind foldM].
  change (vd_AggShare (sending (p1_vdaf p))) with FVec in *.
  destruct (run_report (sending (p1_vdaf p)) key ctx (Z.of_nat level, prefixes) [inj (fzeros n); inj (fzeros n)] (ps, iss, nonce, [])) as [aggs|e] eqn:Ef.
  2:{ right. cbn [post] in HB. destruct HB as [-> HR]. split; [reflexivity | exact HR]. }
  left. destruct HB as (d0 & d1 & L0 & L1 & Hs & ->).
  cbn [bind length].
  change (vd_unshard (sending (p1_vdaf p))) with (p1_unshard p). unfold p1_unshard, p1_merge. rewrite Hinit. cbn [bind foldM].
  assert (Lz : length (@fzeros P n) = n) by (unfold fzeros; apply repeat_length).
  rewrite !(zip_zero_l n) by easy.
  rewrite (vw_add _ _ _ V), vec_add_ok by congruence. cbn [bind].
  rewrite (vw_add _ _ _ V), vec_add_ok by (rewrite zip_with_length; lia). cbn [bind].
  rewrite (vw_vals _ _ _ V). f_equal. rewrite (zip_zero_l n) by easy. rewrite Hs.
  unfold vhot, vote_counts. rewrite map_map. apply map_ext. intros x. pose proof (vw_mod _ _ _ V).
  destruct (list_eq_dec _ _ _); [destruct (votes level)|]; unfold f1, f0; change (@fof P) with (@fof P); rewrite fint_fof; apply Z.mod_small; lia.
Qed.

Theorem votes_run key level prefixes : level < BITS ->
  length prefixes = n -> NoDup prefixes -> Forall (fun x => length x = S level) prefixes ->
  length key = SEED_SIZE xof -> (Z.of_nat level < 65536)%Z ->
  run_vdaf (sending (p1_vdaf p)) key (Z.of_nat level, prefixes) ctx [((ps, iss), nonce, [])] = Ok (vote_counts votes level m prefixes) \/
  (run_vdaf (sending (p1_vdaf p)) key (Z.of_nat level, prefixes) ctx [((ps, iss), nonce, [])] = Raise OutOfFuel /\ p1_ran_out p n).
Proof.
  intros Hl Lp Hnd Hpl Hk Hl16. assert (Lz : forall P, length (@fzeros P n) = n) by (intros P; unfold fzeros; apply repeat_length).
  destruct (Nat.lt_ge_cases level (BITS - 1)) as [Hi|Hi].
  - apply (votes_finish Pi Inner (view_inner p lim HO)); try assumption; [|now apply votes_inner].
    unfold p1_agg_init. rewrite level_is_inner_nat, (proj2 (Nat.ltb_lt _ _) Hi), Lp. reflexivity.
  - apply (votes_finish Pl Leaf (view_leaf p lim HO)); try assumption; [|now apply votes_leaf].
    unfold p1_agg_init. rewrite level_is_inner_nat, (proj2 (Nat.ltb_ge _ _) Hi), Lp. reflexivity.
Qed.
End R.
End V.

Theorem votes_any (p : Poplar1) (lim : Z) : Poplar1Ok p lim -> forall ctx m nonce rand ps iss votes,
  ctx_ok ctx -> length m = id_BITS (p1_idpf p) -> length nonce = p1_NONCE_SIZE -> length rand = p1_RAND_SIZE p ->
  p1_shard p ctx m nonce rand = Ok (ps, iss) ->
  idpf_ran_out (p1_idpf p) \/
  exists ps', idpf_public_wf (p1_idpf p) ps' /\
    forall key level prefixes, level < id_BITS (p1_idpf p) -> NoDup prefixes -> Forall (fun x => length x = S level) prefixes ->
    length key = SEED_SIZE (p1_xof p) -> (Z.of_nat level < 65536)%Z ->
    run_vdaf (sending (p1_vdaf p)) key (Z.of_nat level, prefixes) ctx [((ps', iss), nonce, [])] = Ok (vote_counts votes level m prefixes) \/
    (run_vdaf (sending (p1_vdaf p)) key (Z.of_nat level, prefixes) ctx [((ps', iss), nonce, [])] = Raise OutOfFuel /\ p1_ran_out p (length prefixes)).
Proof.
  intros HO ctx m nonce rand ps iss votes Hc Hm Hn Hr ES. destruct (pk_idpf _ _ HO) as [lim' HI].
  pose proof (shard_post1 p lim HO 0 ctx m nonce rand Hc Hm Hn Hr) as HS. rewrite ES in HS.
  destruct HS as (k0 & k1 & s0 & s1 & ss & ks & kl & ci0 & ci1 & cl0 & cl1 & oi0 & oi1 & ol0 & ol1 & R).
  pose proof (votes_args p lim HO _ _ _ _ _ _ _ _ _ _ _ _ _ _ _ _ _ _ _ _ _ R Hc Hm Hn votes) as HG.
  pose proof (gen_total (p1_idpf p) lim' HI _ _ _ _ _ _ HG) as G.
  destruct (idpf_gen _ m _ _ ctx nonce (k0 ++ k1)) as [[ps' keys]|e] eqn:EG; [|left; apply G].
  right. destruct G as (W & a & b & -> & La & Lb & Eab). exists ps'. split; [exact W|].
  destruct (r1_keys _ _ _ _ _ _ _ _ _ _ _ _ _ _ _ _ _ _ _ _ _ _ R) as [L0 L1].
  apply app_inj_len in Eab; [|congruence]. destruct Eab as [<- <-].
  intros key level prefixes H1 H2 H3 H4 H5.
  exact (votes_run p lim HO (length prefixes) ctx m nonce rand ps ps' iss k0 k1 s0 s1 ss ks kl ci0 ci1 cl0 cl1 oi0 oi1 ol0 ol1 R Hc Hm Hn votes EG key level prefixes H1 eq_refl H2 H3 H4 H5).
Qed.
