(** Proofs about the view of one Poplar1 Aggregator. *)
From Verif Require Import Poplar1ViewSpec IdpfViewFacts IdpfFacts IdpfCodec SketchFacts Poplar1Facts Poplar1Run Poplar1Inst SampleFacts PostFacts FieldFacts VecFacts.
Open Scope nat_scope.

Section G.
Context (p : Poplar1) {P : FieldClass}
  (inj : list (F P) -> FieldVec (id_field_inner (p1_idpf p)) (id_field_leaf (p1_idpf p))) (V : View p P inj).
Add Ring FringPV : (@F_ring P).
Notation F := (F P).

Lemma fadd_sub_l (a b : F) : fsub (fadd a b) a = b.
Proof. ring. Qed.
Lemma fadd_sub_r (a b : F) : fsub (fadd a b) b = a.
Proof. ring. Qed.

(** A list of values that is (1, k) at one place at most and (0, 0) elsewhere. *)
Definition hot_point (k : F) (n : nat) (point : list (list F)) : Prop :=
  length point = n /\ exists t, forall x, x < n -> nth x point [] = if x =? t then [f1; k] else [f0; f0].

Lemma nth_zip_sub (a b : list (list F)) x : length a = length b ->
  nth x (zip_with (zip_with fsub) a b) [] = zip_with fsub (nth x a []) (nth x b []).
Proof. revert b x; induction a as [|u a IH]; intros [|v b] [|x] H; try discriminate; try reflexivity. cbn. apply IH. now injection H. Qed.

Lemma complete_honest k n (own point : list (list F)) : hot_point k n point -> length own = n ->
  Forall (fun v => length v = 2) own ->
  honest_values k n own (zip_with (zip_with fsub) point own) /\ honest_values k n (zip_with (zip_with fsub) point own) own.
Proof.
  intros [Lp [t Ht]] Lo Ho.
  assert (Lz : length (zip_with (zip_with fsub) point own) = n) by (rewrite zip_with_length; lia).
  assert (Hown : forall x, x < n -> exists a b, nth x own [] = [a; b]).
  { intros x Hx. rewrite Forall_forall in Ho. assert (Hin : In (nth x own []) own) by (apply nth_In; lia). specialize (Ho _ Hin).
    destruct (nth x own []) as [|a [|b [|]]]; try discriminate. now exists a, b. }
  assert (Hz : forall x, x < n -> exists a b, nth x own [] = [a; b] /\
    nth x (zip_with (zip_with fsub) point own) [] = if x =? t then [fsub f1 a; fsub k b] else [fsub f0 a; fsub f0 b]).
  { intros x Hx. destruct (Hown x Hx) as (a & b & E). exists a, b. split; [easy|].
    rewrite nth_zip_sub by lia. rewrite E, (Ht x Hx). now destruct (x =? t). }
  assert (H2 : Forall (fun v => length v = 2) (zip_with (zip_with fsub) point own)).
  { apply Forall_forall. intros v Hv. apply (In_nth _ _ []) in Hv as (x & Hx & <-).
    destruct (Hz x ltac:(lia)) as (a & b & _ & E). rewrite E. now destruct (x =? t). }
  split; (split; [easy|]; split; [easy|]; split; [easy|]; split; [easy|]; split).
  - exists t. intros x Hx. unfold sum_part. destruct (Hz x Hx) as (a & b & E0 & E1). rewrite E0, E1. destruct (x =? t); cbn [nth]; ring.
  - intros x Hx. unfold sum_part. destruct (Hz x Hx) as (a & b & E0 & E1). rewrite E0, E1. destruct (x =? t); cbn [nth]; ring.
  - exists t. intros x Hx. unfold sum_part. destruct (Hz x Hx) as (a & b & E0 & E1). rewrite E0, E1. destruct (x =? t); cbn [nth]; ring.
  - intros x Hx. unfold sum_part. destruct (Hz x Hx) as (a & b & E0 & E1). rewrite E0, E1. destruct (x =? t); cbn [nth]; ring.
Qed.

Lemma level_private j ctx ap k k' n own point point' (r : list F) abc AB :
  hot_point k n point -> hot_point k' n point' -> length own = n -> Forall (fun v => length v = 2) own -> length r = n ->
  forall coin, exists m,
    level_messages p j ctx inj ap k own point r abc coin AB = Ok m /\
    exists coin', level_messages p j ctx inj ap k' own point' r abc coin' AB = Ok m /\
      forall c, level_messages p j ctx inj ap k' own point' r abc c AB = Ok m -> c = coin'.
Proof.
  intros Hp Hp' Lo Ho Lr coin. unfold level_messages.
  destruct (complete_honest k n own point Hp Lo Ho) as [A B]. destruct (complete_honest k' n own point' Hp' Lo Ho) as [A' B'].
  destruct j.
  - apply (sketch_private1 p inj V ctx ap k k' n _ _ own r abc AB B B' Lr coin).
  - apply (sketch_private0 p inj V ctx ap k k' n own _ _ r abc AB A A' Lr coin).
Qed.
End G.

Section V.
Context (p : Poplar1) (lim : Z) (HO : Poplar1Ok p lim).
Notation idpf := (p1_idpf p).
Notation Pi := (id_field_inner (p1_idpf p)).
Notation Pl := (id_field_leaf (p1_idpf p)).
Notation FVec := (FieldVec Pi Pl).
Notation BITS := (id_BITS (p1_idpf p)).

Lemma triple_list {P : FieldClass} (v : list (F P)) : length v = 3 -> v = [fst (fst (triple v)); snd (fst (triple v)); snd (triple v)].
Proof. destruct v as [|a [|b [|c [|]]]]; try discriminate. reflexivity. Qed.

Lemma point_hot_inner m ks kl level prefixes : level < BITS - 1 -> length ks = BITS - 1 -> NoDup prefixes ->
  hot_point (nth 1 (fv_as Pi (beta_at idpf (auth_inner p ks) (auth_leaf p kl) level)) f0) (length prefixes)
    (map (fun x => fv_as Pi (point_value idpf m (auth_inner p ks) (auth_leaf p kl) level x)) prefixes).
Proof.
  intros Hl Lk Hn. split; [apply map_length|]. destruct (index_of prefixes (firstn (S level) m) Hn) as [t Ht]. exists t.
  intros x Hx. rewrite (nth_map' _ _ _ []) by easy. specialize (Ht x Hx). unfold point_value, beta_at, zero_at.
  rewrite (proj2 (Nat.ltb_lt _ _) Hl). unfold auth_inner.
  rewrite (nth_map' _ _ _ f0) by lia. cbn [fv_as]. rewrite map_fcast_id. cbn [nth].
  destruct (list_eq_dec Bool.bool_dec (nth x prefixes []) (firstn (S level) m)); rewrite <- Ht; cbn [fv_as]; rewrite map_fcast_id.
  - reflexivity.
  - now rewrite (pk_value _ _ HO).
Qed.
Lemma point_hot_leaf m ks kl level prefixes : BITS - 1 <= level -> NoDup prefixes ->
  hot_point (nth 1 (fv_as Pl (beta_at idpf (auth_inner p ks) (auth_leaf p kl) level)) f0) (length prefixes)
    (map (fun x => fv_as Pl (point_value idpf m (auth_inner p ks) (auth_leaf p kl) level x)) prefixes).
Proof.
  intros Hl Hn. split; [apply map_length|]. destruct (index_of prefixes (firstn (S level) m) Hn) as [t Ht]. exists t.
  intros x Hx. rewrite (nth_map' _ _ _ []) by easy. specialize (Ht x Hx). unfold point_value, beta_at, zero_at.
  rewrite (proj2 (Nat.ltb_ge _ _) Hl). unfold auth_leaf. cbn [fv_as]. rewrite map_fcast_id. cbn [nth].
  destruct (list_eq_dec Bool.bool_dec (nth x prefixes []) (firstn (S level) m)); rewrite <- Ht; cbn [fv_as]; rewrite map_fcast_id.
  - reflexivity.
  - now rewrite (pk_value _ _ HO).
Qed.

Lemma as_of_level_inner level n (v : FVec) : level < BITS - 1 -> of_level idpf level n v -> exists l, v = Inner l /\ length l = n.
Proof. destruct v; cbn; intros ? [? ?]; [eauto | lia]. Qed.
Lemma as_of_level_leaf level n (v : FVec) : BITS - 1 <= level -> of_level idpf level n v -> exists l, v = Leaf l /\ length l = n.
Proof. destruct v; cbn; intros ? [? ?]; [lia | eauto]. Qed.

Lemma words_public ps : words_wf idpf ps -> idpf_public_wf idpf ps.
Proof.
  intros [L H]. split; [exact L|]. clear L. intros l cw E.
  assert (G : forall n (ps : list (Mask idpf)) l cw, words_from idpf n ps -> nth_error ps l = Some cw -> word_wf idpf (n + l) cw).
  { clear. intros n ps. revert n. induction ps as [|w ps IH]; intros n [|l] cw H E; try discriminate.
    - cbn in E. injection E as <-. rewrite Nat.add_0_r. apply H.
    - cbn in E. destruct H as [_ H]. rewrite <- Nat.add_succ_comm. eapply IH; eauto. }
  destruct (G 0 ps l cw H E) as (A & _ & B). easy.
Qed.

(** One query. *)
Lemma query_private j m m' ks ks' kl kl' ctx nonce key ps q coin :
  ctx_ok ctx -> length key = id_KEY_SIZE idpf -> length ks = BITS - 1 -> length ks' = BITS - 1 ->
  idpf_public_wf idpf ps -> query_wf p q -> coin_wf p q coin -> ~ idpf_ran_out idpf ->
  exists ms, query_messages p j m ks kl ctx nonce key ps q coin = Ok ms /\
  exists coin', coin_wf p q coin' /\ query_messages p j m' ks' kl' ctx nonce key ps q coin' = Ok ms /\
    forall c, coin_wf p q c -> query_messages p j m' ks' kl' ctx nonce key ps q c = Ok ms -> c = coin'.
Proof.
  intros Hc Hk Lk Lk' Hps (Hl & Hn & Hx & Hr & Habc & HAB) Hcoin HR. unfold query_messages.
  destruct (pk_idpf _ _ HO) as [lim' HI].
  pose proof (eval_args idpf lim' HI (Nat.b2n j) ps key (Z.of_nat (q_level p q)) (q_prefixes p q) ctx nonce Hc Hk Hps) as HE.
  cbv zeta in HE.
  destruct (idpf_eval idpf (Nat.b2n j) ps key (Z.of_nat (q_level p q)) (q_prefixes p q) ctx nonce) as [own|e] eqn:Eo; cbn [bind].
  2: { exfalso. destruct e; try (now destruct HE). apply HE. split; [destruct j; cbn; lia|]. split; [lia|]. split; [easy|].
       revert Hx. apply Forall_impl. intros a Ha. rewrite Ha. lia. }
  destruct (eval_Ok_level p lim HO (Nat.b2n j) ps key _ _ _ _ _ Hc Hk Hps Eo) as [Lo Ho]. unfold coin_wf in *. unfold query_in.
  destruct (Nat.ltb_spec (q_level p q) (BITS - 1)) as [Hi|Hi].
  - destruct (as_of_level_inner _ _ _ Hi Hr) as (r & Er & Lr). destruct (as_of_level_inner _ _ _ Hi Hcoin) as (c & -> & Lc).
    rewrite Er. cbn [fv_as]. rewrite map_fcast_id.
    assert (Ho2 : Forall (fun v => length v = 2) (map (fv_as Pi) own)).
    { apply Forall_forall. intros v Hv. apply in_map_iff in Hv as (w & <- & Hw). rewrite Forall_forall in Ho.
      destruct (as_of_level_inner _ _ _ Hi (Ho w Hw)) as (l & -> & Ll). cbn [fv_as]. now rewrite map_length. }
    destruct (level_private p Inner (view_inner p lim HO) j ctx (Z.of_nat (q_level p q), q_prefixes p q) _ _ _ (map (fv_as Pi) own) _ _ r
      (triple (fv_as Pi (q_abc p q))) (pair2 (fv_as Pi (q_AB p q))) (point_hot_inner m ks kl _ _ Hi Lk Hn) (point_hot_inner m' ks' kl' _ _ Hi Lk' Hn)
      (eq_trans (map_length _ _) Lo) Ho2 Lr (triple (fv_as Pi (Inner c : FVec)))) as (ms & E & t & E' & U).
    exists ms. split; [exact E|]. exists (Inner [fst (fst t); snd (fst t); snd t]). split; [easy|]. split.
    + cbn [fv_as]. rewrite map_fcast_id. destruct t as [[? ?] ?]. exact E'.
    + intros c' Hc' Ec'. destruct (as_of_level_inner _ _ _ Hi Hc') as (v & -> & Lv). f_equal.
      rewrite (triple_list v Lv). cbn [fv_as] in Ec'. rewrite map_fcast_id in Ec'. now rewrite (U _ Ec').
  - destruct (as_of_level_leaf _ _ _ Hi Hr) as (r & Er & Lr). destruct (as_of_level_leaf _ _ _ Hi Hcoin) as (c & -> & Lc).
    rewrite Er. cbn [fv_as]. rewrite map_fcast_id.
    assert (Ho2 : Forall (fun v => length v = 2) (map (fv_as Pl) own)).
    { apply Forall_forall. intros v Hv. apply in_map_iff in Hv as (w & <- & Hw). rewrite Forall_forall in Ho.
      destruct (as_of_level_leaf _ _ _ Hi (Ho w Hw)) as (l & -> & Ll). cbn [fv_as]. now rewrite map_length. }
    destruct (level_private p Leaf (view_leaf p lim HO) j ctx (Z.of_nat (q_level p q), q_prefixes p q) _ _ _ (map (fv_as Pl) own) _ _ r
      (triple (fv_as Pl (q_abc p q))) (pair2 (fv_as Pl (q_AB p q))) (point_hot_leaf m ks kl _ _ Hi Hn) (point_hot_leaf m' ks' kl' _ _ Hi Hn)
      (eq_trans (map_length _ _) Lo) Ho2 Lr (triple (fv_as Pl (Leaf c : FVec)))) as (ms & E & t & E' & U).
    exists ms. split; [exact E|]. exists (Leaf [fst (fst t); snd (fst t); snd t]). split; [easy|]. split.
    + cbn [fv_as]. rewrite map_fcast_id. destruct t as [[? ?] ?]. exact E'.
    + intros c' Hc' Ec'. destruct (as_of_level_leaf _ _ _ Hi Hc') as (v & -> & Lv). f_equal.
      rewrite (triple_list v Lv). cbn [fv_as] in Ec'. rewrite map_fcast_id in Ec'. now rewrite (U _ Ec').
Qed.

Lemma queries_private j m m' ks ks' kl kl' ctx nonce key ps :
  ctx_ok ctx -> length key = id_KEY_SIZE idpf -> length ks = BITS - 1 -> length ks' = BITS - 1 ->
  idpf_public_wf idpf ps -> ~ idpf_ran_out idpf ->
  forall queries coins, Forall (query_wf p) queries -> Forall2 (coin_wf p) queries coins ->
  exists ms, mapM (fun '(q, coin) => query_messages p j m ks kl ctx nonce key ps q coin) (combine queries coins) = Ok ms /\
  exists coins', Forall2 (coin_wf p) queries coins' /\
    mapM (fun '(q, coin) => query_messages p j m' ks' kl' ctx nonce key ps q coin) (combine queries coins') = Ok ms /\
    forall cs, Forall2 (coin_wf p) queries cs ->
      mapM (fun '(q, coin) => query_messages p j m' ks' kl' ctx nonce key ps q coin) (combine queries cs) = Ok ms -> cs = coins'.
Proof.
  intros Hc Hk Lk Lk' Hps HR queries coins HQ HC. induction HC as [|q coin queries coins Hq HC IH].
  - exists []. split; [easy|]. exists []. split; [constructor|]. split; [easy|]. intros cs H _. now inversion H.
  - inversion_clear HQ as [|? ? Hq1 HQ'].
    destruct (IH HQ') as (ms & E & coins' & HC' & E' & U).
    destruct (query_private j m m' ks ks' kl kl' ctx nonce key ps q coin Hc Hk Lk Lk' Hps Hq1 Hq HR) as (m1 & E1 & coin' & Hw & E1' & U1).
    exists (m1 :: ms). split; [cbn [combine mapM]; rewrite E1; cbn [bind]; rewrite E; reflexivity|].
    exists (coin' :: coins'). split; [now constructor|]. split; [cbn [combine mapM]; rewrite E1'; cbn [bind]; rewrite E'; reflexivity|].
    intros cs H. inversion_clear H as [|? c ? cs' Hcw Hcs]. cbn [combine mapM].
    destruct (query_messages _ _ _ _ _ _ _ _ _ q c) as [x|] eqn:Ex; cbn [bind]; [|discriminate].
    destruct (mapM _ (combine queries cs')) as [y|] eqn:Ey; cbn [bind]; [|discriminate].
    intros H. injection H as -> ->. f_equal; [now apply U1 | now apply U].
Qed.

(** ** The real execution *)
Section R.
Context (n : nat).

Lemma init_inner key ctx j level prefixes nonce ps k s ci cl dst o : level < BITS - 1 -> length prefixes = n ->
  ctx_ok ctx -> length key = SEED_SIZE (p1_xof p) -> (Z.of_nat level < 65536)%Z -> length k = id_KEY_SIZE idpf ->
  idpf_public_wf idpf ps -> j < 2 -> p1_dst USAGE_CORR_INNER ctx = Ok dst ->
  expand_into_vec (p1_xof p) Pi s dst (z2b (Z.of_nat j) :: nonce) (3 * (BITS - 1)) = Ok o ->
  length ci = 2 * (BITS - 1) ->
  p1_verify_init p key ctx j (Z.of_nat level, prefixes) nonce ps (k, s, ci, cl)
  = let* out := idpf_eval idpf j ps k (Z.of_nat level) prefixes ctx nonce in
    let* vr := verify_rand_of p Pi key ctx nonce (Z.of_nat level) n in
    Ok ((EVALUATE_SKETCH, Z.of_nat level, Inner (piece 2 level ci ++ [fof (Z.of_nat j)] ++ data_of (map (fv_as Pi) out))),
        Inner (sk (piece 3 level o) (map (fv_as Pi) out) vr)).
Proof.
  intros Hlev Lp Hc Hk Hl16 Lk Hps Hj Hd Eo Lci.
  assert (LA : length (piece 2 level ci) = 2) by (apply piece_length with (BITS - 1); [easy | lia]).
  unfold p1_verify_init. apply bind_ext. intros out Ho. rewrite (level_is_inner_nat p). rewrite (proj2 (Nat.ltb_lt _ _) Hlev), Nat2Z.id.
  destruct (eval_Ok_level p lim HO _ _ _ _ _ _ _ _ Hc Lk Hps Ho) as [Lo Fo].
  replace (2 * (level + 1)) with (level * 2 + 2) by lia. replace (2 * level) with (level * 2) by lia.
  rewrite Lp. erewrite (verify_init_in_ok p n Pi _ _ _ key ctx j (Z.of_nat level) nonce s _ dst (BITS - 1) o (piece 3 level o)); try eassumption; try lia.
  - rewrite bind_assoc. apply bind_ext. intros vr _. easy.
  - apply (vw_mod _ _ _ (view_inner p lim HO)).
  - right. exists level. easy.
  - rewrite map_length. congruence.
  - apply Forall_forall. intros x Hx. apply in_map_iff in Hx. destruct Hx as (y & <- & Hy).
    rewrite Forall_forall in Fo. destruct (as_of_level_inner level _ y Hlev (Fo y Hy)) as (l & -> & Hl). cbn [fv_as]. now rewrite map_length.
  - intros vr Hvr. pose proof (verify_rand_post p lim HO n Pi key ctx nonce (Z.of_nat level) (vw_P _ _ _ (view_inner p lim HO)) Hc Hk ltac:(lia)) as HV.
    rewrite Hvr in HV. exact HV.
Qed.

Lemma init_leaf key ctx j level prefixes nonce ps k s ci cl dst o : BITS - 1 <= level -> length prefixes = n ->
  ctx_ok ctx -> length key = SEED_SIZE (p1_xof p) -> (Z.of_nat level < 65536)%Z -> length k = id_KEY_SIZE idpf ->
  idpf_public_wf idpf ps -> j < 2 -> p1_dst USAGE_CORR_LEAF ctx = Ok dst ->
  expand_into_vec (p1_xof p) Pl s dst (z2b (Z.of_nat j) :: nonce) 3 = Ok o ->
  length cl = 2 ->
  p1_verify_init p key ctx j (Z.of_nat level, prefixes) nonce ps (k, s, ci, cl)
  = let* out := idpf_eval idpf j ps k (Z.of_nat level) prefixes ctx nonce in
    let* vr := verify_rand_of p Pl key ctx nonce (Z.of_nat level) n in
    Ok ((EVALUATE_SKETCH, Z.of_nat level, Leaf (cl ++ [fof (Z.of_nat j)] ++ data_of (map (fv_as Pl) out))),
        Leaf (sk o (map (fv_as Pl) out) vr)).
Proof.
  intros Hlev Lp Hc Hk Hl16 Lk Hps Hj Hd Eo Lcl.
  unfold p1_verify_init. apply bind_ext. intros out Ho. rewrite (level_is_inner_nat p). rewrite (proj2 (Nat.ltb_ge _ _) Hlev).
  destruct (eval_Ok_level p lim HO _ _ _ _ _ _ _ _ Hc Lk Hps Ho) as [Lo Fo].
  rewrite Lp. erewrite (verify_init_in_ok p n Pl _ _ _ key ctx j (Z.of_nat level) nonce s _ dst 1 o o); try eassumption; try lia.
  - rewrite bind_assoc. apply bind_ext. intros vr _. easy.
  - apply (vw_mod _ _ _ (view_leaf p lim HO)).
  - left. easy.
  - rewrite map_length. congruence.
  - apply Forall_forall. intros x Hx. apply in_map_iff in Hx. destruct Hx as (y & <- & Hy).
    rewrite Forall_forall in Fo. destruct (as_of_level_leaf level _ y Hlev (Fo y Hy)) as (l & -> & Hl). cbn [fv_as]. now rewrite map_length.
  - intros vr Hvr. pose proof (verify_rand_post p lim HO n Pl key ctx nonce (Z.of_nat level) (vw_P _ _ _ (view_leaf p lim HO)) Hc Hk ltac:(lia)) as HV.
    rewrite Hvr in HV. exact HV.
Qed.
End R.

(** What the code computes is what [level_messages] computes. *)
Lemma real_gen P (inj : list (F P) -> FVec) (V : View p P inj) (j : bool) key ctx lv prefixes nonce ps is0 is1
  (ev0 ev1 : res (list FVec)) (abc0 abc1 AB0 AB1 : list (F P)) kk (point : list (list (F P))) msgs :
  length AB0 = 2 -> length AB1 = 2 -> length abc0 = 3 -> length abc1 = 3 ->
  (forall vr, verify_rand_of p P key ctx nonce lv (length prefixes) = Ok vr -> length vr = length prefixes) ->
  p1_verify_init p key ctx 0 (lv, prefixes) nonce ps is0
  = (let* out := ev0 in
     let* vr := verify_rand_of p P key ctx nonce lv (length prefixes) in
     Ok ((EVALUATE_SKETCH, lv, inj (AB0 ++ [fof 0] ++ data_of (map (fv_as P) out))), inj (sk abc0 (map (fv_as P) out) vr))) ->
  p1_verify_init p key ctx 1 (lv, prefixes) nonce ps is1
  = (let* out := ev1 in
     let* vr := verify_rand_of p P key ctx nonce lv (length prefixes) in
     Ok ((EVALUATE_SKETCH, lv, inj (AB1 ++ [fof 1] ++ data_of (map (fv_as P) out))), inj (sk abc1 (map (fv_as P) out) vr))) ->
  zip_with fadd AB0 AB1 = corr_pair (zip_with fadd abc0 abc1) kk ->
  (forall out0 out1, ev0 = Ok out0 -> ev1 = Ok out1 ->
     length out0 = length prefixes /\ length out1 = length prefixes /\
     Forall (fun v => length v = 2) (map (fv_as P) out0) /\ Forall (fun v => length v = 2) (map (fv_as P) out1) /\
     point = zip_with (zip_with fadd) (map (fv_as P) out0) (map (fv_as P) out1)) ->
  real_messages p key ctx (lv, prefixes) nonce ps is0 is1 = Ok msgs ->
  exists out0 out1 vr, ev0 = Ok out0 /\ ev1 = Ok out1 /\ verify_rand_of p P key ctx nonce lv (length prefixes) = Ok vr /\
    level_messages p j ctx inj (lv, prefixes) kk (map (fv_as P) (if j then out1 else out0)) point vr
      (triple (if j then abc1 else abc0)) (triple (if j then abc0 else abc1)) (pair2 (if j then AB1 else AB0)) = Ok msgs.
Proof.
  intros LA0 LA1 Lb0 Lb1 Hvr E0 E1 HAB Hout. unfold real_messages. rewrite E0, E1.
  destruct ev0 as [out0|]; cbn [bind]; [|discriminate].
  destruct (verify_rand_of p P key ctx nonce lv (length prefixes)) as [vr|]; cbn [bind]; [|discriminate].
  destruct ev1 as [out1|]; cbn [bind]; [|discriminate].
  specialize (Hvr vr eq_refl). destruct (Hout _ _ eq_refl eq_refl) as (L0 & L1 & F0 & F1 & ->). clear Hout E0 E1.
  set (v0 := map (fv_as P) out0) in *. set (v1 := map (fv_as P) out1) in *.
  assert (Lv0 : length v0 = length prefixes) by (unfold v0; now rewrite map_length).
  assert (Lv1 : length v1 = length prefixes) by (unfold v1; now rewrite map_length).
  intros HM. exists out0, out1, vr. split; [easy|]. split; [easy|]. split; [easy|].
  assert (S0 : zip_with (zip_with fsub) (zip_with (zip_with fadd) v0 v1) v0 = v1).
  { clearbody v0 v1. clear - F0 F1 Lv0 Lv1. revert v1 F1 Lv1. rewrite <- Lv0. clear Lv0. revert F0. induction v0 as [|a v0 IH]; intros F0 [|b v1] F1 L; try discriminate; [easy|].
    inversion_clear F0 as [|? ? Ha F0']. inversion_clear F1 as [|? ? Hb F1']. cbn [zip_with]. f_equal; [|apply IH; try easy; now injection L].
    destruct a as [|x [|y [|]]], b as [|x' [|y' [|]]]; try discriminate. cbn [zip_with]. f_equal; [|f_equal]; apply fadd_sub_l. }
  assert (S1 : zip_with (zip_with fsub) (zip_with (zip_with fadd) v0 v1) v1 = v0).
  { clearbody v0 v1. clear - F0 F1 Lv0 Lv1. revert v1 F1 Lv1. rewrite <- Lv0. clear Lv0. revert F0. induction v0 as [|a v0 IH]; intros F0 [|b v1] F1 L; try discriminate; [easy|].
    inversion_clear F0 as [|? ? Ha F0']. inversion_clear F1 as [|? ? Hb F1']. cbn [zip_with]. f_equal; [|apply IH; try easy; now injection L].
    destruct a as [|x [|y [|]]], b as [|x' [|y' [|]]]; try discriminate. cbn [zip_with]. f_equal; [|f_equal]; apply fadd_sub_r. }
  assert (LM : sketch_messages p inj ctx (lv, prefixes) (pair2 AB0) (pair2 AB1) (triple abc0) (triple abc1) v0 v1 vr = Ok msgs).
  { rewrite <- HM. unfold sketch_messages. rewrite !sketch_loop_ok by (try easy; congruence). cbn [bind].
    destruct AB0 as [|A0 [|B0 [|]]]; try discriminate. destruct AB1 as [|A1 [|B1 [|]]]; try discriminate. reflexivity. }
  assert (HAB2 : forall x y, zip_with fadd AB0 AB1 = [x; y] -> 
    pair2 AB1 = (fsub x (fst (pair2 AB0)), fsub y (snd (pair2 AB0))) /\ pair2 AB0 = (fsub x (fst (pair2 AB1)), fsub y (snd (pair2 AB1)))).
  { intros x y. destruct AB0 as [|A0 [|B0 [|]]]; try discriminate. destruct AB1 as [|A1 [|B1 [|]]]; try discriminate.
    cbn [zip_with pair2 nth fst snd]. intros E. pose proof (f_equal (fun l => nth 0 l f0) E) as Ex. pose proof (f_equal (fun l => nth 1 l f0) E) as Ey.
    cbn [nth] in Ex, Ey. subst x y. split; unfold pair2; cbn [nth]; rewrite ?fadd_sub_l, ?fadd_sub_r; easy. }
  assert (HT : corr_pair (zip_with fadd abc0 abc1) kk = corr_pair [fadd (fst (fst (triple abc0))) (fst (fst (triple abc1)));
    fadd (snd (fst (triple abc0))) (snd (fst (triple abc1))); fadd (snd (triple abc0)) (snd (triple abc1))] kk).
  { destruct abc0 as [|a0 [|b0 [|c0 [|]]]]; try discriminate. destruct abc1 as [|a1 [|b1 [|c1 [|]]]]; try discriminate. reflexivity. }
  rewrite HT in HAB. destruct (HAB2 _ _ HAB) as [P1 P0].
  unfold level_messages. destruct j.
  - fold v1. rewrite S1. rewrite <- LM. f_equal. rewrite P0. reflexivity.
  - fold v0. rewrite S0. rewrite <- LM. f_equal. rewrite P1. reflexivity.
Qed.

Lemma sum_list {P} (f : FVec -> list (F P)) (g : list bool -> list (F P)) (prefixes : list (list bool)) : forall (out0 out1 : list FVec),
  length out0 = length prefixes -> length out1 = length prefixes ->
  (forall k d, k < length prefixes -> zip_with fadd (f (nth k out0 d)) (f (nth k out1 d)) = g (nth k prefixes [])) ->
  map g prefixes = zip_with (zip_with fadd) (map f out0) (map f out1).
Proof.
  induction prefixes as [|x prefixes IH]; intros [|u out0] [|v out1] L0 L1 H; try discriminate; [easy|].
  cbn [map zip_with]. f_equal.
  - symmetry. apply (H 0 u). cbn; lia.
  - apply IH; try (now injection L0); try (now injection L1). intros k d Hk. apply (H (S k) d). cbn; lia.
Qed.

Lemma real_run (j : bool) vkey ctx level prefixes m nonce rand ps iss msgs
  k0 k1 s0 s1 ss ks kl ci0 ci1 cl0 cl1 oi0 oi1 ol0 ol1 :
  level < BITS -> NoDup prefixes -> Forall (fun x => length x = S level) prefixes ->
  ctx_ok ctx -> length vkey = SEED_SIZE (p1_xof p) -> (Z.of_nat level < 65536)%Z ->
  length m = BITS -> length nonce = p1_NONCE_SIZE ->
  P1Report p ctx m nonce rand ps iss k0 k1 s0 s1 ss ks kl ci0 ci1 cl0 cl1 oi0 oi1 ol0 ol1 ->
  real_messages p vkey ctx (Z.of_nat level, prefixes) nonce ps (k0, s0, ci0, cl0) (k1, s1, ci1, cl1) = Ok msgs ->
  exists r abc coin,
    rand_at p vkey ctx nonce level (length prefixes) = Ok r /\
    own_triple p j (if j then s1 else s0) ctx nonce level = Ok abc /\
    own_triple p (negb j) (if j then s0 else s1) ctx nonce level = Ok coin /\
    query_wf p {| q_level := level; q_prefixes := prefixes; q_rand := r; q_abc := abc;
      q_AB := own_AB p (if j then (k1, s1, ci1, cl1) else (k0, s0, ci0, cl0)) level |} /\
    of_level idpf level 3 coin /\
    query_messages p j m ks kl ctx nonce (if j then k1 else k0) ps
      {| q_level := level; q_prefixes := prefixes; q_rand := r; q_abc := abc;
         q_AB := own_AB p (if j then (k1, s1, ci1, cl1) else (k0, s0, ci0, cl0)) level |} coin = Ok msgs.
Proof.
  intros Hlv Hnd Hpl Hc Hk Hl16 Hm Hn R HM.
  destruct (pk_idpf _ _ HO) as [lim' HI].
  assert (HG : gen_args_ok idpf m (map (fun k => [fof 1; k]) ks) [fof 1; kl] ctx nonce (k0 ++ k1)).
  { constructor; try easy.
    - rewrite map_length. apply R.
    - apply Forall_forall. intros x Hx. apply in_map_iff in Hx. destruct Hx as (k & <- & _). now rewrite (pk_value _ _ HO).
    - now rewrite (pk_value _ _ HO).
    - now rewrite (pk_nonce _ _ HO).
    - rewrite app_length. destruct (r1_keys _ _ _ _ _ _ _ _ _ _ _ _ _ _ _ _ _ _ _ _ _ _ R) as [-> ->].
      unfold id_RAND_SIZE, id_KEY_SIZE. lia. }
  pose proof (eval_sums idpf lim' HI _ _ _ _ _ _ ps k0 k1 level prefixes HG
    (r1_gen _ _ _ _ _ _ _ _ _ _ _ _ _ _ _ _ _ _ _ _ _ _ R) Hlv Hnd Hpl) as HE.
  pose proof (gen_total idpf lim' HI _ _ _ _ _ _ HG) as Hps.
  rewrite (r1_gen _ _ _ _ _ _ _ _ _ _ _ _ _ _ _ _ _ _ _ _ _ _ R) in Hps. destruct Hps as [Hps _].
  destruct (r1_keys _ _ _ _ _ _ _ _ _ _ _ _ _ _ _ _ _ _ _ _ _ _ R) as [Lk0 Lk1].
  rewrite (pk_value _ _ HO) in HE.
  destruct (Nat.ltb_spec level (BITS - 1)) as [Hlev|Hlev].
  - destruct (r1_oi _ _ _ _ _ _ _ _ _ _ _ _ _ _ _ _ _ _ _ _ _ _ R) as (dst & Hd & Eo0 & Eo1).
    destruct (r1_len_i _ _ _ _ _ _ _ _ _ _ _ _ _ _ _ _ _ _ _ _ _ _ R) as [Lc0 Lc1].
    assert (Lo0 : length oi0 = 3 * (BITS - 1)) by (eapply expand_len; eassumption).
    assert (Lo1 : length oi1 = 3 * (BITS - 1)) by (eapply expand_len; eassumption).
    assert (LA0 : length (piece 2 level ci0) = 2) by (apply piece_length with (BITS - 1); [easy | lia]).
    assert (LA1 : length (piece 2 level ci1) = 2) by (apply piece_length with (BITS - 1); [easy | lia]).
    assert (Lb0 : length (piece 3 level oi0) = 3) by (apply piece_length with (BITS - 1); [easy | lia]).
    assert (Lb1 : length (piece 3 level oi1) = 3) by (apply piece_length with (BITS - 1); [easy | lia]).
    assert (HV : forall vr, verify_rand_of p Pi vkey ctx nonce (Z.of_nat level) (length prefixes) = Ok vr -> length vr = length prefixes).
    { intros vr Hvr. pose proof (verify_rand_post p lim HO (length prefixes) Pi vkey ctx nonce (Z.of_nat level) (vw_P _ _ _ (view_inner p lim HO)) Hc Hk ltac:(lia)) as HV.
      rewrite Hvr in HV. exact HV. }
    destruct (real_gen Pi Inner (view_inner p lim HO) j vkey ctx (Z.of_nat level) prefixes nonce ps (k0, s0, ci0, cl0) (k1, s1, ci1, cl1)
      (idpf_eval idpf 0 ps k0 (Z.of_nat level) prefixes ctx nonce) (idpf_eval idpf 1 ps k1 (Z.of_nat level) prefixes ctx nonce)
      (piece 3 level oi0) (piece 3 level oi1) (piece 2 level ci0) (piece 2 level ci1) (nth level ks f0)
      (map (fun x => fv_as Pi (point_value idpf m (auth_inner p ks) (auth_leaf p kl) level x)) prefixes) msgs LA0 LA1 Lb0 Lb1 HV) as (out0 & out1 & vr & E0 & E1 & Evr & EM).
    { apply (init_inner (length prefixes)) with (dst := dst); try easy. lia. }
    { apply (init_inner (length prefixes)) with (dst := dst); try easy. lia. }
    { apply (r1_inner _ _ _ _ _ _ _ _ _ _ _ _ _ _ _ _ _ _ _ _ _ _ R). lia. }
    { intros out0 out1 E0 E1. rewrite E0, E1 in HE. destruct HE as (L0 & L1 & F0 & F1 & Hsum).
      split; [easy|]. split; [easy|].
      assert (HF : forall out, Forall (of_level idpf level 2) out -> Forall (fun v => length v = 2) (map (fv_as Pi) out)).
      { intros out HF. apply Forall_forall. intros x Hx. apply in_map_iff in Hx. destruct Hx as (y & <- & Hy).
        rewrite Forall_forall in HF. destruct (as_of_level_inner level _ y Hlev (HF y Hy)) as (l & -> & Hl). cbn [fv_as]. now rewrite map_length. }
      split; [now apply HF|]. split; [now apply HF|]. apply sum_list; try easy.
      intros k d Hk'. specialize (Hsum k d Hk').
      destruct (as_of_level_inner level 2 (nth k out0 d) Hlev) as (l0 & El0 & Ll0).
      { apply (Forall_nth_len (of_level idpf level 2)); [exact F0 | lia]. }
      destruct (as_of_level_inner level 2 (nth k out1 d) Hlev) as (l1 & El1 & Ll1).
      { apply (Forall_nth_len (of_level idpf level 2)); [exact F1 | lia]. }
      rewrite El0, El1 in Hsum |- *. cbn [fv_add fv_as] in Hsum |- *. rewrite !map_fcast_id in *.
      rewrite vec_add_ok in Hsum by congruence. cbn [bind] in Hsum. unfold auth_inner, auth_leaf. 
      injection Hsum as Hsum. rewrite <- Hsum. cbn [fv_as]. now rewrite map_fcast_id. }
    { exact HM. }
    exists (Inner vr), (Inner (if j then piece 3 level oi1 else piece 3 level oi0)), (Inner (if j then piece 3 level oi0 else piece 3 level oi1)).
    assert (Lvr := HV _ Evr).
    unfold rand_at, own_triple, own_AB, query_messages. cbn [q_level q_prefixes]. rewrite (proj2 (Nat.ltb_lt _ _) Hlev).
    split; [now rewrite Evr|].
    split; [rewrite Hd; destruct j; cbn [bind Z.b2z]; [change (z2b 1) with x01; rewrite Eo1 | change (z2b 0) with x00; rewrite Eo0]; reflexivity|].
    split; [rewrite Hd; destruct j; cbn [bind Z.b2z negb]; [change (z2b 0) with x00; rewrite Eo0 | change (z2b 1) with x01; rewrite Eo1]; reflexivity|].
    assert (OL : forall k v, length v = k -> of_level idpf level k (Inner v)) by (intros k v Hv; exact (conj Hlev Hv)).
    split; [|split].
    + split; [easy|]. split; [easy|]. split; [easy|]. cbn [q_level q_prefixes q_rand q_abc q_AB].
      split; [now apply OL|]. split; [apply OL; now destruct j|]. destruct j; now apply OL.
    + apply OL. now destruct j.
    + destruct j; cbn [Nat.b2n]; rewrite ?E0, ?E1; cbn [bind]; unfold query_in; cbn [q_level q_prefixes q_rand q_abc q_AB fv_as];
        rewrite !map_fcast_id; unfold beta_at; rewrite (proj2 (Nat.ltb_lt _ _) Hlev);
        (replace (nth level (auth_inner p ks) []) with [fof 1; nth level ks f0];
         [cbn [fv_as]; rewrite map_fcast_id; exact EM |
          unfold auth_inner; rewrite (nth_map' _ _ _ f0); [reflexivity|]; rewrite (r1_ks _ _ _ _ _ _ _ _ _ _ _ _ _ _ _ _ _ _ _ _ _ _ R); lia]).
  - destruct (r1_ol _ _ _ _ _ _ _ _ _ _ _ _ _ _ _ _ _ _ _ _ _ _ R) as (dst & Hd & Eo0 & Eo1).
    destruct (r1_len_l _ _ _ _ _ _ _ _ _ _ _ _ _ _ _ _ _ _ _ _ _ _ R) as [LA0 LA1].
    assert (Lb0 : length ol0 = 3) by (eapply expand_len; eassumption).
    assert (Lb1 : length ol1 = 3) by (eapply expand_len; eassumption).
    assert (HV : forall vr, verify_rand_of p Pl vkey ctx nonce (Z.of_nat level) (length prefixes) = Ok vr -> length vr = length prefixes).
    { intros vr Hvr. pose proof (verify_rand_post p lim HO (length prefixes) Pl vkey ctx nonce (Z.of_nat level) (vw_P _ _ _ (view_leaf p lim HO)) Hc Hk ltac:(lia)) as HV.
      rewrite Hvr in HV. exact HV. }
    destruct (real_gen Pl Leaf (view_leaf p lim HO) j vkey ctx (Z.of_nat level) prefixes nonce ps (k0, s0, ci0, cl0) (k1, s1, ci1, cl1)
      (idpf_eval idpf 0 ps k0 (Z.of_nat level) prefixes ctx nonce) (idpf_eval idpf 1 ps k1 (Z.of_nat level) prefixes ctx nonce)
      ol0 ol1 cl0 cl1 kl
      (map (fun x => fv_as Pl (point_value idpf m (auth_inner p ks) (auth_leaf p kl) level x)) prefixes) msgs LA0 LA1 Lb0 Lb1 HV) as (out0 & out1 & vr & E0 & E1 & Evr & EM).
    { apply (init_leaf (length prefixes)) with (dst := dst); try easy. lia. }
    { apply (init_leaf (length prefixes)) with (dst := dst); try easy. lia. }
    { apply (r1_leaf _ _ _ _ _ _ _ _ _ _ _ _ _ _ _ _ _ _ _ _ _ _ R). }
    { intros out0 out1 E0 E1. rewrite E0, E1 in HE. destruct HE as (L0 & L1 & F0 & F1 & Hsum).
      split; [easy|]. split; [easy|].
      assert (HF : forall out, Forall (of_level idpf level 2) out -> Forall (fun v => length v = 2) (map (fv_as Pl) out)).
      { intros out HF. apply Forall_forall. intros x Hx. apply in_map_iff in Hx. destruct Hx as (y & <- & Hy).
        rewrite Forall_forall in HF. destruct (as_of_level_leaf level _ y Hlev (HF y Hy)) as (l & -> & Hl). cbn [fv_as]. now rewrite map_length. }
      split; [now apply HF|]. split; [now apply HF|]. apply sum_list; try easy.
      intros k d Hk'. specialize (Hsum k d Hk').
      destruct (as_of_level_leaf level 2 (nth k out0 d) Hlev) as (l0 & El0 & Ll0).
      { apply (Forall_nth_len (of_level idpf level 2)); [exact F0 | lia]. }
      destruct (as_of_level_leaf level 2 (nth k out1 d) Hlev) as (l1 & El1 & Ll1).
      { apply (Forall_nth_len (of_level idpf level 2)); [exact F1 | lia]. }
      rewrite El0, El1 in Hsum |- *. cbn [fv_add fv_as] in Hsum |- *. rewrite !map_fcast_id in *.
      rewrite vec_add_ok in Hsum by congruence. cbn [bind] in Hsum. unfold auth_inner, auth_leaf. 
      injection Hsum as Hsum. rewrite <- Hsum. cbn [fv_as]. now rewrite map_fcast_id. }
    { exact HM. }
    exists (Leaf vr), (Leaf (if j then ol1 else ol0)), (Leaf (if j then ol0 else ol1)).
    assert (Lvr := HV _ Evr).
    unfold rand_at, own_triple, own_AB, query_messages. cbn [q_level q_prefixes]. rewrite (proj2 (Nat.ltb_ge _ _) Hlev).
    split; [now rewrite Evr|].
    split; [rewrite Hd; destruct j; cbn [bind Z.b2z]; [change (z2b 1) with x01; rewrite Eo1 | change (z2b 0) with x00; rewrite Eo0]; reflexivity|].
    split; [rewrite Hd; destruct j; cbn [bind Z.b2z negb]; [change (z2b 0) with x00; rewrite Eo0 | change (z2b 1) with x01; rewrite Eo1]; reflexivity|].
    assert (OL : forall k v, length v = k -> of_level idpf level k (Leaf v)) by (intros k v Hv; exact (conj Hlev Hv)).
    split; [|split].
    + split; [easy|]. split; [easy|]. split; [easy|]. cbn [q_level q_prefixes q_rand q_abc q_AB].
      split; [now apply OL|]. split; [apply OL; now destruct j|]. destruct j; now apply OL.
    + apply OL. now destruct j.
    + destruct j; cbn [Nat.b2n]; rewrite ?E0, ?E1; cbn [bind]; unfold query_in; cbn [q_level q_prefixes q_rand q_abc q_AB fv_as];
        rewrite !map_fcast_id; unfold beta_at; rewrite (proj2 (Nat.ltb_ge _ _) Hlev); cbn [fv_as auth_leaf];
        rewrite map_fcast_id; exact EM.
Qed.
End V.

(** ** XOFs that put out zeros never run out *)
Section Z.
Notation zero := (Forall (eq x00)).
Notation E := (fun e => e <> OutOfFuel).
Context (ts : TurboShake) (Hts : forall m d n, ts m d n = x00) (bound n : nat).

Lemma zero_value P b : zero b -> chunk_value P b = 0%Z.
Proof.
  intros H. assert (V : from_le_bytes b = 0%Z) by (induction H as [|x b <- _ IH]; [easy|]; cbn [from_le_bytes]; now rewrite IH).
  unfold chunk_value. rewrite V. apply Zmod_0_l.
Qed.
Lemma zero_loop X P : (0 < MODULUS P)%Z -> (forall st k, post (xof_next X st k) (fun '(b, _) => zero b) E) ->
  forall fuel len st (vec : list (F P)), len <= length vec + fuel ->
  post (next_vec_loop X P fuel (2 ^ bits_of P - 1) len st vec) (fun _ => True) E.
Proof.
  intros HP HN. induction fuel as [|fuel IH]; intros len st vec Hl; rewrite loop_step; (destruct (Nat.ltb_spec (length vec) len); [|exact I]); [lia|].
  eapply post_bind; [apply HN|]. intros [b st'] _ Hb. rewrite (zero_value P b Hb). rewrite (proj2 (Z.ltb_lt _ _) HP).
  apply IH. rewrite app_length. cbn [length]. lia.
Qed.
Lemma zero_convert X P ks vl : (0 < MODULUS P)%Z -> vl <= loop_bound X -> (forall s d b, post (xof_init X s d b) (fun _ => True) E) ->
  (forall st k, post (xof_next X st k) (fun '(b, _) => zero b) E) ->
  forall seed ctx nonce, post (let* d := format_dst 1 0 1 in
  let* xof := xof_init X seed (d ++ ctx) nonce in
  let* (next_seed, xof) := xof_next X xof ks in
  let* (w, _) := next_vec X P xof vl in
  Ok (next_seed, w)) (fun _ => True) E.
Proof.
  intros HP Hv HI HN seed ctx nonce. destruct (format_dst 1 0 1) as [d|] eqn:Ed; [|discriminate Ed]. cbn [bind].
  eapply post_bind; [apply HI|]. intros st _ _. eapply post_bind; [apply HN|]. intros [b st'] _ _.
  eapply post_bind; [rewrite next_vec_eq; apply zero_loop; easy|]. intros [w ?] _ _. exact I.
Qed.

Lemma to_le_post v k : post (to_le_bytes v k) (fun _ => True) E.
Proof. unfold to_le_bytes. now destruct (_ || _). Qed.
Lemma zero_ts st k : post (xof_next (XofTurboShake128 ts bound) st k) (fun '(b, _) => zero b) E.
Proof.
  destruct st as [m l]. cbn. unfold stream_bytes. apply Forall_forall. intros x Hx. apply in_map_iff in Hx as (y & <- & _). symmetry. apply Hts.
Qed.
Lemma zero_ts_init s d b : post (xof_init (XofTurboShake128 ts bound) s d b) (fun _ => True) E.
Proof.
  cbn. unfold turboshake_message. destruct (to_le_bytes (Z.of_nat (length d)) 2) as [x|] eqn:E1; cbn [bind].
  - destruct (to_le_bytes (Z.of_nat (length s)) 1) as [y|] eqn:E2; cbn; [exact I|].
    pose proof (to_le_post (Z.of_nat (length s)) 1) as H. rewrite E2 in H. exact H.
  - pose proof (to_le_post (Z.of_nat (length d)) 2) as H. rewrite E1 in H. exact H.
Qed.
Lemma zero_aes st k : post (xof_next (XofFixedKeyAes128 ts (fun _ b => b) bound) st k) (fun '(b, _) => zero b) E.
Proof.
  cbn. unfold aes_next. eapply post_bind.
  - apply (post_mapM _ _ (fun _ b => zero b)). intros i _. eapply post_bind; [apply to_le_post|]. intros e _ _. cbn. unfold hash_block.
    rewrite xor_nilpotent. unfold zeros. apply Forall_forall. intros x Hx. apply repeat_spec in Hx. now symmetry.
  - intros l _ Hl. cbn. unfold slice. apply Forall_forall. intros x Hx.
    assert (Hin : In x (concat_bytes l)).
    { rewrite <- (firstn_skipn (length_consumed st mod 16) (concat_bytes l)). apply in_or_app. right.
      set (y := skipn _ _) in *. rewrite <- (firstn_skipn (length_consumed st mod 16 + k - length_consumed st mod 16) y). apply in_or_app. now left. }
    apply in_concat in Hin as (y & Hy & Hx'). revert Hy. clear - Hl Hx'. induction Hl as [|? ? ? ? H1 ? IH]; intros Hy; [easy|]. destruct Hy as [->|Hy].
    + rewrite Forall_forall in H1. now apply H1.
    + now apply IH.
Qed.
Lemma zero_aes_init s d b : post (xof_init (XofFixedKeyAes128 ts (fun _ b => b) bound) s d b) (fun _ => True) E.
Proof.
  cbn. unfold aes_init. destruct (_ =? _); cbn [check bind]; [|easy]. unfold fixed_key_message.
  apply (post_bind _ _ (fun _ => True)); [|intros; exact I]. eapply post_bind; [apply to_le_post|]. intros; exact I.
Qed.
Lemma zero_never : 2 <= bound -> ~ idpf_ran_out (p1_idpf (p1_obj ts (fun _ b => b) bound n)).
Proof.
  intros Hb (level & seed & ctx & nonce & H). revert H. unfold convert, convert_with.
  destruct (is_inner _ _).
  - pose proof (zero_convert (XofFixedKeyAes128 ts (fun _ b => b) bound) Field64 (id_KEY_SIZE (idpf_obj ts (fun _ b => b) bound 2 n)) 2
      ltac:(reflexivity) Hb zero_aes_init zero_aes seed ctx nonce) as HC. cbn [p1_idpf p1_obj id_xof_inner id_field_inner idpf_obj id_VALUE_LEN] in *. unfold post in HC.
    match type of HC with match ?m with _ => _ end => destruct m as [[? ?]|e] eqn:Em end; intros H; [discriminate | injection H as ->; now apply HC].
  - pose proof (zero_convert (XofTurboShake128 ts bound) Field255 (id_KEY_SIZE (idpf_obj ts (fun _ b => b) bound 2 n)) 2
      ltac:(reflexivity) Hb zero_ts_init zero_ts seed ctx nonce) as HC. cbn [p1_idpf p1_obj id_xof_leaf id_field_leaf idpf_obj id_VALUE_LEN] in *. unfold post in HC.
    match type of HC with match ?m with _ => _ end => destruct m as [[? ?]|e] eqn:Em end; intros H; [discriminate | injection H as ->; now apply HC].
Qed.
End Z.
