(** Changing the payload of a correction word is changing the value. *)
From Verif Require Export TamperSpec.
From Verif Require Import IdpfFacts FieldFacts VecFacts BaseFacts CommonFacts.
Open Scope nat_scope.

Lemma Ok_inj {A} (a b : A) : Ok a = Ok b -> a = b.
Proof. now intros [= ->]. Qed.

Section T.
Context (idpf : Idpf).
Notation Pi := (id_field_inner idpf).
Notation Pl := (id_field_leaf idpf).
Notation FVec := (FieldVec Pi Pl).
Notation BITS := (id_BITS idpf).

Definition beta_res (bi : list (list (F Pi))) (bl : list (F Pl)) (level : nat) : res FVec :=
  if level <? BITS - 1 then let* v := get bi level in Ok (Inner v) else Ok (Leaf bl).

Lemma gen_level_eq alpha bi bl bi' bl' ctx nonce st level : beta_res bi bl level = beta_res bi' bl' level ->
  gen_level idpf alpha bi bl ctx nonce st level = gen_level idpf alpha bi' bl' ctx nonce st level.
Proof. intros H. unfold gen_level, beta_res in *. now rewrite H. Qed.

Lemma gen_level_form alpha bi bl ctx nonce s c acc level s' c' acc2 :
  gen_level idpf alpha bi bl ctx nonce (s, c, acc) level = Ok (s', c', acc2) ->
  exists scw ccw x0 x1 n0 n1 w0 w1 b d e,
    convert idpf level x0 ctx nonce = Ok (n0, w0) /\ convert idpf level x1 ctx nonce = Ok (n1, w1) /\
    beta_res bi bl level = Ok b /\ fv_len b = id_VALUE_LEN idpf /\ fv_sub b w0 = Ok d /\ fv_add d w1 = Ok e /\
    acc2 = acc ++ [(scw, ccw, if snd c' then fv_neg e else e)] /\
    forall bi' bl' acc' b' d' e', beta_res bi' bl' level = Ok b' -> fv_len b' = id_VALUE_LEN idpf ->
      fv_sub b' w0 = Ok d' -> fv_add d' w1 = Ok e' ->
      gen_level idpf alpha bi' bl' ctx nonce (s, c, acc') level = Ok (s', c', acc' ++ [(scw, ccw, if snd c' then fv_neg e' else e')]).
Proof.
  unfold gen_level, beta_res. intros H.
  apply bind_Ok in H. destruct H as (bit & Eb & H).
  apply bind_Ok in H. destruct H as ([s0 t0] & Es0 & H).
  apply bind_Ok in H. destruct H as ([s1 t1] & Es1 & H).
  match type of H with context [if fst c then ?x else ?y] => destruct (if fst c then x else y) as [x0 ctrl0] eqn:E0 end.
  match type of H with context [if snd c then ?x else ?y] => destruct (if snd c then x else y) as [x1 ctrl1] eqn:E1 end.
  apply bind_Ok in H. destruct H as ([n0 w0] & Ec0 & H).
  apply bind_Ok in H. destruct H as ([n1 w1] & Ec1 & H).
  apply bind_Ok in H. destruct H as (b & Hb & H).
  apply bind_Ok in H. destruct H as (u & Hu & H).
  apply bind_Ok in H. destruct H as (d & Hd & H).
  apply bind_Ok in H. destruct H as (e & He & H). injection H as <- <- <-.
  apply check_Ok in Hu. apply Nat.eqb_eq in Hu.
  do 2 eexists. exists x0, x1, n0, n1, w0, w1, b, d, e.
  repeat (split; [eassumption|]). split; [reflexivity|].
  intros bi' bl' acc' b' d' e' Hb' Hl' Hd' He'. rewrite Eb. cbn [bind]. rewrite Es0. cbn [bind]. rewrite Es1. cbn [bind].
  rewrite E0, E1, Ec0. cbn [bind]. rewrite Ec1. cbn [bind]. rewrite Hb'. cbn [bind].
  rewrite Hl', Nat.eqb_refl. cbn [check bind]. rewrite Hd'. cbn [bind]. rewrite He'. reflexivity.
Qed.

(** The public share is only appended to. *)
Lemma gen_loop_app alpha bi bl ctx nonce ls : forall s c acc s' c' acc2,
  foldM (gen_level idpf alpha bi bl ctx nonce) ls (s, c, acc) = Ok (s', c', acc2) ->
  exists x, acc2 = acc ++ x /\ length x = length ls /\
    forall acc', foldM (gen_level idpf alpha bi bl ctx nonce) ls (s, c, acc') = Ok (s', c', acc' ++ x).
Proof.
  induction ls as [|l ls IH]; intros s c acc s' c' acc2 H; cbn [foldM] in *.
  - injection H as <- <- <-. exists []. rewrite app_nil_r. repeat split. intros acc'. now rewrite app_nil_r.
  - apply bind_Ok in H. destruct H as ([[s1 c1] acc1] & H1 & H).
    destruct (gen_level_form _ _ _ _ _ _ _ _ _ _ _ _ H1) as (scw & ccw & x0 & x1 & n0 & n1 & w0 & w1 & b & d & e & _ & _ & Hb & Hl & Hd & He & -> & HF).
    destruct (IH _ _ _ _ _ _ H) as (x & -> & Lx & HX).
    eexists ([_] ++ x). rewrite <- app_assoc. split; [reflexivity|]. split; [cbn; now rewrite Lx|].
    intros acc'. rewrite (HF _ _ acc' _ _ _ Hb Hl Hd He). cbn [bind]. rewrite HX. now rewrite <- app_assoc.
Qed.

Lemma convert_class level x ctx nonce n w : convert idpf level x ctx nonce = Ok (n, w) ->
  match w with Inner _ => level < BITS - 1 | Leaf _ => BITS - 1 <= level end.
Proof.
  unfold convert, is_inner. destruct (level <? BITS - 1) eqn:E; intros H; apply bind_Ok in H; destruct H as ([? ?] & _ & H); injection H as <- <-.
  - now apply Nat.ltb_lt. - now apply Nat.ltb_ge.
Qed.

Section V.
Context {P : FieldClass}.
Add Ring FringTI : (@F_ring P).
Lemma vadd_shift n (b v0 v1 dl d e : list (F P)) : length b = n -> length dl = n -> vec_sub b v0 = Ok d -> vec_add d v1 = Ok e ->
  exists d', vec_sub (zip_with fadd b dl) v0 = Ok d' /\ vec_add d' v1 = Ok (zip_with fadd e dl) /\ length e = n.
Proof.
  intros Lb Ll Hd He. apply vec_sub_Ok in Hd. destruct Hd as [L0 ->]. apply vec_add_Ok in He. destruct He as [L1 ->].
  rewrite zip_with_length in L1.
  exists (zip_with fsub (zip_with fadd b dl) v0). split; [|split].
  - apply vec_sub_ok. rewrite zip_with_length. lia.
  - rewrite vec_add_ok by (rewrite !zip_with_length; lia). f_equal. apply (vec_eq n); try (rewrite !zip_with_length; lia).
    intros i Hi. rewrite !(nth_zip_with _ _ _ _ f0 f0) by (rewrite ?zip_with_length; lia). ring.
  - rewrite !zip_with_length. lia.
Qed.
Lemma vadd_neg n (e dl : list (F P)) : length e = n -> length dl = n ->
  vec_neg (zip_with fadd e (vec_neg dl)) = zip_with fadd (vec_neg e) dl.
Proof.
  intros Le Ll. unfold vec_neg. apply (vec_eq n); try (rewrite ?map_length, ?zip_with_length, ?map_length; lia).
  intros i Hi. rewrite (nth_map' _ _ _ f0) by (rewrite zip_with_length, map_length; lia).
  rewrite !(nth_zip_with _ _ _ _ f0 f0) by (rewrite ?map_length; lia). rewrite !(nth_map' _ _ _ f0) by lia. ring.
Qed.
End V.

Lemma nth_error_middle {A} (a : list A) x b : nth_error (a ++ x :: b) (length a) = Some x.
Proof. induction a; simpl; auto. Qed.
Lemma upd_middle {A} (a : list A) x y b : upd (a ++ x :: b) (length a) y = a ++ y :: b.
Proof. induction a; simpl; congruence. Qed.

Lemma gen_level_shift alpha bi bl ctx nonce s c acc level s' c' acc2 delta :
  level < BITS -> length bi = BITS - 1 ->
  of_level idpf level (id_VALUE_LEN idpf) delta ->
  gen_level idpf alpha bi bl ctx nonce (s, c, acc) level = Ok (s', c', acc2) ->
  exists scw ccw w, acc2 = acc ++ [(scw, ccw, w)] /\
    let d := if snd c' then fv_neg delta else delta in
    gen_level idpf alpha (plus_inner level d bi) (plus_leaf d bl) ctx nonce (s, c, acc) level
    = Ok (s', c', acc ++ [(scw, ccw, fv_plus w delta)]).
Proof.
  intros HL Lbi Hdl H.
  destruct (gen_level_form _ _ _ _ _ _ _ _ _ _ _ _ H) as (scw & ccw & x0 & x1 & n0 & n1 & w0 & w1 & b & d & e & C0 & C1 & Hb & Hl & Hd & He & -> & HF).
  exists scw, ccw. eexists. split; [reflexivity|]. cbv zeta.
  apply convert_class in C0, C1. unfold beta_res in Hb, HF.
  destruct delta as [dl|dl], w0 as [v0|v0], w1 as [v1|v1]; cbn in Hdl; destruct Hdl as [Hlv Ldl]; try (exfalso; lia).
  - rewrite (proj2 (Nat.ltb_lt _ _) Hlv) in Hb, HF. apply bind_Ok in Hb. destruct Hb as (bv & Hg & Hb). injection Hb as <-.
    cbn [fv_len fv_sub fv_as] in Hl, Hd. rewrite map_fcast_id in Hd. apply bind_Ok in Hd. destruct Hd as (dv & Hd & Hdd). injection Hdd as <-.
    cbn [fv_add fv_as] in He. rewrite map_fcast_id in He. apply bind_Ok in He. destruct He as (ev & He & Hee). injection Hee as <-.
    pose proof Hg as Hg'. apply (get_Ok_nth _ _ _ []) in Hg'.
    set (dl' := if snd c' then vec_neg dl else dl).
    assert (Ldl' : length dl' = id_VALUE_LEN idpf) by (unfold dl'; destruct (snd c'); unfold vec_neg; rewrite ?map_length; exact Ldl).
    destruct (vadd_shift _ _ _ _ _ _ _ Hl Ldl' Hd He) as (d' & Hd' & He' & Le).
    replace (if snd c' then fv_neg (Inner dl) else Inner dl) with (@Inner Pi Pl dl') by (unfold dl'; now destruct (snd c')).
    cbn [plus_inner plus_leaf].
    rewrite (HF (upd bi level (zip_with fadd (nth level bi []) dl')) bl acc (Inner (zip_with fadd bv dl')) (Inner d') (Inner (zip_with fadd ev dl'))).
    + do 4 f_equal. unfold dl'. destruct (snd c'); cbn [fv_neg fv_plus]; do 2 f_equal; f_equal. now apply (vadd_neg (id_VALUE_LEN idpf)).
    + rewrite (get_nth _ _ []) by (rewrite length_upd; lia). rewrite nth_upd_same by lia. cbn [bind]. now rewrite (proj2 Hg').
    + cbn [fv_len]. rewrite zip_with_length. lia.
    + cbn [fv_sub fv_as]. rewrite map_fcast_id. change (vec_sub (zip_with fadd bv dl') v0 = Ok d') in Hd'. now rewrite Hd'.
    + cbn [fv_add fv_as]. rewrite map_fcast_id. now rewrite He'.
  - rewrite (proj2 (Nat.ltb_ge _ _) Hlv) in Hb, HF. injection Hb as <-.
    cbn [fv_len fv_sub fv_as] in Hl, Hd. rewrite map_fcast_id in Hd. apply bind_Ok in Hd. destruct Hd as (dv & Hd & Hdd). injection Hdd as <-.
    cbn [fv_add fv_as] in He. rewrite map_fcast_id in He. apply bind_Ok in He. destruct He as (ev & He & Hee). injection Hee as <-.
    set (dl' := if snd c' then vec_neg dl else dl).
    assert (Ldl' : length dl' = id_VALUE_LEN idpf) by (unfold dl'; destruct (snd c'); unfold vec_neg; rewrite ?map_length; exact Ldl).
    destruct (vadd_shift _ _ _ _ _ _ _ Hl Ldl' Hd He) as (d' & Hd' & He' & Le).
    replace (if snd c' then fv_neg (Leaf dl) else Leaf dl) with (@Leaf Pi Pl dl') by (unfold dl'; now destruct (snd c')).
    cbn [plus_inner plus_leaf].
    rewrite (HF bi (zip_with fadd bl dl') acc (Leaf (zip_with fadd bl dl')) (Leaf d') (Leaf (zip_with fadd ev dl'))).
    + do 4 f_equal. unfold dl'. destruct (snd c'); cbn [fv_neg fv_plus]; do 2 f_equal; f_equal. now apply (vadd_neg (id_VALUE_LEN idpf)).
    + reflexivity.
    + cbn [fv_len]. rewrite zip_with_length. lia.
    + cbn [fv_sub fv_as]. rewrite map_fcast_id. now rewrite Hd'.
    + cbn [fv_add fv_as]. rewrite map_fcast_id. now rewrite He'.
Qed.

Lemma beta_res_other bi bl level delta l : of_level idpf level (id_VALUE_LEN idpf) delta -> level < BITS -> length bi = BITS - 1 -> l < BITS -> l <> level ->
  beta_res bi bl l = beta_res (plus_inner level delta bi) (plus_leaf delta bl) l.
Proof.
  intros Hd HL Lb Hl Hne. unfold beta_res. destruct (l <? BITS - 1) eqn:E.
  - apply Nat.ltb_lt in E. destruct delta as [dl|dl]; cbn [plus_inner]; [|reflexivity].
    rewrite !(get_nth _ _ []) by (rewrite ?length_upd; lia). now rewrite nth_upd_other by lia.
  - apply Nat.ltb_ge in E. destruct delta as [dl|dl]; cbn [plus_leaf]; [reflexivity|]. cbn in Hd. lia.
Qed.

Theorem tampered_gen alpha bi bl ctx nonce rand level delta ps keys :
  level < BITS -> of_level idpf level (id_VALUE_LEN idpf) delta ->
  idpf_gen idpf alpha bi bl ctx nonce rand = Ok (ps, keys) ->
  exists d, (d = delta \/ d = fv_neg delta) /\
    idpf_gen idpf alpha (plus_inner level d bi) (plus_leaf d bl) ctx nonce rand = Ok (tampered level delta ps, keys).
Proof.
  intros HL Hdl H. unfold idpf_gen in H. unfold idpf_gen.
  apply bind_Ok in H. destruct H as (u1 & Hc1 & H). apply bind_Ok in H. destruct H as (u2 & Hc2 & H).
  apply bind_Ok in H. destruct H as (u3 & Hc3 & H). apply bind_Ok in H. destruct H as (u4 & Hc4 & H).
  apply bind_Ok in H. destruct H as ([[sL cL] psL] & HR & H). apply Ok_inj in H. injection H as -> <-.
  pose proof Hc2 as Lb. apply check_Ok in Lb. apply Nat.eqb_eq in Lb.
  unfold for_range, range in *. rewrite Nat.sub_0_r in *.
  assert (ES : seq 0 BITS = seq 0 level ++ level :: seq (S level) (BITS - S level)).
  { replace BITS with (level + S (BITS - S level)) at 1 by lia. rewrite seq_app. reflexivity. }
  rewrite ES in *. rewrite foldM_app in HR. apply bind_Ok in HR. destruct HR as ([[s1 c1] a1] & H1 & HR).
  cbn [foldM] in HR. apply bind_Ok in HR. destruct HR as ([[s2 c2] a2] & H2 & HR).
  destruct (gen_loop_app _ _ _ _ _ _ _ _ _ _ _ _ H1) as (x1 & -> & Lx1 & _). rewrite seq_length in Lx1. cbn [app] in *.
  destruct (gen_level_shift _ _ _ _ _ _ _ _ _ _ _ _ delta HL Lb Hdl H2) as (scw & ccw & w & -> & H2').
  destruct (gen_loop_app _ _ _ _ _ _ _ _ _ _ _ _ HR) as (x2 & -> & _ & HR').
  set (d := if snd c2 then fv_neg delta else delta) in *.
  assert (Hd : of_level idpf level (id_VALUE_LEN idpf) d).
  { unfold d. destruct (snd c2); [|exact Hdl]. destruct delta; cbn in *; unfold vec_neg; now rewrite map_length. }
  exists d. split; [unfold d; destruct (snd c2); auto|].
  rewrite Hc1. cbn [bind].
  assert (Lb' : length (plus_inner level d bi) = length bi) by (destruct d; cbn; now rewrite ?length_upd).
  rewrite Lb', Hc2. cbn [bind]. rewrite Hc3. cbn [bind]. rewrite Hc4. cbn [bind].
  set (k0 := firstn (SEED_SIZE (id_xof_inner idpf)) rand) in *. set (k1 := skipn (SEED_SIZE (id_xof_inner idpf)) rand) in *.
  assert (HF : foldM (gen_level idpf alpha (plus_inner level d bi) (plus_leaf d bl) ctx nonce) (seq 0 level ++ level :: seq (S level) (BITS - S level))
                 ((k0, k1), (false, true), []) = Ok (sL, cL, tampered level delta ((x1 ++ [(scw, ccw, w)]) ++ x2))).
  { rewrite foldM_app.
    rewrite (foldM_ext (gen_level idpf alpha (plus_inner level d bi) (plus_leaf d bl) ctx nonce) (gen_level idpf alpha bi bl ctx nonce) (seq 0 level)).
    2: { intros st l Hl. apply in_seq in Hl. symmetry. apply gen_level_eq. apply beta_res_other; try easy; lia. }
    refine (eq_trans (f_equal (fun r => bind r _) H1) _). cbn [bind foldM].
    refine (eq_trans (f_equal (fun r => bind r _) H2') _). cbn [bind].
    rewrite (foldM_ext (gen_level idpf alpha (plus_inner level d bi) (plus_leaf d bl) ctx nonce) (gen_level idpf alpha bi bl ctx nonce) (seq (S level) (BITS - S level))).
    2: { intros st l Hl. apply in_seq in Hl. symmetry. apply gen_level_eq. apply beta_res_other; try easy; lia. }
    refine (eq_trans (HR' _) _). do 2 f_equal. unfold tampered. rewrite <- !app_assoc. cbn [app].
    rewrite <- Lx1. symmetry.
    refine (eq_trans (f_equal (fun o => match o with Some (a, b, v) => _ | None => _ end) (nth_error_middle x1 (scw, ccw, w) x2)) _).
    exact (upd_middle x1 _ _ x2). }
  refine (eq_trans (f_equal (fun r => bind r _) HF) _). reflexivity.
Qed.
End T.
