(** Proofs about SketchSpec.v. *)
From Verif Require Import SketchSpec Poplar1Sound Poplar1Run Poplar1Facts.
Open Scope nat_scope.

Section S.
Context (p : Poplar1) {P : FieldClass}
  (inj : list (F P) -> FieldVec (id_field_inner (p1_idpf p)) (id_field_leaf (p1_idpf p))) (V : View p P inj).
Add Ring FringSZ : (@F_ring P).
Notation F := (F P).

(** The round-one share. *)
Definition s_share (r : list F) (abc : F * F * F) (v : list (list F)) : list F :=
  [fadd (fst (fst abc)) (dot (data_of v) r); fadd (snd (fst abc)) (dot (data_of v) (squares r)); fadd (snd abc) (dot (auth_of v) r)].
(** The round-two share, for the message [z]. *)
Definition t_share (j : F) (AB : F * F) (z : list F) : F :=
  fadd (fadd (fmul j (fsub (fsub (fmul (nth 0 z f0) (nth 0 z f0)) (nth 1 z f0)) (nth 2 z f0))) (fmul (fst AB) (nth 0 z f0))) (snd AB).

Lemma messages_ok ctx ap AB0 AB1 abc0 abc1 v0 v1 (r : list F) :
  length v0 = length r -> length v1 = length r -> Forall (fun v => length v = 2) v0 -> Forall (fun v => length v = 2) v1 ->
  sketch_messages p inj ctx ap AB0 AB1 abc0 abc1 v0 v1 r
  = let s0 := s_share r abc0 v0 in let s1 := s_share r abc1 v1 in
    let z := zip_with fadd s0 s1 in
    Ok [inj s0; inj s1; inj [t_share f0 AB0 z]; inj [t_share f1 AB1 z]].
Proof.
  intros L0 L1 F0 F1. unfold sketch_messages.
  rewrite (sketch_loop_ok r v0) by easy. cbn [bind].
  rewrite (sketch_loop_ok r v1) by easy. cbn [bind].
  unfold p1_verifier_shares_to_message. cbn [length Nat.eqb check bind].
  match goal with |- context [get [?x; ?y] 0] => change (get [x; y] 0) with (Ok x); change (get [x; y] 1) with (Ok y) end. cbn [bind].
  rewrite (vw_add _ _ _ V). rewrite vec_add_ok by easy. cbn [bind]. rewrite (vw_len _ _ _ V).
  cbn [zip_with length Nat.eqb bind]. cbv zeta. unfold s_share at 1 2 3 4 5 6. cbn [zip_with].
  match goal with |- context [inj [?a; ?b; ?c]] => idtac end.
  assert (EN : forall j A B (d : list F) z0 z1 z2, p1_verify_next p ctx (EVALUATE_SKETCH, fst ap, inj (A :: B :: j :: d)) (Some (inj [z0; z1; z2]))
    = Ok (inl ((REVEAL_SKETCH, fst ap, inj d), inj [t_share j (A, B) [z0; z1; z2]]))).
  { intros j A B d z0 z1 z2. rewrite (vw_next _ _ _ V). cbn [length Nat.eqb check bind].
    unfold sketch_terms_in. cbn [get nth_error bind]. unfold evaluate_in.
    cbn [get nth_error bind skipn]. rewrite !fof_val. unfold t_share. cbn [nth fst snd]. now rewrite fpow_2. }
  cbn [app]. rewrite !EN. cbn [bind]. unfold s_share. cbn [zip_with]. destruct AB0, AB1. reflexivity.
Qed.

(** For an honest client the round-two shares cancel. *)
Lemma t_cancel k n v0 v1 (r : list F) abc0 abc1 AB0 AB1 : honest_values k n v0 v1 -> length r = n ->
  [fadd (fst AB0) (fst AB1); fadd (snd AB0) (snd AB1)]
  = corr_pair [fadd (fst (fst abc0)) (fst (fst abc1)); fadd (snd (fst abc0)) (snd (fst abc1)); fadd (snd abc0) (snd abc1)] k ->
  let z := zip_with fadd (s_share r abc0 v0) (s_share r abc1 v1) in
  fadd (t_share f0 AB0 z) (t_share f1 AB1 z) = f0.
Proof.
  intros (L0 & L1 & F0 & F1 & [t Ht] & HK) Hr HC z.
  set (D := zip_with fadd (data_of v0) (data_of v1)).
  assert (LD : length D = n) by (unfold D, data_of; rewrite zip_with_length, !map_length; lia).
  assert (HD : forall i, i < n -> nth i D f0 = sum_part 0 v0 v1 i).
  { intros i Hi. unfold D, sum_part, data_of. rewrite (nth_zip_with _ _ _ _ f0 f0) by (rewrite map_length; lia). now rewrite !(nth_map' _ _ _ []) by lia. }
  assert (HKD : zip_with fadd (auth_of v0) (auth_of v1) = map (fmul k) D).
  { apply (vec_eq n).
    - unfold auth_of. rewrite zip_with_length, !map_length. lia.
    - now rewrite map_length.
    - intros i Hi. rewrite (nth_map' (fmul k) D i f0) by lia. rewrite HD by easy. rewrite <- HK by easy.
      unfold auth_of, sum_part. rewrite (nth_zip_with _ _ _ _ f0 f0) by (rewrite map_length; lia). now rewrite !(nth_map' _ _ _ []) by lia. }
  pose proof (sketch_identity _ _ k D r t ltac:(congruence) ltac:(intros i Hi; rewrite HD by lia; apply Ht; lia) HC) as SI.
  cbv zeta in SI. cbn [nth] in SI. rewrite <- HKD in SI.
  assert (E0 : dot D r = fadd (dot (data_of v0) r) (dot (data_of v1) r)) by (apply dot_add; unfold data_of; rewrite !map_length; congruence).
  assert (E1 : dot D (squares r) = fadd (dot (data_of v0) (squares r)) (dot (data_of v1) (squares r))) by (apply dot_add; unfold data_of; rewrite !map_length; congruence).
  rewrite (dot_add (auth_of v0) (auth_of v1)) in SI by (unfold auth_of; rewrite !map_length; congruence).
  rewrite E0, E1 in SI. etransitivity; [|exact SI]. unfold z, t_share, s_share. cbn [zip_with nth]. ring.
Qed.

Lemma cancel_l (a b t : F) : fadd a t = f0 -> fadd b t = f0 -> a = b.
Proof. intros A B. transitivity (fsub (fadd a t) t); [ring|]. rewrite A, <- B. ring. Qed.

Lemma inj_inj a b : inj a = inj b -> a = b.
Proof. intros E. rewrite <- (vw_as _ _ _ V a), <- (vw_as _ _ _ V b). now rewrite E. Qed.

Lemma corr_split (k : F) (abc0 abc1 : F * F * F) (AB : F * F) : [fadd (fst AB) (fst (other_AB k abc0 abc1 AB)); fadd (snd AB) (snd (other_AB k abc0 abc1 AB))]
  = corr_pair [fadd (fst (fst abc0)) (fst (fst abc1)); fadd (snd (fst abc0)) (snd (fst abc1)); fadd (snd abc0) (snd abc1)] k.
Proof. destruct abc0 as [[a0 b0] c0], abc1 as [[a1 b1] c1]. unfold other_AB, corr_pair. cbn [fst snd nth]. f_equal; [|f_equal]; ring. Qed.

Lemma triple_eq (x y : F * F * F) : [fst (fst x); snd (fst x); snd x] = [fst (fst y); snd (fst y); snd y] -> x = y.
Proof. destruct x as [[a b] c], y as [[a' b'] c']. cbn. congruence. Qed.

(** The triple for which the round-one share is [s]. *)
Definition unmask (r : list F) (v : list (list F)) (s : list F) : F * F * F :=
  (fsub (nth 0 s f0) (dot (data_of v) r), fsub (nth 1 s f0) (dot (data_of v) (squares r)), fsub (nth 2 s f0) (dot (auth_of v) r)).
Lemma unmask_share r v s : length s = 3 -> s_share r (unmask r v s) v = s.
Proof.
  intros H. destruct s as [|x [|y [|z [|]]]]; try discriminate. unfold s_share, unmask. cbn [fst snd nth].
  f_equal; [|f_equal; [|f_equal]]; ring.
Qed.
Lemma share_unmask r v abc : unmask r v (s_share r abc v) = abc.
Proof. destruct abc as [[a b] c]. unfold s_share, unmask. cbn [fst snd nth]. f_equal; [f_equal|]; ring. Qed.

(** The view of Aggregator 0 ... *)
Theorem sketch_private0 ctx ap k k' n v0 v1 v1' (r : list F) abc0 AB0 :
  honest_values k n v0 v1 -> honest_values k' n v0 v1' -> length r = n ->
  forall abc1, exists m,
    sketch_messages p inj ctx ap AB0 (other_AB k abc0 abc1 AB0) abc0 abc1 v0 v1 r = Ok m /\
    exists abc1',
      sketch_messages p inj ctx ap AB0 (other_AB k' abc0 abc1' AB0) abc0 abc1' v0 v1' r = Ok m /\
      forall abc, sketch_messages p inj ctx ap AB0 (other_AB k' abc0 abc AB0) abc0 abc v0 v1' r = Ok m -> abc = abc1'.
Proof.
  intros HV HV' Hr abc1. pose proof HV as (L0 & L1 & F0 & F1 & _). pose proof HV' as (_ & L1' & _ & F1' & _).
  rewrite messages_ok by (try easy; congruence). eexists. split; [reflexivity|].
  exists (unmask r v1' (s_share r abc1 v1)). split.
  - rewrite messages_ok by (try easy; congruence). cbv zeta.
    assert (ES : s_share r (unmask r v1' (s_share r abc1 v1)) v1' = s_share r abc1 v1) by (now apply unmask_share).
    pose proof (t_cancel k n v0 v1 r abc0 abc1 AB0 _ HV Hr (corr_split k abc0 abc1 AB0)) as C.
    pose proof (t_cancel k' n v0 v1' r abc0 (unmask r v1' (s_share r abc1 v1)) AB0 _ HV' Hr (corr_split k' abc0 _ AB0)) as C'.
    cbv zeta in C, C'. rewrite ES in *.
    set (z := zip_with fadd _ _) in *. set (t := t_share f0 AB0 z) in *.
    match goal with |- Ok [_; _; _; inj [?x]] = Ok [_; _; _; inj [?y]] => assert (ET : x = y) end.
    { apply (cancel_l _ _ t); [refine (eq_trans _ C')|refine (eq_trans _ C)]; ring. }
    now rewrite ET.
  - intros abc E. rewrite messages_ok in E by (try easy; congruence). cbv zeta in E. injection E as E _ _.
    apply inj_inj in E. rewrite <- E. symmetry. apply share_unmask.
Qed.

(** ... and of Aggregator 1. *)
Theorem sketch_private1 ctx ap k k' n v0 v0' v1 (r : list F) abc1 AB1 :
  honest_values k n v0 v1 -> honest_values k' n v0' v1 -> length r = n ->
  forall abc0, exists m,
    sketch_messages p inj ctx ap (other_AB k abc0 abc1 AB1) AB1 abc0 abc1 v0 v1 r = Ok m /\
    exists abc0',
      sketch_messages p inj ctx ap (other_AB k' abc0' abc1 AB1) AB1 abc0' abc1 v0' v1 r = Ok m /\
      forall abc, sketch_messages p inj ctx ap (other_AB k' abc abc1 AB1) AB1 abc abc1 v0' v1 r = Ok m -> abc = abc0'.
Proof.
  intros HV HV' Hr abc0. pose proof HV as (L0 & L1 & F0 & F1 & _). pose proof HV' as (L0' & _ & F0' & _).
  rewrite messages_ok by (try easy; congruence). eexists. split; [reflexivity|].
  exists (unmask r v0' (s_share r abc0 v0)). split.
  - rewrite messages_ok by (try easy; congruence). cbv zeta.
    assert (ES : s_share r (unmask r v0' (s_share r abc0 v0)) v0' = s_share r abc0 v0) by (now apply unmask_share).
    assert (CS : forall (k : F) (abc0 : F * F * F), [fadd (fst (other_AB k abc0 abc1 AB1)) (fst AB1); fadd (snd (other_AB k abc0 abc1 AB1)) (snd AB1)]
      = corr_pair [fadd (fst (fst abc0)) (fst (fst abc1)); fadd (snd (fst abc0)) (snd (fst abc1)); fadd (snd abc0) (snd abc1)] k).
    { clear. intros k abc0. rewrite <- (corr_split k abc0 abc1 AB1). f_equal; [|f_equal]; ring. }
    pose proof (t_cancel k n v0 v1 r abc0 abc1 _ AB1 HV Hr (CS k abc0)) as C.
    pose proof (t_cancel k' n v0' v1 r (unmask r v0' (s_share r abc0 v0)) abc1 _ AB1 HV' Hr (CS k' _)) as C'.
    cbv zeta in C, C'. rewrite ES in *.
    set (z := zip_with fadd _ _) in *. set (t := t_share f1 AB1 z) in *.
    match goal with |- Ok [_; _; inj [?x]; _] = Ok [_; _; inj [?y]; _] => assert (ET : x = y) end.
    { exact (cancel_l _ _ _ C' C). }
    now rewrite ET.
  - intros abc E. rewrite messages_ok in E by (try easy; congruence). cbv zeta in E. injection E as E _ _.
    apply inj_inj in E. rewrite <- E. symmetry. apply share_unmask.
Qed.
End S.
