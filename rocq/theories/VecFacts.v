(** Component-wise sums of vectors; additive secret sharing. *)
From Verif Require Import Base Common Field Poly Flp Spec BaseFacts CommonFacts FieldFacts.
Open Scope nat_scope.

Section Vec.
Context {P : FieldClass}.
Notation F := (F P).
Add Ring FringV : (@F_ring P).

Lemma vsum_length n (l : list (list F)) : length (vsum n l) = n.
Proof. unfold vsum. now rewrite map_length, seq_length. Qed.

Lemma nth_vsum n (l : list (list F)) i : i < n ->
  nth i (vsum n l) f0 = fsuml (map (fun v => nth i v f0) l).
Proof.
  intros H. unfold vsum. rewrite (nth_map' _ _ _ 0) by now rewrite seq_length.
  now rewrite seq_nth.
Qed.

Lemma zip_length_eq (f : F -> F -> F) (a b : list F) n :
  length a = n -> length b = n -> length (zip_with f a b) = n.
Proof. intros. rewrite zip_with_length. lia. Qed.

Lemma vec_eq n (a b : list F) : length a = n -> length b = n ->
  (forall i, i < n -> nth i a f0 = nth i b f0) -> a = b.
Proof. intros. apply (nth_ext' f0); [congruence |]. intros. apply H1. lia. Qed.

Lemma vsum_nil n : vsum n [] = repeat (f0 : F) n.
Proof.
  apply (vec_eq n); [apply vsum_length | apply repeat_length |].
  intros i Hi. rewrite nth_vsum by easy. rewrite nth_repeat'. now destruct (i <? n).
Qed.

Lemma vsum_cons n (v : list F) l : length v = n ->
  vsum n (v :: l) = zip_with fadd v (vsum n l).
Proof.
  intros Hv. apply (vec_eq n); [apply vsum_length | apply zip_length_eq; [easy | apply vsum_length] |].
  intros i Hi. rewrite nth_vsum by easy.
  rewrite (nth_zip_with _ _ _ _ f0 f0) by (rewrite ?vsum_length; lia).
  now rewrite nth_vsum.
Qed.

Lemma vsum_app n (a b : list (list F)) :
  vsum n (a ++ b) = zip_with fadd (vsum n a) (vsum n b).
Proof.
  apply (vec_eq n); [apply vsum_length | apply zip_length_eq; apply vsum_length |].
  intros i Hi. rewrite nth_vsum by easy.
  rewrite (nth_zip_with _ _ _ _ f0 f0) by (rewrite ?vsum_length; lia).
  rewrite !nth_vsum by easy. rewrite map_app. apply fsuml_app.
Qed.

Lemma vsum_one n (v : list F) : length v = n -> vsum n [v] = v.
Proof.
  intros H. rewrite vsum_cons, vsum_nil by easy. now apply zip_fadd_0_r; rewrite H.
Qed.

Lemma zip_fsub_fsub (a b c : list F) :
  zip_with fsub (zip_with fsub a b) c = zip_with fsub a (zip_with fadd b c).
Proof.
  revert b c; induction a as [|x a IH]; intros [|y b] [|z c]; cbn; try easy.
  rewrite IH. f_equal. ring.
Qed.

Lemma zip_fsub_0 (a : list F) n : length a <= n -> zip_with fsub a (repeat f0 n) = a.
Proof.
  revert n; induction a as [|x a IH]; intros [|n] H; cbn in *; try lia; try easy.
  rewrite IH by lia. f_equal. ring.
Qed.

Lemma fold_vec_sub n (rands : list (list F)) vec :
  length vec = n -> Forall (fun r => length r = n) rands ->
  foldM vec_sub rands vec = Ok (zip_with fsub vec (vsum n rands)).
Proof.
  revert vec; induction rands as [|r rs IH]; intros vec Hv Hr; cbn.
  - rewrite vsum_nil, zip_fsub_0; [easy | lia].
  - inversion Hr; subst. rewrite vec_sub_ok by congruence. cbn.
    rewrite IH; [|apply zip_length_eq; congruence|easy].
    rewrite vsum_cons by easy. now rewrite zip_fsub_fsub.
Qed.

Lemma fold_vec_add n (l : list (list F)) acc :
  length acc = n -> Forall (fun r => length r = n) l ->
  foldM vec_add l acc = Ok (zip_with fadd acc (vsum n l)).
Proof.
  revert acc; induction l as [|r rs IH]; intros acc Hv Hr; cbn.
  - rewrite vsum_nil, zip_fadd_0_r; [easy | lia].
  - inversion Hr; subst. rewrite vec_add_ok by congruence. cbn.
    rewrite IH; [|apply zip_length_eq; congruence|easy].
    rewrite vsum_cons by easy. now rewrite zip_fadd_assoc.
Qed.

Lemma fold_vec_add_0 n (l : list (list F)) :
  Forall (fun r => length r = n) l -> foldM vec_add l (fzeros n) = Ok (vsum n l).
Proof.
  intros H. rewrite (fold_vec_add n); [|apply repeat_length|easy].
  unfold fzeros. rewrite zip_fadd_0_l; [easy | now rewrite vsum_length].
Qed.

(** The last share completes the sum. *)
Lemma share_ok vec (rands : list (list F)) :
  Forall (fun r => length r = length vec) rands ->
  additive_secret_share vec rands
  = Ok (rands ++ [zip_with fsub vec (vsum (length vec) rands)]).
Proof.
  intros H. unfold additive_secret_share. now rewrite (fold_vec_sub (length vec)).
Qed.

Lemma vsum_share vec (rands : list (list F)) :
  vsum (length vec) (rands ++ [zip_with fsub vec (vsum (length vec) rands)]) = vec.
Proof.
  rewrite vsum_app, vsum_one by (apply zip_length_eq; [easy | apply vsum_length]).
  rewrite zip_fadd_comm. apply zip_fsub_fadd. now rewrite vsum_length.
Qed.

Lemma share_sum_unique n vec (a b : list F) (l : list (list F)) :
  length a = n -> length b = n ->
  vsum n (l ++ [a]) = vec -> vsum n (l ++ [b]) = vec -> a = b.
Proof.
  intros Ha Hb H1 H2. rewrite vsum_app, vsum_one in H1, H2 by easy.
  rewrite <- H2 in H1. apply (vec_eq n); try easy. intros i Hi.
  apply (f_equal (fun l => nth i l f0)) in H1.
  rewrite !(nth_zip_with _ _ _ _ f0 f0) in H1 by (rewrite ?vsum_length; lia).
  now apply fadd_cancel_l in H1.
Qed.

Lemma share_iff vec (rands : list (list F)) s :
  Forall (fun r => length r = length vec) rands ->
  additive_secret_share vec rands = Ok s <->
  exists l, s = rands ++ [l] /\ length l = length vec /\ vsum (length vec) s = vec.
Proof.
  intros H. rewrite share_ok by easy. split.
  - intros E. injection E as <-. eexists; split; [reflexivity|]. split.
    + apply zip_length_eq; [easy | apply vsum_length].
    + apply vsum_share.
  - intros (l & -> & Hl & Hs). do 3 f_equal.
    eapply share_sum_unique; [| exact Hl | apply vsum_share | exact Hs].
    apply zip_length_eq; [easy | apply vsum_length].
Qed.

Lemma vsum_insert n j (l : list (list F)) v :
  vsum n (firstn j l ++ v :: skipn j l) = vsum n (l ++ [v]).
Proof.
  unfold vsum. apply map_ext. intros i.
  rewrite !map_app, !fsuml_app. cbn [map fsuml fold_right].
  rewrite <- (firstn_skipn j l) at 3. rewrite map_app, fsuml_app.
  change (fold_right fadd f0 (map (fun v => nth i v f0) (skipn j l)))
    with (fsuml (map (fun v => nth i v f0) (skipn j l))). ring.
Qed.

(** Any num_shares - 1 shares are consistent with every secret, through exactly
    one choice of the randomness. *)
Lemma share_hiding vec (others : list (list F)) j :
  Forall (fun r => length r = length vec) others -> j <= length others ->
  exists rands, Forall (fun r => length r = length vec) rands /\
    length rands = length others /\
    (exists s, additive_secret_share vec rands = Ok s /\ others = firstn j s ++ skipn (S j) s) /\
    forall rands', Forall (fun r => length r = length vec) rands' ->
      length rands' = length others ->
      (exists s, additive_secret_share vec rands' = Ok s /\ others = firstn j s ++ skipn (S j) s) ->
      rands' = rands.
Proof.
  intros Ho Hj.
  set (x := zip_with fsub vec (vsum (length vec) others)).
  assert (Hx : length x = length vec) by (apply zip_length_eq; [easy | apply vsum_length]).
  set (s := firstn j others ++ x :: skipn j others).
  assert (Hs : vsum (length vec) s = vec) by (unfold s; rewrite vsum_insert; apply vsum_share).
  assert (Hall : Forall (fun r => length r = length vec) s).
  { unfold s. apply Forall_app; split; [|constructor; [easy|]].
    - rewrite <- (firstn_skipn j others) in Ho. now apply Forall_app in Ho.
    - rewrite <- (firstn_skipn j others) in Ho. now apply Forall_app in Ho. }
  assert (Hlen : length s = S (length others)).
  { unfold s. rewrite app_length. cbn [length]. rewrite firstn_length, skipn_length. lia. }
  assert (Hne : s <> []) by (intros E; rewrite E in Hlen; discriminate).
  pose proof (app_removelast_last [] Hne) as Esplit.
  assert (Hrl : length (removelast s) = length others).
  { rewrite Esplit, app_length in Hlen. cbn in Hlen. lia. }
  exists (removelast s).
  assert (Hall' := Hall). rewrite Esplit in Hall'. apply Forall_app in Hall' as [Hr Hl].
  inversion Hl as [|? ? Hlast _]; subst.
  split; [easy|]. split; [easy|]. split.
  - exists s. split.
    + apply share_iff; [easy|]. exists (last s []). now split.
    + unfold s. rewrite firstn_app_exact by (rewrite firstn_length; lia).
      replace (S j) with (length (firstn j others) + 1) by (rewrite firstn_length; lia).
      rewrite skipn_app. rewrite skipn_all2 by lia.
      replace (length (firstn j others) + 1 - length (firstn j others)) with 1 by lia.
      cbn. now rewrite firstn_skipn.
  - intros rands' Hr' Hlr' (s' & Es' & Eo).
    apply share_iff in Es' as (l' & E' & Hl' & Hs'); [|easy].
    assert (Hlen' : length s' = S (length others)) by (rewrite E', app_length; cbn; lia).
    assert (Hsplit : s' = firstn j others ++ nth j s' [] :: skipn j others).
    { rewrite Eo. rewrite firstn_app_exact by (rewrite firstn_length; lia).
      rewrite skipn_app_exact by (rewrite firstn_length; lia).
      clear -Hj Hlen'. assert (j < length s') by lia. clear Hj Hlen'.
      revert j H; induction s' as [|a s' IH]; intros [|j] H; cbn in *; try lia; try easy.
      f_equal. apply IH. lia. }
    assert (Hall' : Forall (fun r => length r = length vec) s').
    { rewrite E'. apply Forall_app; split; [easy | now constructor]. }
    assert (nth j s' [] = x).
    { eapply share_sum_unique with (l := others);
        [ | exact Hx | | apply vsum_share ].
      - rewrite Forall_forall in Hall'. apply Hall'. apply nth_In. lia.
      - rewrite <- (vsum_insert _ j). rewrite <- Hsplit. exact Hs'. }
    rewrite H in Hsplit. fold s in Hsplit.
    rewrite <- Hsplit, E'. now rewrite removelast_last.
Qed.

End Vec.
