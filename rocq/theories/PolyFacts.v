(** Correctness of the monomial-basis polynomial functions of Poly.v. *)
From Verif Require Export Poly PolyAlg.
Open Scope nat_scope.

(** ** Products over lists *)
Section Products.
Context {P : FieldClass}.
Notation F := (F P).
Add Ring FringPF : (@F_ring P).

Definition lprod (l : list F) : F := fold_right fmul f1 l.
Lemma lprod_app l r : lprod (l ++ r) = fmul (lprod l) (lprod r).
Proof. induction l; simpl. - ring. - rewrite IHl. ring. Qed.
Lemma fprod_lprod (l : list F) : fprod l = lprod l.
Proof.
  unfold fprod. assert (G : forall a, fold_left fmul l a = fmul a (lprod l)).
  { induction l; intros b; simpl. - ring. - rewrite IHl. ring. }
  rewrite G. ring.
Qed.
Lemma lprod_neq_0 (Hp : prime (MODULUS P)) l : (forall x, In x l -> x <> f0) -> lprod l <> f0.
Proof.
  induction l; simpl; intros H.
  - apply f1_neq_f0; auto.
  - apply fmul_neq_0; auto.
Qed.
Lemma lprod_zero l : In f0 l -> lprod l = f0.
Proof. induction l; simpl; [tauto|]. intros [->|H]; [ring|]. rewrite IHl by auto. ring. Qed.

(** indices below [n] other than [i] *)
Definition others (n i : nat) : list nat := filter (fun j => negb (i =? j)) (seq 0 n).
Lemma in_others n i j : In j (others n i) <-> j < n /\ j <> i.
Proof.
  unfold others. rewrite filter_In, in_seq.
  destruct (Nat.eqb_spec i j); simpl; intuition (try lia; try discriminate).
Qed.
Lemma others_S n i : others (S n) i = others n i ++ (if i =? n then [] else [n]).
Proof.
  unfold others. rewrite seq_S, filter_app. simpl. f_equal. now destruct (i =? n).
Qed.
Lemma filter_all {A} (f : A -> bool) l : (forall x, In x l -> f x = true) -> filter f l = l.
Proof. induction l; simpl; intros H; auto. rewrite H by auto. f_equal. auto. Qed.
Lemma others_ge n i : n <= i -> others n i = seq 0 n.
Proof.
  intros H. unfold others. apply filter_all.
  intros j Hj. apply in_seq in Hj. destruct (Nat.eqb_spec i j); auto; lia.
Qed.
Lemma others_length n i : i < n -> length (others n i) = n - 1.
Proof.
  induction n; [lia|]. intros H. rewrite others_S, app_length.
  destruct (Nat.eqb_spec i n) as [->|Hn].
  - rewrite others_ge, seq_length by lia. simpl. lia.
  - rewrite IHn by lia. simpl. lia.
Qed.
Lemma lprod_others n i (f : nat -> F) : i < n ->
  lprod (map f (seq 0 n)) = fmul (f i) (lprod (map f (others n i))).
Proof.
  induction n; [lia|]. intros H.
  rewrite seq_S, map_app, lprod_app, others_S, map_app, lprod_app. simpl.
  destruct (Nat.eqb_spec i n) as [->|Hn].
  - rewrite others_ge by lia. simpl. ring.
  - rewrite IHn by lia. simpl. ring.
Qed.
Lemma NoDup_others n i : NoDup (others n i).
Proof. apply NoDup_filter, seq_NoDup. Qed.
End Products.

(** ** Monomial-basis functions *)
Section Mono.
Context {P : FieldClass}.
Notation F := (F P).
Implicit Types (c d p q : list F) (x : F).
Add Ring FringPF2 : (@F_ring P).

(** Normal form: no leading zero. *)
Definition stripped (p : list F) : Prop := p = [] \/ last p f0 <> f0.

Lemma poly_strip_loop_spec p i : i <= length p ->
  (exists z, firstn i p = poly_strip_loop i p ++ repeat f0 z) /\ stripped (poly_strip_loop i p).
Proof.
  induction i; intros H; cbn [poly_strip_loop].
  - split; [exists 0; reflexivity | now left].
  - destruct (nth_error p i) eqn:E.
    2: { apply nth_error_None in E. lia. }
    assert (Hf : firstn (S i) p = firstn i p ++ [f]).
    { apply nth_error_split in E as (l1 & l2 & -> & <-).
      rewrite (firstn_app_exact l1 (f :: l2) (length l1)) by auto.
      rewrite firstn_app. replace (S (length l1) - length l1) with 1 by lia.
      rewrite (firstn_all2 (n := S (length l1)) l1) by (apply le_S, le_n). reflexivity. }
    destruct (feqb f f0) eqn:Ef; simpl negb; cbv iota.
    + apply feqb_eq in Ef. subst. destruct IHi as [(z & Hz) Hs]; [lia|]. split; auto.
      exists (z + 1). rewrite repeat_app, app_assoc, <- Hz, Hf. reflexivity.
    + apply feqb_neq in Ef. split.
      * exists 0. now rewrite app_nil_r.
      * right. rewrite Hf, last_last. auto.
Qed.

Lemma poly_strip_spec p :
  (exists z, p = poly_strip p ++ repeat f0 z) /\ stripped (poly_strip p).
Proof.
  destruct (poly_strip_loop_spec p (length p) (le_n _)) as [(z & Hz) Hs].
  rewrite firstn_all in Hz. eauto.
Qed.

Lemma peval_strip p x : peval (poly_strip p) x = peval p x.
Proof.
  destruct (poly_strip_spec p) as [(z & Hz) _]. rewrite Hz at 2.
  rewrite peval_app, peval_repeat0. ring.
Qed.
Lemma strip_length p : length (poly_strip p) <= length p.
Proof.
  destruct (poly_strip_spec p) as [(z & Hz) _]. rewrite Hz at 2. rewrite app_length. lia.
Qed.
Lemma stripped_strip p : stripped (poly_strip p).
Proof. apply poly_strip_spec. Qed.
Lemma stripped_allzero p : stripped p -> allzero p -> p = [].
Proof.
  intros [->|H] Hz; auto. destruct p as [|a p]; auto. exfalso. apply H.
  unfold allzero in Hz. rewrite Forall_forall in Hz. apply Hz.
  destruct (exists_last (l := a :: p)) as (l & b & E); [discriminate|].
  rewrite E, last_last. apply in_or_app. right. now left.
Qed.
Lemma strip_nil p : poly_strip p = [] <-> allzero p.
Proof.
  destruct (poly_strip_spec p) as [(z & Hz) Hs]. split.
  - intros E. rewrite E in Hz. rewrite Hz. apply allzero_repeat.
  - intros Ha. apply stripped_allzero; auto. rewrite Hz in Ha.
    unfold allzero in *. apply Forall_app in Ha. tauto.
Qed.

Lemma peval_upd c i v x : i < length c ->
  peval (upd c i v) x = fadd (peval c x) (fmul (fsub v (nth i c f0)) (npow x i)).
Proof.
  revert i. induction c as [|a c IH]; intros [|i] H; simpl length in H; try lia; cbn [upd peval nth].
  - rewrite npow_0. ring.
  - rewrite IH by lia. rewrite npow_S. ring.
Qed.

Lemma nth_enumerate {A} (l : list A) i (d : A) : i < length l -> nth i (enumerate l) (0, d) = (i, nth i l d).
Proof.
  intros H. unfold enumerate. rewrite combine_nth by apply seq_length. now rewrite seq_nth.
Qed.
Lemma enumerate_length {A} (l : list A) : length (enumerate l) = length l.
Proof. unfold enumerate. rewrite combine_length, seq_length. lia. Qed.

Lemma poly_mul_spec p q :
  exists r, poly_mul p q = Ok r /\ stripped r /\ length r <= length p + length q - 1 /\
    forall x, peval r x = fmul (peval p x) (peval q x).
Proof.
  unfold poly_mul.
  set (r0 := repeat f0 (length p + length q - 1)).
  destruct (for_range_inv (fun I r => length r = length r0 /\
      forall x, peval r x = fmul (fsum I (fun i => fmul (nth i p f0) (npow x i))) (peval q x))
      0 (length p) r0
      (fun r i => for_range 0 (length q) r (fun r j =>
        let* pi := get p i in let* qj := get q j in
        let* old := get r (i + j) in set r (i + j) (fadd old (fmul pi qj)))))
    as (r & -> & Hr & He).
  - lia.
  - split; auto. intros x. unfold r0. rewrite peval_repeat0. simpl. ring.
  - intros i r Hi [Hr He].
    destruct (for_range_inv (fun J r' => length r' = length r0 /\
        forall x, peval r' x = fadd (peval r x)
           (fmul (fmul (nth i p f0) (npow x i)) (fsum J (fun j => fmul (nth j q f0) (npow x j)))))
        0 (length q) r
        (fun r j => let* pi := get p i in let* qj := get q j in
          let* old := get r (i + j) in set r (i + j) (fadd old (fmul pi qj))))
      as (r' & E & Hr' & He').
    + lia.
    + split; auto. intros. simpl. ring.
    + intros j r' Hj [Hr' He'].
      assert (i + j < length r'). { rewrite Hr'. unfold r0. rewrite repeat_length. lia. }
      rewrite (get_nth p i f0), (get_nth q j f0), (get_nth r' (i + j) f0) by lia. cbn [bind].
      rewrite set_lt by auto. eexists. split; [reflexivity|]. split.
      * now rewrite length_upd.
      * intros x. rewrite peval_upd by auto. rewrite He', npow_add. cbn [fsum]. ring.
    + exists r'. split; [exact E|]. split; auto.
      intros x. rewrite He', He. cbn [fsum]. rewrite (peval_fsum q). ring.
  - cbn [bind]. eexists. split; [reflexivity|]. split; [apply stripped_strip|]. split.
    + etransitivity; [apply strip_length|]. rewrite Hr. unfold r0. now rewrite repeat_length.
    + intros x. rewrite peval_strip, He. now rewrite (peval_fsum p).
Qed.

Lemma poly_add_spec p q :
  exists r, poly_add p q = Ok r /\ stripped r /\ length r <= Nat.max (length p) (length q) /\
    forall x, peval r x = fadd (peval p x) (peval q x).
Proof.
  unfold poly_add.
  set (n := Nat.max (length p) (length q)).
  destruct (foldM_inv (0, f0) (fun I (r : list F) => length r = n /\
      forall k, nth k r f0 = if k <? I then nth k p f0 else f0)
      (enumerate p) (fzeros n) (fun r '(i, p_i) => set r i p_i)) as (r & -> & Hr & Hn).
  - unfold fzeros. split; [now rewrite repeat_length|]. intros k. rewrite nth_repeat'.
    destruct (k <? 0) eqn:E; [apply Nat.ltb_lt in E; lia|]. now destruct (k <? n).
  - rewrite enumerate_length. intros i r Hi [Hr Hn]. rewrite nth_enumerate by auto.
    rewrite set_lt by lia. eexists. split; [reflexivity|]. rewrite length_upd. split; auto.
    intros k. rewrite nth_upd by lia. rewrite Hn.
    destruct (Nat.eqb_spec i k), (Nat.ltb_spec k (S i)), (Nat.ltb_spec k i); subst; auto; lia.
  - rewrite enumerate_length in Hn. cbn [bind].
    assert (Hp : forall x, peval r x = peval p x).
    { intros x. rewrite (peval_fsum_ge r x n), (peval_fsum_ge p x n) by lia.
      apply fsum_ext. intros i Hi. rewrite Hn. destruct (Nat.ltb_spec i (length p)); auto.
      now rewrite (nth_overflow p) by lia. }
    destruct (foldM_inv (0, f0) (fun J (r' : list F) => length r' = n /\
      forall x, peval r' x = fadd (peval p x) (fsum J (fun j => fmul (nth j q f0) (npow x j))))
      (enumerate q) r (fun r '(i, q_i) => let* old := get r i in set r i (fadd old q_i)))
      as (r' & -> & Hr' & He').
    + split; auto. intros. rewrite Hp. simpl. ring.
    + rewrite enumerate_length. intros i r' Hi [Hr' He']. rewrite nth_enumerate by auto.
      rewrite (get_nth r' i f0) by lia. cbn [bind]. rewrite set_lt by lia.
      eexists. split; [reflexivity|]. rewrite length_upd. split; auto.
      intros x. rewrite peval_upd by lia. rewrite He'. cbn [fsum]. ring.
    + rewrite enumerate_length in He'. cbn [bind]. eexists. split; [reflexivity|].
      split; [apply stripped_strip|]. split.
      * etransitivity; [apply strip_length|]. lia.
      * intros x. rewrite peval_strip, He'. now rewrite (peval_fsum q).
Qed.

Lemma get_last_snoc {A} (l : list A) a : get_last (l ++ [a]) = Ok a.
Proof.
  destruct l; simpl; auto. f_equal. apply last_last.
Qed.

Lemma horner_rev l (a x : F) :
  fold_left (fun r y => fadd (fmul r x) y) (rev l) a = fadd (peval l x) (fmul (npow x (length l)) a).
Proof.
  revert a. induction l as [|b l IH] using rev_ind; intros a.
  - simpl. rewrite npow_0. ring.
  - rewrite rev_app_distr. simpl. rewrite IH, peval_app, app_length. simpl.
    rewrite npow_add. change (npow x 1) with x. ring.
Qed.

Lemma poly_eval_spec p x : p = [] \/ ~ allzero p -> poly_eval p x = Ok (peval p x).
Proof.
  intros H. unfold poly_eval. destruct p as [|a p].
  - reflexivity.
  - destruct H as [H|H]; [discriminate|]. cbn [length Nat.eqb].
    rewrite <- strip_nil in H. rewrite <- peval_strip.
    destruct (exists_last H) as (l & b & ->).
    rewrite get_last_snoc. cbn [bind]. rewrite removelast_last, horner_rev, peval_app. simpl.
    f_equal. ring.
Qed.

Lemma poly_eval_zero p x : p <> [] -> allzero p -> poly_eval p x = Raise IndexError.
Proof.
  intros H Hz. unfold poly_eval. apply strip_nil in Hz. rewrite Hz. destruct p; [congruence|reflexivity].
Qed.

Lemma nth_padd c d i : nth i (padd c d) f0 = fadd (nth i c f0) (nth i d f0).
Proof.
  revert d i. induction c as [|a c IH]; intros [|b d] [|i]; simpl; try ring. apply IH.
Qed.
Lemma nth_scale k c i : nth i (map (fmul k) c) f0 = fmul k (nth i c f0).
Proof. revert i. induction c; intros [|i]; simpl; auto; try ring. Qed.

(** Monic polynomial with the given roots. *)
Fixpoint mon (pts : list F) : list F :=
  match pts with
  | [] => [f1]
  | r :: pts' => padd (f0 :: mon pts') (map (fmul (fneg r)) (mon pts'))
  end.
Lemma mon_length pts : length (mon pts) = S (length pts).
Proof. induction pts; auto. cbn [mon]. rewrite padd_length, map_length. simpl. rewrite IHpts. lia. Qed.
Lemma mon_monic pts : nth (length pts) (mon pts) f0 = f1.
Proof.
  induction pts; auto. cbn [mon length]. rewrite nth_padd, nth_scale. cbn [nth].
  rewrite IHpts. rewrite (nth_overflow (mon pts)) by (rewrite mon_length; lia). ring.
Qed.
Lemma peval_mon pts x : peval (mon pts) x = lprod (map (fsub x) pts).
Proof.
  induction pts; cbn [mon map lprod fold_right].
  - simpl. ring.
  - rewrite peval_padd, peval_map_scale. cbn [peval]. rewrite IHpts. unfold lprod. ring.
Qed.

(** Dropping a zero leading coefficient. *)
Lemma peval_drop_top c n x : length c <= S n -> nth n c f0 = f0 -> peval c x = peval (firstn n c) x.
Proof.
  intros L H. rewrite (peval_fsum_ge c x (S n)), (peval_fsum_ge (firstn n c) x n)
    by (auto; rewrite firstn_length; lia).
  cbn [fsum]. rewrite H. transitivity (fsum n (fun i => fmul (nth i c f0) (npow x i))); [ring|].
  apply fsum_ext. intros i Hi. rewrite nth_firstn'. now rewrite (proj2 (Nat.ltb_lt _ _) Hi).
Qed.

Context (Hp : prime (MODULUS P)).

(** Two polynomials of degree <= n with the same coefficient of degree n that
    agree on n points agree everywhere. *)
Lemma top_agree c d n pts : length c <= S n -> length d <= S n ->
  nth n c f0 = nth n d f0 -> NoDup pts -> length pts = n ->
  (forall x, In x pts -> peval c x = peval d x) -> forall x, peval c x = peval d x.
Proof.
  intros Lc Ld Ht Hnd Hl H x.
  set (e := padd c (map (fmul (fneg f1)) d)).
  assert (He : forall x, peval e x = fsub (peval c x) (peval d x)).
  { intros y. unfold e. rewrite peval_padd, peval_map_scale. ring. }
  assert (Hd : forall y, peval e y = peval (firstn n e) y).
  { intros y. apply peval_drop_top.
    - unfold e. rewrite padd_length, map_length. lia.
    - unfold e. rewrite nth_padd, nth_scale, Ht. ring. }
  apply fsub_eq_0. rewrite <- He, Hd. apply peval_allzero.
  apply (poly_roots_zero Hp pts); auto.
  - rewrite firstn_length. lia.
  - intros y Hy. rewrite <- Hd, He, H by auto. ring.
Qed.

(** ** Newton interpolation *)
Lemma dd_combine c1 c2 i (a b : F) : length c1 = i -> length c2 = i -> a <> b -> 0 < i ->
  exists c, length c = S i /\
    nth i c f0 = fmul (fsub (nth (i - 1) c1 f0) (nth (i - 1) c2 f0)) (finv (fsub a b)) /\
    forall x, peval c x = fmul (fsub (fmul (fsub x b) (peval c1 x)) (fmul (fsub x a) (peval c2 x)))
                               (finv (fsub a b)).
Proof.
  intros L1 L2 Hab Hi.
  set (t1 := padd (f0 :: c1) (map (fmul (fneg b)) c1)).
  set (t2 := padd (f0 :: c2) (map (fmul (fneg a)) c2)).
  exists (map (fmul (finv (fsub a b))) (padd t1 (map (fmul (fneg f1)) t2))). split; [|split].
  - rewrite map_length, padd_length, map_length. unfold t1, t2. rewrite !padd_length, !map_length.
    cbn [length]. lia.
  - rewrite nth_scale, nth_padd, nth_scale. unfold t1, t2. rewrite !nth_padd, !nth_scale.
    rewrite (nth_overflow c1 f0 (n := i)), (nth_overflow c2 f0 (n := i)) by lia.
    destruct i; [lia|]. cbn [nth]. replace (S i - 1) with i by lia. ring.
  - intros x. rewrite peval_map_scale, peval_padd, peval_map_scale. unfold t1, t2.
    rewrite !peval_padd, !peval_map_scale. cbn [peval]. ring.
Qed.

Lemma poly_interp_spec (xs ys : list F) : length xs = length ys -> xs <> [] -> NoDup xs ->
  exists c, poly_interp xs ys = Ok c /\ length c <= length xs /\
    forall i, i < length xs -> peval c (nth i xs f0) = nth i ys f0.
Proof.
  intros L Hne Hnd. unfold poly_interp. rewrite (proj2 (Nat.eqb_eq _ _) L).
  set (n := length xs) in *. assert (Hn : 0 < n) by (destruct xs; [congruence|unfold n; simpl; lia]).
  rewrite (get_nth ys 0 f0) by lia. cbn [bind].
  set (X i := nth i xs f0). set (Y i := nth i ys f0).
  assert (Xinj : forall i j, i < n -> j < n -> i <> j -> X i <> X j).
  { intros i j Hi Hj Hij E. apply Hij. eapply (proj1 (NoDup_nth xs f0)); eauto. }
  destruct (for_range_inv (fun i '(basis, dd, output) =>
      (length basis <= i /\ (forall x, peval basis x = fprodn (i - 1) (fun j => fsub x (X j)))) /\
      (length dd = n - (i - 1) /\
       forall k, k + i <= n -> exists c, length c = i /\ nth (i - 1) c f0 = nth k dd f0 /\
         forall j, j < i -> peval c (X (k + j)) = Y (k + j)) /\
      (length output <= i /\ forall j, j < i -> peval output (X j) = Y j))
      1 n ([f1], ys, [nth 0 ys f0]) (poly_interp_step xs)) as ([[basis dd] output] & -> & H).
  - lia.
  - split; [|split].
    + simpl. split; auto. intros. ring.
    + split; [lia|]. intros k Hk. exists [Y k]. split; auto. split; auto.
      intros j Hj. replace j with 0 by lia. rewrite Nat.add_0_r. simpl. ring.
    + split; auto. intros j Hj. replace j with 0 by lia. simpl. unfold Y. ring.
  - intros i [[basis dd] output] Hi ([Lb Hb] & [Ld Hd] & [Lo Ho]).
    unfold poly_interp_step. rewrite (get_nth xs (i - 1) f0) by (fold n; lia). cbn [bind].
    destruct (poly_mul_spec basis [fneg (nth (i - 1) xs f0); f1]) as (nb & -> & _ & Lnb & Hnb).
    cbn [bind].
    assert (Hnb' : forall x, peval nb x = fprodn i (fun j => fsub x (X j))).
    { intros x. rewrite Hnb, Hb.
      assert (Ef : forall f : nat -> F, fprodn i f = fmul (fprodn (i - 1) f) (f (i - 1))).
      { intros f. destruct i; [lia|]. cbn [fprodn]. rewrite Nat.sub_succ, Nat.sub_0_r. reflexivity. }
      rewrite Ef. fold (X (i - 1)). simpl. ring. }
    assert (Edd : foldM (fun acc k =>
        let* a := get dd k in let* b := get dd (k + 1) in
        let* xk := get xs k in let* xki := get xs (k + i) in
        Ok (acc ++ [fmul (fsub a b) (finv (fsub xk xki))])) (range 0 (length dd - 1)) [] =
      Ok (map (fun k => fmul (fsub (nth k dd f0) (nth (k + 1) dd f0))
                             (finv (fsub (X k) (X (k + i))))) (range 0 (length dd - 1)))).
    { assert (G : forall m acc, (forall k, In k m -> k + 1 < length dd) ->
        foldM (fun acc k =>
        let* a := get dd k in let* b := get dd (k + 1) in
        let* xk := get xs k in let* xki := get xs (k + i) in
        Ok (acc ++ [fmul (fsub a b) (finv (fsub xk xki))])) m acc =
        Ok (acc ++ map (fun k => fmul (fsub (nth k dd f0) (nth (k + 1) dd f0))
                             (finv (fsub (X k) (X (k + i))))) m)).
      { induction m as [|k m IH]; intros acc Hm; cbn [foldM map].
        - now rewrite app_nil_r.
        - assert (k + 1 < length dd) by (apply Hm; now left).
          rewrite (get_nth dd k f0), (get_nth dd (k + 1) f0), (get_nth xs k f0), (get_nth xs (k + i) f0)
            by (fold n; lia).
          cbn [bind]. rewrite IH by (intros; apply Hm; now right). now rewrite <- app_assoc. }
      rewrite G; [reflexivity|]. intros k Hk. apply in_range in Hk. lia. }
    rewrite Edd. clear Edd. cbn [bind].
    set (dd' := map _ (range 0 (length dd - 1))).
    assert (Ld' : length dd' = n - i). { unfold dd'. rewrite map_length, length_range. lia. }
    rewrite (get_nth dd' 0 f0) by lia. cbn [bind].
    destruct (poly_mul_spec [nth 0 dd' f0] nb) as (term & -> & _ & Lt & Ht). cbn [bind].
    destruct (poly_add_spec output term) as (out' & -> & _ & Lo' & Ho'). cbn [bind].
    assert (Hd' : forall k, k + S i <= n -> exists c, length c = S i /\ nth i c f0 = nth k dd' f0 /\
         forall j, j < S i -> peval c (X (k + j)) = Y (k + j)).
    { intros k Hk.
      destruct (Hd k) as (c1 & L1 & T1 & V1); [lia|].
      destruct (Hd (k + 1)) as (c2 & L2 & T2 & V2); [lia|].
      assert (Hne2 : X k <> X (k + i)) by (apply Xinj; lia).
      destruct (dd_combine c1 c2 i (X k) (X (k + i)) L1 L2 Hne2) as (c & Lc & Tc & Vc); [lia|].
      exists c. split; auto. split.
      - rewrite Tc, T1, T2. unfold dd'. rewrite (nth_map' _ _ _ 0) by (rewrite length_range; lia).
        rewrite nth_range by lia. reflexivity.
      - intros j Hj. rewrite Vc.
        assert (fsub (X k) (X (k + i)) <> f0) as Hnz by (intros E; now apply fsub_eq_0 in E).
        pose proof (finv_r Hp _ Hnz) as Hinv.
        destruct (Nat.eq_dec j 0) as [->|Hj0].
        + rewrite Nat.add_0_r. pose proof (V1 0 ltac:(lia)) as V. rewrite Nat.add_0_r in V. rewrite V.
          transitivity (fmul (Y k) (fmul (fsub (X k) (X (k + i))) (finv (fsub (X k) (X (k + i))))));
            [ring|]. rewrite Hinv. ring.
        + pose proof (V2 (j - 1) ltac:(lia)) as V. replace (k + 1 + (j - 1)) with (k + j) in V by lia.
          rewrite V.
          destruct (Nat.eq_dec j i) as [->|Hji].
          * transitivity (fmul (Y (k + i)) (fmul (fsub (X k) (X (k + i))) (finv (fsub (X k) (X (k + i))))));
              [ring|]. rewrite Hinv. ring.
          * rewrite V1 by lia.
            transitivity (fmul (Y (k + j)) (fmul (fsub (X k) (X (k + i))) (finv (fsub (X k) (X (k + i))))));
              [ring|]. rewrite Hinv. ring. }
    eexists. split; [reflexivity|]. cbn beta iota. replace (S i - 1) with i by lia.
    split; [|split].
    + split; [simpl in Lnb; lia|auto].
    + split; [lia|]. exact Hd'.
    + split; [simpl in Lt; simpl in Lnb; lia|].
      destruct (Hd' 0) as (c & Lc & Tc & Vc); [lia|].
      assert (Hpts : forall x, peval c x = peval out' x).
      { intros x.
        set (pts := map X (seq 0 i)).
        set (M := padd output (map (fmul (nth 0 dd' f0)) (mon pts))).
        assert (HM : forall x, peval out' x = peval M x).
        { intros y. unfold M. rewrite Ho', Ht, peval_padd, peval_map_scale, Hnb', peval_mon.
          unfold pts. rewrite map_map. cbn [peval].
          assert (G : forall m, fprodn m (fun j => fsub y (X j)) = lprod (map (fun j => fsub y (X j)) (seq 0 m))).
          { induction m; auto. rewrite seq_S, map_app, lprod_app, <- IHm. simpl. ring. }
          rewrite G. ring. }
        rewrite HM.
        assert (Lp : length pts = i) by (unfold pts; now rewrite map_length, seq_length).
        revert x. apply (top_agree c M i pts).
        - lia.
        - unfold M. rewrite padd_length, map_length, mon_length. lia.
        - unfold M. rewrite nth_padd, nth_scale, (nth_overflow output) by lia.
          assert (Em : nth i (mon pts) f0 = f1) by (rewrite <- Lp; apply mon_monic).
          rewrite Em, Tc. ring.
        - unfold pts. apply NoDup_map_inj; [|apply seq_NoDup].
          intros a b Ha Hb' E. apply in_seq in Ha, Hb'.
          destruct (Nat.eq_dec a b); auto. exfalso. apply (Xinj a b); auto; lia.
        - auto.
        - intros y Hy. unfold pts in Hy. apply in_map_iff in Hy as (j & <- & Hj). apply in_seq in Hj.
          pose proof (Vc j ltac:(lia)) as V. simpl in V. rewrite V.
          unfold M. rewrite peval_padd, peval_map_scale, peval_mon, Ho by lia.
          rewrite lprod_zero; [ring|]. unfold pts. rewrite map_map. apply in_map_iff.
          exists j. split; [ring|]. apply in_seq. lia. }
      intros j Hj. rewrite <- Hpts. apply (Vc j). lia.
  - cbn [bind]. destruct H as (_ & _ & Lo & Ho). eexists. split; [reflexivity|]. auto.
Qed.

(** ** Lagrange interpolation on arbitrary points *)
Lemma lagrange_interp (n : nat) (X : nat -> F) c x :
  (forall i j, i < n -> j < n -> X i = X j -> i = j) -> length c <= n ->
  peval c x = fsum n (fun m => fmul (peval c (X m))
    (fmul (lprod (map (fun j => fsub x (X j)) (others n m)))
          (finv (lprod (map (fun j => fsub (X m) (X j)) (others n m)))))).
Proof.
  intros Xinj Lc.
  set (T m := map (fmul (fmul (peval c (X m)) (finv (lprod (map (fun j => fsub (X m) (X j)) (others n m))))))
                  (mon (map X (others n m)))).
  set (S := fix S k := match k with O => [] | Datatypes.S k => padd (S k) (T k) end).
  assert (HS : forall k x, peval (S k) x = fsum k (fun m => fmul (peval c (X m))
    (fmul (lprod (map (fun j => fsub x (X j)) (others n m)))
          (finv (lprod (map (fun j => fsub (X m) (X j)) (others n m))))))).
  { induction k; intros y; [reflexivity|]. cbn [fsum]. change (S (Datatypes.S k)) with (padd (S k) (T k)).
    rewrite peval_padd, IHk. f_equal. unfold T. rewrite peval_map_scale, peval_mon, map_map. ring. }
  assert (LS : forall k, k <= n -> length (S k) <= n).
  { induction k; intros Hk; [simpl; lia|]. change (S (Datatypes.S k)) with (padd (S k) (T k)).
    rewrite padd_length. unfold T at 1. rewrite map_length, mon_length, map_length, others_length by lia. lia. }
  rewrite <- HS. revert x. apply (poly_agree Hp c (S n) (map X (seq 0 n)) n); auto.
  - apply NoDup_map_inj; [|apply seq_NoDup]. intros a b Ha Hb. apply in_seq in Ha, Hb. apply Xinj; lia.
  - now rewrite map_length, seq_length.
  - intros x Hx. apply in_map_iff in Hx as (r & <- & Hr). apply in_seq in Hr.
    rewrite HS. rewrite (fsum_single n r).
    + assert (lprod (map (fun j => fsub (X r) (X j)) (others n r)) <> f0) as Hnz.
      { apply lprod_neq_0; auto. intros y Hy. apply in_map_iff in Hy as (j & <- & Hj).
        apply in_others in Hj. intros E. apply fsub_eq_0 in E. apply Xinj in E; lia. }
      pose proof (finv_r Hp _ Hnz) as E. rewrite E. ring.
    + lia.
    + intros m Hm Hne. rewrite (lprod_zero (map (fun j => fsub (X r) (X j)) (others n m))); [ring|].
      apply in_map_iff. exists r. split; [ring|]. apply in_others. lia.
Qed.
End Mono.
