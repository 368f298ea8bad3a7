(** Polynomials over a field class, as coefficient lists (lowest degree first):
    evaluation, the root bound, products; and powers with [nat] exponents. *)
From Verif Require Export FieldFacts.
Open Scope Z_scope.

Section PolyRing.
Context {P : FieldClass}.
Notation F := (F P).
Implicit Types (x y : F) (c d : list F).
Add Ring FringP : (@F_ring P).

Lemma npow_0 x : npow x 0 = f1. Proof. reflexivity. Qed.
Lemma npow_1 x : npow x 1 = x. Proof. reflexivity. Qed.
Lemma npow_S x n : npow x (S n) = fmul x (npow x n).
Proof. apply fpow_nat_S. Qed.
Lemma npow_add x n m : npow x (n + m) = fmul (npow x n) (npow x m).
Proof. unfold npow. rewrite Nat2N.inj_add. apply fpow_add. Qed.
Lemma npow_mul x n m : npow x (n * m) = npow (npow x n) m.
Proof. unfold npow. rewrite Nat2N.inj_mul. apply fpow_mul. Qed.
Lemma npow_mul' x n m : npow x (n * m) = npow (npow x m) n.
Proof. rewrite Nat.mul_comm. apply npow_mul. Qed.
Lemma npow_mul_base x y n : npow (fmul x y) n = fmul (npow x n) (npow y n).
Proof. apply fpow_mul_base. Qed.
Lemma npow_1_l n : npow f1 n = f1 :> F.
Proof. apply fpow_1_l. Qed.
Lemma npow_comm x n m : npow (npow x n) m = npow (npow x m) n.
Proof. now rewrite <- !npow_mul, Nat.mul_comm. Qed.

Lemma allzero_nth c : allzero c <-> forall i, nth i c f0 = f0.
Proof.
  unfold allzero. split.
  - intros H. induction H; intros [|i]; simpl; auto.
  - intros H. induction c; constructor.
    + apply (H 0%nat).
    + apply IHc. intros i. apply (H (S i)).
Qed.
Lemma allzero_repeat n : allzero (repeat (f0 : F) n).
Proof. induction n; constructor; auto. Qed.
Lemma allzero_dec c : {allzero c} + {~ allzero c}.
Proof. apply Forall_dec. intros. apply feq_dec. Qed.
Lemma peval_allzero c x : allzero c -> peval c x = f0.
Proof. induction 1; simpl; auto. rewrite H, IHForall. ring. Qed.
Lemma peval_fsum c x : peval c x = fsum (length c) (fun i => fmul (nth i c f0) (npow x i)).
Proof.
  induction c; [reflexivity|]. cbn [peval length]. rewrite fsum_S_l. cbn [nth].
  rewrite IHc, npow_0, <- fsum_scale. f_equal; [ring|].
  apply fsum_ext. intros. rewrite npow_S. ring.
Qed.
Lemma peval_fsum_ge c x n : (length c <= n)%nat ->
  peval c x = fsum n (fun i => fmul (nth i c f0) (npow x i)).
Proof.
  intros H. rewrite peval_fsum. replace n with (length c + (n - length c))%nat by lia.
  rewrite fsum_app. rewrite (fsum_zero (n - length c)).
  - ring.
  - intros. rewrite nth_overflow by lia. ring.
Qed.
Lemma peval_app c d x : peval (c ++ d) x = fadd (peval c x) (fmul (npow x (length c)) (peval d x)).
Proof.
  induction c; cbn [app peval length].
  - rewrite npow_0. ring.
  - rewrite IHc, npow_S. ring.
Qed.
Lemma peval_repeat0 n x : peval (repeat f0 n) x = f0.
Proof. apply peval_allzero, allzero_repeat. Qed.
Lemma peval_map_scale c k x : peval (map (fmul k) c) x = fmul k (peval c x).
Proof. induction c; simpl. - ring. - rewrite IHc. ring. Qed.
Lemma peval_zip_add c d x : length c = length d ->
  peval (zip_with fadd c d) x = fadd (peval c x) (peval d x).
Proof. revert d; induction c; intros [|]; simpl; try discriminate. - intros; ring.
  - intros [= H]. rewrite IHc by auto. ring. Qed.
Lemma peval_zip_sub c d x : length c = length d ->
  peval (zip_with fsub c d) x = fsub (peval c x) (peval d x).
Proof. revert d; induction c; intros [|]; simpl; try discriminate. - intros; ring.
  - intros [= H]. rewrite IHc by auto. ring. Qed.
Lemma peval_map_seq n (f : nat -> F) x :
  peval (map f (seq 0 n)) x = fsum n (fun i => fmul (f i) (npow x i)).
Proof.
  rewrite peval_fsum, map_length, seq_length. apply fsum_ext. intros i Hi.
  rewrite (nth_map' f _ _ 0%nat) by now rewrite seq_length. now rewrite seq_nth.
Qed.

(** Sum of two coefficient lists of any lengths. *)
Fixpoint padd c d : list F :=
  match c, d with
  | [], _ => d
  | _, [] => c
  | a :: c', b :: d' => fadd a b :: padd c' d'
  end.
Lemma peval_padd c d x : peval (padd c d) x = fadd (peval c x) (peval d x).
Proof. revert d; induction c; intros [|]; simpl; try ring. rewrite IHc. ring. Qed.
Lemma padd_length c d : length (padd c d) = Nat.max (length c) (length d).
Proof. revert d; induction c; intros [|]; simpl; auto. Qed.

(** Product. *)
Fixpoint pmul c d : list F :=
  match c with
  | [] => []
  | a :: c' => padd (map (fmul a) d) (f0 :: pmul c' d)
  end.
Lemma peval_pmul c d x : peval (pmul c d) x = fmul (peval c x) (peval d x).
Proof.
  induction c; cbn [pmul peval]; [ring|].
  rewrite peval_padd, peval_map_scale. cbn [peval]. rewrite IHc. ring.
Qed.
Lemma pmul_length c d : (length (pmul c d) <= length c + length d)%nat.
Proof.
  induction c; cbn [pmul]; [simpl; lia|].
  rewrite padd_length, map_length. simpl. lia.
Qed.
Lemma pmul_length_strong c d : (0 < length c)%nat -> (0 < length d)%nat ->
  length (pmul c d) = (length c + length d - 1)%nat.
Proof.
  intros Hc Hd. induction c as [|a c IH]; [simpl in Hc; lia|].
  cbn [pmul]. rewrite padd_length, map_length. cbn [length].
  destruct c as [|b c].
  - simpl. lia.
  - rewrite IH by (simpl; lia). simpl. lia.
Qed.

(** Synthetic division by [X - r]. *)
Fixpoint sdiv r c : list F :=
  match c with
  | [] => []
  | _ :: c' => match c' with [] => [] | _ => peval c' r :: sdiv r c' end
  end.
Lemma sdiv_length r c : length (sdiv r c) = (length c - 1)%nat.
Proof. induction c as [|a [|b c] IH]; auto. cbn [sdiv length] in *. rewrite IH. lia. Qed.
Lemma sdiv_spec r c x : peval c x = fadd (fmul (fsub x r) (peval (sdiv r c) x)) (peval c r).
Proof.
  induction c as [|a [|b c] IH].
  - simpl. ring.
  - simpl. ring.
  - remember (b :: c) as c' eqn:E. cbn [peval].
    replace (sdiv r (a :: c')) with (peval c' r :: sdiv r c') by now subst.
    rewrite IH at 1. cbn [peval]. ring.
Qed.
Lemma sdiv_allzero r c : allzero (sdiv r c) -> peval c r = f0 -> allzero c.
Proof.
  induction c as [|a [|b c] IH].
  - constructor.
  - intros _ H. simpl in H. constructor; [|constructor]. rewrite <- H. ring.
  - remember (b :: c) as c' eqn:E.
    replace (sdiv r (a :: c')) with (peval c' r :: sdiv r c') by now subst.
    intros H Hr. inversion H as [|? ? H1 H2]; subst x l. cbn [peval] in Hr.
    rewrite H1 in Hr. constructor; [rewrite <- Hr; ring|]. now apply IH.
Qed.
End PolyRing.

Section PolyField.
Context {P : FieldClass} (Hp : prime (MODULUS P)).
Notation F := (F P).
Implicit Types (x y : F) (c d : list F).
Add Ring FringP2 : (@F_ring P).

(** A polynomial with at most [n] coefficients and [n] distinct roots is zero. *)
Lemma poly_roots_zero pts : NoDup pts -> forall c, (length c <= length pts)%nat ->
  (forall x, In x pts -> peval c x = f0) -> allzero c.
Proof.
  induction 1 as [|r pts Hr Hnd IH]; intros c L H.
  - destruct c; [constructor|simpl in L; lia].
  - apply (sdiv_allzero r).
    + apply IH.
      * rewrite sdiv_length. simpl in L. lia.
      * intros x Hx. assert (Hxr : fsub x r <> f0).
        { intros E. apply fsub_eq_0 in E. subst. contradiction. }
        pose proof (sdiv_spec r c x) as E. rewrite (H x), (H r) in E by (simpl; auto).
        assert (fmul (fsub x r) (peval (sdiv r c) x) = f0) as E' by (rewrite E; ring).
        apply (fmul_0 Hp) in E' as [|]; auto. contradiction.
    + apply H. simpl; auto.
Qed.

(** A non-zero polynomial with [n] coefficients has at most [n-1] roots. *)
Lemma poly_roots_bound c pts : ~ allzero c -> NoDup pts ->
  (forall x, In x pts -> peval c x = f0) -> (length pts < length c)%nat.
Proof.
  intros Hc Hnd H. destruct (Nat.lt_ge_cases (length pts) (length c)) as [|L]; auto.
  exfalso. apply Hc. eapply poly_roots_zero; eauto.
Qed.

(** Two polynomials of length <= n agreeing on n distinct points are equal as functions. *)
Lemma poly_agree c d pts n : NoDup pts -> length pts = n ->
  (length c <= n)%nat -> (length d <= n)%nat ->
  (forall x, In x pts -> peval c x = peval d x) -> forall x, peval c x = peval d x.
Proof.
  intros Hnd Hl Lc Ld H x.
  set (pad := fun e : list F => e ++ repeat f0 (n - length e)).
  assert (Hpe : forall e y, peval (pad e) y = peval e y).
  { intros. unfold pad. rewrite peval_app, peval_repeat0. ring. }
  assert (Lp : forall e, (length e <= n)%nat -> length (pad e) = n).
  { intros. unfold pad. rewrite app_length, repeat_length. lia. }
  assert (Z : allzero (zip_with fsub (pad c) (pad d))).
  { apply (poly_roots_zero pts); auto.
    - rewrite zip_with_length, !Lp; auto. lia.
    - intros y Hy. rewrite peval_zip_sub by (rewrite !Lp; auto). rewrite !Hpe, H by auto. ring. }
  pose proof (peval_allzero _ x Z) as E.
  rewrite peval_zip_sub, !Hpe in E by (rewrite !Lp; auto). now apply fsub_eq_0 in E.
Qed.

Lemma poly_agree_coeffs c d pts : NoDup pts -> length c = length d ->
  (length c <= length pts)%nat ->
  (forall x, In x pts -> peval c x = peval d x) -> c = d.
Proof.
  intros Hnd L Hl H.
  assert (Z : allzero (zip_with fsub c d)).
  { apply (poly_roots_zero pts); auto.
    - rewrite zip_with_length. lia.
    - intros x Hx. rewrite peval_zip_sub, H by auto. ring. }
  rewrite allzero_nth in Z. apply (nth_ext' f0); auto.
  intros i Hi. specialize (Z i).
  rewrite (nth_zip_with fsub c d i f0 f0) in Z by lia. now apply fsub_eq_0 in Z.
Qed.
End PolyField.
