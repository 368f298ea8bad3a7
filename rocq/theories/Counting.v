(** Counting vectors over a field class: used to state "at most a d/|F|
    fraction of the random vectors". *)
From Verif Require Import Base Common Field Poly Spec BaseFacts CommonFacts FieldFacts PolyAlg.
Open Scope nat_scope.

Section Count.
Context {P : FieldClass}.
Notation F := (F P).
Add Ring FringC : (@F_ring P).

(** The size of the field as a natural number, and a list of all elements. *)
Definition fsize : nat := Z.to_nat (MODULUS P).
Definition felems : list F := map (fun i => fof (Z.of_nat i)) (seq 0 fsize).

Lemma felems_length : length felems = fsize.
Proof. unfold felems. now rewrite map_length, seq_length. Qed.

Lemma in_felems x : In x felems.
Proof.
  unfold felems. apply in_map_iff. exists (Z.to_nat (val x)).
  pose proof (val_range x) as H. split.
  - rewrite Z2Nat.id by lia. apply fof_val.
  - apply in_seq. unfold fsize. lia.
Qed.

Lemma NoDup_felems : NoDup felems.
Proof.
  unfold felems. apply NoDup_map_inj; [|apply seq_NoDup].
  intros a b Ha Hb E. apply in_seq in Ha, Hb. unfold fsize in *.
  apply (f_equal val) in E. rewrite !val_fof_small in E by lia. lia.
Qed.

Fixpoint fvecs (n : nat) : list (list F) :=
  match n with
  | O => [[]]
  | S m => flat_map (fun v => map (fun x => x :: v) felems) (fvecs m)
  end.

Lemma flat_map_length_const {A B} (f : A -> list B) l k :
  (forall x, In x l -> length (f x) = k) -> length (flat_map f l) = length l * k.
Proof.
  induction l as [|a l IH]; intros H; cbn [flat_map length]; [easy|].
  rewrite app_length, H by now left. rewrite IH; [lia|]. intros; apply H; now right.
Qed.

Lemma flat_map_length_le {A B} (f : A -> list B) l k :
  (forall x, In x l -> length (f x) <= k) -> length (flat_map f l) <= length l * k.
Proof.
  induction l as [|a l IH]; intros H; cbn [flat_map length]; [lia|].
  rewrite app_length. pose proof (H a (or_introl eq_refl)).
  assert (length (flat_map f l) <= length l * k) by (apply IH; intros; apply H; now right). lia.
Qed.

Lemma fvecs_length n : length (fvecs n) = fsize ^ n.
Proof.
  induction n as [|n IH]; [easy|]. cbn [fvecs].
  rewrite (flat_map_length_const _ _ fsize); [rewrite IH; cbn [Nat.pow]; lia|].
  intros. now rewrite map_length, felems_length.
Qed.

Lemma in_fvecs n v : In v (fvecs n) <-> length v = n.
Proof.
  revert v; induction n as [|n IH]; intros v; cbn [fvecs].
  - split; [intros [<-|[]]; easy | destruct v; [now left | discriminate]].
  - rewrite in_flat_map. split.
    + intros (w & Hw & Hv). apply in_map_iff in Hv as (x & <- & _).
      apply IH in Hw. cbn. lia.
    + destruct v as [|x v]; [discriminate|]. intros E. injection E as E.
      exists v. split; [now apply IH|]. apply in_map_iff. exists x. split; [easy | apply in_felems].
Qed.

Definition insert {A} (j : nat) (x : A) (w : list A) : list A := firstn j w ++ x :: skipn j w.
Definition remove {A} (j : nat) (v : list A) : list A := firstn j v ++ skipn (S j) v.

Lemma insert_remove {A} (d : A) j v : j < length v -> insert j (nth j v d) (remove j v) = v.
Proof.
  intros H. unfold insert, remove.
  rewrite firstn_app_exact by (rewrite firstn_length; lia).
  rewrite skipn_app_exact by (rewrite firstn_length; lia).
  revert j H; induction v as [|a s' IH]; intros [|j] H; cbn in *; try lia; try easy.
  f_equal. apply IH. lia.
Qed.

Lemma remove_length {A} j (v : list A) : j < length v -> length (remove j v) = length v - 1.
Proof. intros H. unfold remove. rewrite app_length, firstn_length, skipn_length. lia. Qed.

Lemma insert_upd {A} (d : A) j (x : A) (v : list A) : j < length v -> insert j x (remove j v) = upd v j x.
Proof.
  intros H. unfold insert, remove.
  rewrite firstn_app_exact by (rewrite firstn_length; lia).
  rewrite skipn_app_exact by (rewrite firstn_length; lia).
  revert j H; induction v as [|a s' IH]; intros [|j] H; cbn in *; try lia; try easy.
  f_equal. apply IH. lia.
Qed.

(** If coordinate [j] of every vector in [Q] lies in a set of at most [d]
    values that depends on the other coordinates only, then [Q] is small. *)
Lemma count_coord n d j (Q : list (list F)) (bad : list F -> list F) :
  j < n -> NoDup Q ->
  (forall v, length v = n -> length (bad v) <= d) ->
  (forall v x, length v = n -> bad (upd v j x) = bad v) ->
  (forall v, In v Q -> length v = n /\ In (nth j v f0) (bad v)) ->
  length Q <= d * fsize ^ (n - 1).
Proof.
  intros Hj HN Hd Hinv HQ.
  set (all := flat_map (fun w => map (fun x => insert j x w) (bad (insert j f0 w))) (fvecs (n - 1))).
  apply Nat.le_trans with (length all).
  - apply NoDup_incl_length; [easy|]. intros v Hv. destruct (HQ v Hv) as [Hl Hin].
    unfold all. apply in_flat_map. exists (remove j v). split.
    + apply in_fvecs. rewrite remove_length; lia.
    + apply in_map_iff. exists (nth j v f0). split; [apply insert_remove; lia|].
      rewrite (insert_upd f0) by lia. now rewrite Hinv.
  - unfold all. rewrite Nat.mul_comm, <- fvecs_length. apply flat_map_length_le.
    intros w Hw. rewrite map_length. apply Hd.
    apply in_fvecs in Hw. unfold insert. rewrite app_length. cbn [length].
    rewrite firstn_length, skipn_length. lia.
Qed.

(** The roots of a polynomial in the field. *)
Definition roots_of (c : list F) : list F := filter (fun x => feqb (peval c x) f0) felems.

Lemma in_roots_of c x : In x (roots_of c) <-> peval c x = f0.
Proof.
  unfold roots_of. rewrite filter_In. rewrite feqb_eq. split; [easy|]. intros; split; [apply in_felems | easy].
Qed.

Lemma roots_of_length (Hp : prime (MODULUS P)) c d : ~ allzero c -> length c <= S d -> length (roots_of c) <= d.
Proof.
  intros Hc Hl. assert (length (roots_of c) < length c); [|lia].
  apply (poly_roots_bound Hp); [easy | |].
  - apply NoDup_filter, NoDup_felems.
  - intros x Hx. now apply in_roots_of.
Qed.

(** Version of [count_coord] for roots of polynomials, over the integers. *)
Lemma count_poly (Hp : prime (MODULUS P)) n d j (Q : list (list F)) (cf : list F -> list F) :
  j < n -> NoDup Q ->
  (forall v, length v = n -> ~ allzero (cf v) /\ length (cf v) <= S d) ->
  (forall v x, length v = n -> cf (upd v j x) = cf v) ->
  (forall v, In v Q -> length v = n /\ peval (cf v) (nth j v f0) = f0) ->
  (Z.of_nat (length Q) <= Z.of_nat d * MODULUS P ^ Z.of_nat (n - 1))%Z.
Proof.
  intros Hj HN Hd Hinv HQ.
  assert (H : length Q <= d * fsize ^ (n - 1)).
  { apply (count_coord n d j Q (fun v => roots_of (cf v))); try easy.
    - intros v Hv. apply (roots_of_length Hp); now apply Hd.
    - intros v x Hv. now rewrite Hinv.
    - intros v Hv. destruct (HQ v Hv). split; [easy|]. now apply in_roots_of. }
  apply inj_le in H. rewrite Nat2Z.inj_mul, Nat2Z.inj_pow in H.
  unfold fsize in H. rewrite Z2Nat.id in H by (pose proof (@MODULUS_pos P); lia). exact H.
Qed.

End Count.
Arguments fsize P : clear implicits.
