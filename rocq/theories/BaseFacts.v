(** Reasoning rules for the Python-level notions of Base.v. *)
From Verif Require Export Base.

Lemma bind_Ok {A B} (m : res A) (f : A -> res B) b :
  bind m f = Ok b <-> exists a, m = Ok a /\ f a = Ok b.
Proof.
  destruct m as [a|e]; simpl; split.
  - eauto.
  - intros (a' & H & H'). congruence.
  - discriminate.
  - intros (a' & H & H'). discriminate.
Qed.

Lemma bind_Raise {A B} (m : res A) (f : A -> res B) e :
  bind m f = Raise e <-> m = Raise e \/ exists a, m = Ok a /\ f a = Raise e.
Proof.
  destruct m as [a|e']; simpl; split.
  - eauto.
  - intros [H|(a' & H & H')]; congruence.
  - intros [= <-]; auto.
  - intros [H|(a' & H & H')]; congruence.
Qed.

Lemma bind_assoc {A B C} (m : res A) (f : A -> res B) (g : B -> res C) :
  bind (bind m f) g = bind m (fun x => bind (f x) g).
Proof. destruct m; reflexivity. Qed.

Lemma bind_ret {A} (m : res A) : bind m Ok = m.
Proof. destruct m; reflexivity. Qed.

Lemma bind_ext {A B} (m : res A) (f g : A -> res B) :
  (forall a, m = Ok a -> f a = g a) -> bind m f = bind m g.
Proof. destruct m; simpl; auto. Qed.

Lemma check_Ok b e u : check b e = Ok u <-> b = true.
Proof. destruct b, u; simpl; split; congruence. Qed.

Lemma check_true e : check true e = Ok tt.
Proof. reflexivity. Qed.

(** Take apart a hypothesis [m = Ok x] built from binds and checks. *)
Ltac inv_ok H :=
  match type of H with
  | bind _ _ = Ok _ =>
      let a := fresh "v" in let Hl := fresh "H" in let Hr := fresh "H" in
      apply bind_Ok in H; destruct H as (a & Hl & Hr); inv_ok Hl; inv_ok Hr
  | check _ _ = Ok _ => apply check_Ok in H
  | Ok _ = Ok _ => injection H; clear H; intros; try subst
  | Raise _ = Ok _ => discriminate H
  | (if ?b then _ else _) = Ok _ =>
      let E := fresh "E" in destruct b eqn:E; try discriminate H; inv_ok H
  | (let '(_, _) := ?p in _) = Ok _ =>
      let a := fresh "a" in let b := fresh "b" in
      destruct p as [a b]; cbn beta iota in H; inv_ok H
  | _ => idtac
  end.

(** ** get / set / upd *)
Lemma get_Ok {A} (l : list A) i x : get l i = Ok x <-> nth_error l i = Some x.
Proof. unfold get. destruct (nth_error l i); split; congruence. Qed.

Lemma get_nth {A} (l : list A) i d : (i < length l)%nat -> get l i = Ok (nth i l d).
Proof. intros H. apply get_Ok. now apply nth_error_nth'. Qed.

Lemma get_Ok_nth {A} (l : list A) i x d :
  get l i = Ok x -> (i < length l)%nat /\ nth i l d = x.
Proof.
  intros H. apply get_Ok in H. split.
  - apply nth_error_Some. congruence.
  - now apply nth_error_nth.
Qed.

Lemma get_Raise {A} (l : list A) i : (length l <= i)%nat -> get l i = Raise IndexError.
Proof. intros H. unfold get. now rewrite (proj2 (nth_error_None l i) H). Qed.

Lemma length_upd {A} (l : list A) i v : length (upd l i v) = length l.
Proof. revert i; induction l; intros [|i]; simpl; auto. Qed.

Lemma nth_upd_same {A} (l : list A) i v d : (i < length l)%nat -> nth i (upd l i v) d = v.
Proof. revert i; induction l; intros [|i]; simpl; intros; try lia; auto. apply IHl; lia. Qed.

Lemma nth_upd_other {A} (l : list A) i j v d : i <> j -> nth j (upd l i v) d = nth j l d.
Proof. revert i j; induction l; intros [|i] [|j]; simpl; intros; try congruence; auto. Qed.

Lemma nth_upd {A} (l : list A) i j v d :
  (i < length l)%nat -> nth j (upd l i v) d = if (i =? j)%nat then v else nth j l d.
Proof.
  intros H. destruct (Nat.eqb_spec i j) as [->|Hn].
  - now apply nth_upd_same.
  - now apply nth_upd_other.
Qed.

Lemma set_lt {A} (l : list A) i v : (i < length l)%nat -> set l i v = Ok (upd l i v).
Proof. intros H. unfold set. now rewrite (proj2 (Nat.ltb_lt _ _) H). Qed.

Lemma set_Ok {A} (l : list A) i v l' :
  set l i v = Ok l' -> (i < length l)%nat /\ l' = upd l i v.
Proof. unfold set. destruct (Nat.ltb_spec i (length l)); [|discriminate]. intros [= <-]; auto. Qed.

(** ** Lists *)
Lemma nth_ext' {A} (d : A) (l l' : list A) :
  length l = length l' -> (forall i, (i < length l)%nat -> nth i l d = nth i l' d) -> l = l'.
Proof. intros; eapply nth_ext; eauto. Qed.

Lemma nth_map' {A B} (f : A -> B) l i d d' :
  (i < length l)%nat -> nth i (map f l) d' = f (nth i l d).
Proof. intros H. rewrite nth_indep with (d' := f d) by now rewrite map_length. apply map_nth. Qed.

Lemma length_range a b : length (range a b) = (b - a)%nat.
Proof. apply seq_length. Qed.

Lemma nth_range a b i d : (i < b - a)%nat -> nth i (range a b) d = (a + i)%nat.
Proof. apply seq_nth. Qed.

Lemma in_range a b i : In i (range a b) <-> (a <= i < b)%nat.
Proof. unfold range. rewrite in_seq. lia. Qed.

Lemma range_S a b : (a <= b)%nat -> range a (S b) = range a b ++ [b].
Proof.
  intros H. unfold range. replace (S b - a)%nat with ((b - a) + 1)%nat by lia.
  rewrite seq_app. simpl. repeat f_equal. lia.
Qed.

Lemma range_nil a b : (b <= a)%nat -> range a b = [].
Proof. intros H. unfold range. now replace (b - a)%nat with 0%nat by lia. Qed.

Lemma range_cons a b : (a < b)%nat -> range a b = a :: range (S a) b.
Proof. intros H. unfold range. replace (b - a)%nat with (S (b - S a)) by lia. reflexivity. Qed.

Lemma nth_repeat' {A} (x : A) n i d : nth i (repeat x n) d = if (i <? n)%nat then x else d.
Proof.
  revert i; induction n; intros [|i]; simpl; auto.
  all: rewrite IHn; reflexivity.
Qed.

Lemma nth_firstn' {A} (l : list A) n i d :
  nth i (firstn n l) d = if (i <? n)%nat then nth i l d else d.
Proof.
  revert l i; induction n; intros [|x l] [|i]; simpl; auto.
  - now destruct (_ <? _)%nat.
  - rewrite IHn. reflexivity.
Qed.

Lemma nth_skipn' {A} (l : list A) n i d : nth i (skipn n l) d = nth (n + i) l d.
Proof. revert l; induction n; intros [|x l]; simpl; auto. now destruct i. Qed.

Lemma firstn_skipn_app {A} (l : list A) a b : firstn (a + b) l = firstn a l ++ firstn b (skipn a l).
Proof. revert l; induction a; intros [|x l]; simpl; auto. - now rewrite firstn_nil. - now rewrite IHa. Qed.

Lemma firstn_app_exact {A} (l r : list A) n : length l = n -> firstn n (l ++ r) = l.
Proof. intros <-. rewrite firstn_app, Nat.sub_diag, firstn_all. simpl. now rewrite app_nil_r. Qed.

Lemma skipn_app_exact {A} (l r : list A) n : length l = n -> skipn n (l ++ r) = r.
Proof. intros <-. rewrite skipn_app, Nat.sub_diag, skipn_all. reflexivity. Qed.

Lemma slice_length {A} (l : list A) a b :
  (b <= length l)%nat -> length (slice l a b) = (b - a)%nat.
Proof. intros. unfold slice. rewrite firstn_length, skipn_length. lia. Qed.

Lemma nth_slice {A} (l : list A) a b i d :
  (i < b - a)%nat -> nth i (slice l a b) d = nth (a + i) l d.
Proof.
  intros. unfold slice. rewrite nth_firstn', nth_skipn'.
  now rewrite (proj2 (Nat.ltb_lt _ _) H).
Qed.

(** ** Loops *)
Lemma foldM_app {A B} (body : B -> A -> res B) l1 l2 acc :
  foldM body (l1 ++ l2) acc = let* a := foldM body l1 acc in foldM body l2 a.
Proof.
  revert acc; induction l1; intros; simpl; auto.
  rewrite bind_assoc. apply bind_ext. intros; apply IHl1.
Qed.

Lemma foldM_ext {A B} (f g : B -> A -> res B) l acc :
  (forall b a, In a l -> f b a = g b a) -> foldM f l acc = foldM g l acc.
Proof.
  revert acc; induction l; intros; simpl; auto.
  rewrite H by (simpl; auto). apply bind_ext. intros. apply IHl. intros; apply H; simpl; auto.
Qed.

Lemma foldM_pure {A B} (f : B -> A -> B) l acc :
  foldM (fun b a => Ok (f b a)) l acc = Ok (fold_left f l acc).
Proof. revert acc; induction l; simpl; auto. Qed.

Lemma for_range_S {B} a b (acc : B) body :
  (a <= b)%nat -> for_range a (S b) acc body = let* r := for_range a b acc body in body r b.
Proof.
  intros H. unfold for_range. rewrite range_S by auto. rewrite foldM_app.
  apply bind_ext. intros. simpl. apply bind_ret.
Qed.

Lemma for_range_nil {B} a b (acc : B) body : (b <= a)%nat -> for_range a b acc body = Ok acc.
Proof. intros. unfold for_range. now rewrite range_nil. Qed.

Lemma for_range_inv {B} (Inv : nat -> B -> Prop) a b acc body :
  (a <= b)%nat ->
  Inv a acc ->
  (forall i r, (a <= i < b)%nat -> Inv i r -> exists r', body r i = Ok r' /\ Inv (S i) r') ->
  exists r, for_range a b acc body = Ok r /\ Inv b r.
Proof.
  intros Hab H0 Hs. induction b as [|b IH].
  - replace a with 0%nat in * by lia. exists acc. split; auto.
  - destruct (Nat.eq_dec a (S b)) as [->|Hne].
    + exists acc. rewrite for_range_nil by lia. auto.
    + destruct IH as (r & Hr & Hi); [lia| intros; apply Hs; auto; lia |].
      destruct (Hs b r) as (r' & Hb & Hi'); [lia|auto|].
      exists r'. rewrite for_range_S by lia. rewrite Hr. auto.
Qed.

(** Same rule for a loop over any list, the invariant indexed by the number of
    elements already processed. *)
Lemma foldM_inv {A B} (d : A) (Inv : nat -> B -> Prop) (l : list A) acc (body : B -> A -> res B) :
  Inv 0%nat acc ->
  (forall i r, (i < length l)%nat -> Inv i r ->
     exists r', body r (nth i l d) = Ok r' /\ Inv (S i) r') ->
  exists r, foldM body l acc = Ok r /\ Inv (length l) r.
Proof.
  revert Inv acc; induction l as [|x l IH]; intros Inv acc H0 Hs; simpl.
  - eauto.
  - destruct (Hs 0%nat acc) as (r' & Hb & Hi); [simpl; lia|auto|].
    simpl in Hb. rewrite Hb. simpl.
    apply (IH (fun i => Inv (S i))); auto.
    intros i r Hi' HI. apply (Hs (S i) r); [simpl; lia|auto].
Qed.

Lemma foldM_pres {A B} (Inv : B -> Prop) (l : list A) acc acc' (body : B -> A -> res B) :
  Inv acc -> (forall r r' x, In x l -> Inv r -> body r x = Ok r' -> Inv r') ->
  foldM body l acc = Ok acc' -> Inv acc'.
Proof.
  revert acc; induction l as [|x l IH]; simpl; intros acc H0 Hs H.
  - congruence.
  - apply bind_Ok in H. destruct H as (a & H1 & H2).
    apply (IH a); eauto.
Qed.

Lemma mapM_map {A B} (f : A -> res B) (g : A -> B) l :
  (forall x, In x l -> f x = Ok (g x)) -> mapM f l = Ok (map g l).
Proof.
  induction l; simpl; intros H; auto.
  rewrite H by auto. simpl. rewrite IHl by auto. reflexivity.
Qed.

Lemma mapM_Ok_length {A B} (f : A -> res B) l r : mapM f l = Ok r -> length r = length l.
Proof.
  revert r; induction l; simpl; intros r H; inv_ok H; subst; auto.
  simpl. f_equal. auto.
Qed.

Lemma mapM_Ok_nth {A B} (f : A -> res B) l r d d' :
  mapM f l = Ok r -> forall i, (i < length l)%nat -> f (nth i l d) = Ok (nth i r d').
Proof.
  revert r; induction l; simpl; intros r H i Hi; [lia|].
  apply bind_Ok in H as (y & Hy & H). apply bind_Ok in H as (ys & Hys & H). injection H as <-.
  destruct i; simpl; auto. apply IHl; auto. lia.
Qed.

Lemma mapM_ext {A B} (f g : A -> res B) l :
  (forall x, In x l -> f x = g x) -> mapM f l = mapM g l.
Proof.
  induction l; simpl; intros H; auto. rewrite H, IHl by auto. reflexivity.
Qed.

Lemma mapM_app {A B} (f : A -> res B) l1 l2 :
  mapM f (l1 ++ l2) = let* a := mapM f l1 in let* b := mapM f l2 in Ok (a ++ b).
Proof.
  induction l1; simpl.
  - now rewrite bind_ret.
  - destruct (f a); simpl; auto. rewrite IHl1. destruct (mapM f l1); simpl; auto.
    now destruct (mapM f l2).
Qed.

Lemma mapM_total {A B} (f : A -> res B) l :
  (forall x, In x l -> exists y, f x = Ok y) -> exists r, mapM f l = Ok r.
Proof.
  induction l; simpl; intros H; [eauto|].
  destruct (H a) as (y & Hy); auto. destruct IHl as (r & Hr); auto.
  exists (y :: r). now rewrite Hy, Hr.
Qed.

(** ** Bytes *)
From Coq Require Import Strings.Byte.

Lemma byte_eqb_eq (a b : byte) : Byte.eqb a b = true <-> a = b.
Proof.
  split.
  - apply Byte.byte_dec_bl.
  - apply Byte.byte_dec_lb.
Qed.

Lemma bytes_eqb_eq (a b : bytes) : bytes_eqb a b = true <-> a = b.
Proof.
  revert b; induction a as [|x a IH]; intros [|y b]; simpl; split; try congruence; auto.
  - rewrite andb_true_iff, byte_eqb_eq, IH. intros [-> ->]; auto.
  - intros [= -> ->]. rewrite andb_true_iff, byte_eqb_eq, IH. auto.
Qed.

Lemma bytes_eqb_refl a : bytes_eqb a a = true.
Proof. now apply bytes_eqb_eq. Qed.

Open Scope Z_scope.

Lemma b2z_range b : 0 <= b2z b < 256.
Proof. unfold b2z. pose proof (Byte.to_N_bounded b). lia. Qed.

Lemma z2b_b2z b : z2b (b2z b) = b.
Proof. unfold z2b, b2z. rewrite N2Z.id. now rewrite Byte.of_to_N. Qed.

Lemma b2z_z2b z : 0 <= z < 256 -> b2z (z2b z) = z.
Proof.
  intros H. unfold z2b, b2z.
  destruct (Byte.of_N (Z.to_N z)) eqn:E.
  - apply Byte.to_of_N in E. rewrite E. lia.
  - apply Byte.of_N_None_iff in E. lia.
Qed.

Lemma b2z_inj a b : b2z a = b2z b -> a = b.
Proof. intros H. rewrite <- (z2b_b2z a), <- (z2b_b2z b). now f_equal. Qed.

Lemma z2b_inj a b : 0 <= a < 256 -> 0 <= b < 256 -> z2b a = z2b b -> a = b.
Proof. intros Ha Hb H. rewrite <- (b2z_z2b a), <- (b2z_z2b b) by auto. now f_equal. Qed.

Lemma skipn_skipn' {A} (l : list A) a b : skipn a (skipn b l) = skipn (a + b) l.
Proof.
  revert l; induction b; intros l.
  - now rewrite Nat.add_0_r.
  - rewrite Nat.add_succ_r. destruct l; [now rewrite !skipn_nil|]. simpl. apply IHb.
Qed.
