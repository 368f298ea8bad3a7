(** A small program logic for [res]: the result satisfies [Q], or the exception
    satisfies [E]. *)
From Verif Require Export BaseFacts CommonFacts.
Open Scope nat_scope.

Definition post {A} (m : res A) (Q : A -> Prop) (E : exn -> Prop) : Prop :=
  match m with Ok a => Q a | Raise e => E e end.

Lemma post_ret {A} (a : A) (Q : A -> Prop) E : Q a -> post (Ok a) Q E.
Proof. easy. Qed.

Lemma post_bind {A B} (m : res A) (f : A -> res B) Q R E :
  post m Q E -> (forall a, m = Ok a -> Q a -> post (f a) R E) -> post (bind m f) R E.
Proof. destruct m; simpl; auto. Qed.

(** Compute a step whose result is known. *)
Lemma post_step {A B} (m : res A) a (f : A -> res B) R E :
  m = Ok a -> post (f a) R E -> post (bind m f) R E.
Proof. now intros ->. Qed.

Lemma post_weak {A} (m : res A) (Q R : A -> Prop) (E E' : exn -> Prop) :
  post m Q E -> (forall a, m = Ok a -> Q a -> R a) -> (forall e, E e -> E' e) -> post m R E'.
Proof. destruct m; simpl; auto. Qed.

Lemma post_Ok {A} (m : res A) Q E a : post m Q E -> m = Ok a -> Q a.
Proof. now intros H ->. Qed.

Lemma post_foldM {A B} (d : A) (Inv : nat -> B -> Prop) (l : list A) acc (body : B -> A -> res B) E :
  Inv 0 acc ->
  (forall i r, i < length l -> Inv i r -> post (body r (nth i l d)) (Inv (S i)) E) ->
  post (foldM body l acc) (Inv (length l)) E.
Proof.
  revert Inv acc. induction l as [|x l IH]; intros Inv acc H0 HS; simpl; [easy|].
  eapply post_bind with (Q := Inv 1).
  - apply (HS 0 acc); [simpl; lia | easy].
  - intros a _ Ha. apply (IH (fun i => Inv (S i))); [easy|].
    intros i r Hi Hr. apply (HS (S i)); [simpl; lia | easy].
Qed.

Lemma post_for_range {B} (Inv : nat -> B -> Prop) a b acc (body : B -> nat -> res B) E :
  a <= b -> Inv a acc ->
  (forall i r, a <= i < b -> Inv i r -> post (body r i) (Inv (S i)) E) ->
  post (for_range a b acc body) (Inv b) E.
Proof.
  intros Hab H0 HS. unfold for_range.
  assert (E0 : b = a + length (range a b)) by (rewrite length_range; lia).
  rewrite E0 at 2.
  apply (post_foldM 0 (fun i => Inv (a + i))).
  - now rewrite Nat.add_0_r.
  - intros i r Hi Hr. rewrite length_range in Hi. rewrite nth_range by lia.
    rewrite <- plus_n_Sm. apply HS; [lia | easy].
Qed.

Lemma post_mapM {A B} (f : A -> res B) l (Q : A -> B -> Prop) E :
  (forall x, In x l -> post (f x) (Q x) E) -> post (mapM f l) (Forall2 Q l) E.
Proof.
  induction l as [|x l IH]; intros H; simpl; [constructor|].
  eapply post_bind; [apply H; now left|]. intros y _ Hy.
  eapply post_bind; [apply IH; intros; apply H; now right|]. intros ys _ Hys.
  now constructor.
Qed.
