(** Polynomials given by their values at powers of a root of unity, and list
    segments. *)
From Verif Require Import Base Common Field Poly FlpBBCGGI19 Spec CircuitSpec BaseFacts CommonFacts
  FieldFacts PolyAlg Roots PolyFacts LagrangeFacts GadgetFacts CircuitFacts.
Open Scope nat_scope.

(** ** Segments *)
Fixpoint nsum (n : nat) (f : nat -> nat) : nat :=
  match n with O => 0 | S m => nsum m f + f m end.
Lemma nsum_ext n f g : (forall i, i < n -> f i = g i) -> nsum n f = nsum n g.
Proof. induction n; cbn; intros H; [easy|]. rewrite IHn, H by (intros; try apply H; lia). easy. Qed.
Lemma nsum_S_l n f : nsum (S n) f = f 0 + nsum n (fun i => f (S i)).
Proof. induction n; cbn in *; [easy|]. rewrite IHn. lia. Qed.
Lemma sum_nat_nsum {A} (f : A -> nat) l d : sum_nat (map f l) = nsum (length l) (fun i => f (nth i l d)).
Proof.
  induction l as [|x l IH]; [easy|]. cbn [length map]. rewrite nsum_S_l. cbn. f_equal. exact IH.
Qed.
Lemma nsum_le n m f : n <= m -> nsum n f <= nsum m f.
Proof. induction 1; [easy|]. cbn. lia. Qed.

Lemma NoDup_app_l {A} (a b : list A) : NoDup (a ++ b) -> NoDup a.
Proof.
  induction a; cbn; intros H; [constructor|]. inversion H; subst. constructor; [|auto].
  intros C. apply H2. apply in_or_app. now left.
Qed.

(** Concatenation of blocks, and the block at a given offset. *)
Lemma concat_seq_length {A} (b : nat -> list A) n :
  length (concat (map b (seq 0 n))) = nsum n (fun i => length (b i)).
Proof.
  induction n; [easy|]. rewrite seq_S, map_app, concat_app, app_length, IHn. cbn.
  rewrite app_nil_r. easy.
Qed.
Lemma concat_seq_S {A} (b : nat -> list A) n :
  concat (map b (seq 0 (S n))) = concat (map b (seq 0 n)) ++ b n.
Proof. rewrite seq_S, map_app, concat_app. cbn. now rewrite app_nil_r. Qed.
Lemma concat_block {A} (b : nat -> list A) n i : i < n ->
  exists r, concat (map b (seq 0 n)) = concat (map b (seq 0 i)) ++ b i ++ r.
Proof.
  intros H. induction n; [lia|]. rewrite concat_seq_S.
  destruct (Nat.eq_dec i n) as [->|Hne].
  - exists []. now rewrite app_nil_r.
  - destruct IHn as [r ->]; [lia|]. exists (r ++ b n). now rewrite <- !app_assoc.
Qed.
Lemma concat_ext {A} (a b : nat -> list A) n : (forall i, i < n -> a i = b i) ->
  concat (map a (seq 0 n)) = concat (map b (seq 0 n)).
Proof. intros H. f_equal. apply map_ext_in. intros i Hi. apply in_seq in Hi. apply H. lia. Qed.
Lemma skipn_concat {A} (b : nat -> list A) f n i : i < n -> (forall j, j < n -> length (b j) = f j) ->
  exists r, skipn (nsum i f) (concat (map b (seq 0 n))) = b i ++ r.
Proof.
  intros Hi Hl. destruct (concat_block b n i Hi) as [r ->]. exists r.
  apply skipn_app_exact. rewrite concat_seq_length. apply nsum_ext. intros; apply Hl; lia.
Qed.

Section Interp.
Context {P : NttFieldClass} (HP : NttOk P).
Notation F := (F P).
Notation root := (nth_root P).
Let Hp : prime (MODULUS P) := ntt_prime P HP.
Add Ring FringIF : (@F_ring P).

(** ** Interpolation at the first [length ys] powers of a root of unity. *)
Definition ipoly (L : nat) (ys : list F) : list F :=
  if length ys =? 0 then [] else
  match poly_interp (firstn (length ys) (@roots P L)) ys with Ok c => c | Raise _ => [] end.

Lemma ipoly_spec L ys : L <= gen_log P -> length ys <= 2 ^ L ->
  length (ipoly L ys) <= length ys /\
  forall i, i < length ys -> peval (ipoly L ys) (npow (root L) i) = nth i ys f0.
Proof.
  intros HL Hl. unfold ipoly. destruct ys as [|y ys'] eqn:Ey.
  - cbn. split; [lia|intros; lia].
  - replace (length (y :: ys') =? 0) with false by easy.
    rewrite <- Ey in *. assert (Hlen : length (firstn (length ys) (@roots P L)) = length ys).
    { rewrite firstn_length, roots_length. lia. }
    destruct (poly_interp_spec Hp (firstn (length ys) (@roots P L)) ys) as (c & E & H1 & H2).
    + exact Hlen.
    + intros C. rewrite C, Ey in Hlen. discriminate.
    + pose proof (NoDup_roots HP L HL) as Hnd.
      rewrite <- (firstn_skipn (length ys) (@roots P L)) in Hnd. now apply NoDup_app_l in Hnd.
    + rewrite E. rewrite Hlen in *. split; [easy|]. intros i Hi.
      rewrite <- (H2 i Hi), nth_firstn', (proj2 (Nat.ltb_lt _ _) Hi).
      now rewrite nth_roots by lia.
Qed.

Lemma agree_at_roots L n (c d : list F) : L <= gen_log P -> n <= 2 ^ L -> length c <= n -> length d <= n ->
  (forall i, i < n -> peval c (npow (root L) i) = peval d (npow (root L) i)) ->
  forall x, peval c x = peval d x.
Proof.
  intros HL Hn Hc Hd H. apply (poly_agree Hp c d (firstn n (@roots P L)) n); try easy.
  - pose proof (NoDup_roots HP L HL) as Hnd.
    rewrite <- (firstn_skipn n (@roots P L)) in Hnd. now apply NoDup_app_l in Hnd.
  - rewrite firstn_length, roots_length. lia.
  - intros x Hx. apply (In_nth _ _ f0) in Hx as (i & Hi & <-).
    rewrite firstn_length, roots_length in Hi. rewrite nth_firstn'.
    destruct (Nat.ltb_spec i n); [|lia]. rewrite nth_roots by lia. apply H; lia.
Qed.

Lemma ipoly_unique L ys (c : list F) : L <= gen_log P -> length ys <= 2 ^ L -> length c <= length ys ->
  (forall i, i < length ys -> peval c (npow (root L) i) = nth i ys f0) ->
  forall x, peval (ipoly L ys) x = peval c x.
Proof.
  intros HL Hl Hc H. destruct (ipoly_spec L ys HL Hl) as [H1 H2].
  apply (agree_at_roots L (length ys)); try easy. intros i Hi. now rewrite H2, H.
Qed.

Lemma ipoly_sum L n ys (yss : nat -> list F) x : L <= gen_log P -> length ys <= 2 ^ L ->
  (forall s, s < n -> length (yss s) = length ys) ->
  (forall i, nth i ys f0 = fsum n (fun s => nth i (yss s) f0)) ->
  peval (ipoly L ys) x = fsum n (fun s => peval (ipoly L (yss s)) x).
Proof.
  intros HL Hl Hls Hs. rewrite <- peval_psum. apply ipoly_unique; try easy.
  - apply psum_length. intros s Hs'. rewrite <- (Hls s Hs'). apply ipoly_spec; [easy|].
    rewrite (Hls s Hs'). easy.
  - intros i Hi. rewrite peval_psum, Hs. apply fsum_ext. intros s Hs'.
    apply ipoly_spec; [easy | rewrite (Hls s Hs'); easy | rewrite (Hls s Hs'); easy].
Qed.

(** The interpolant of a full set of values, with exactly as many coefficients. *)
Definition wpoly (L : nat) (w : list F) : list F := ipoly L w ++ repeat f0 (2 ^ L - length (ipoly L w)).

Lemma peval_wpoly L w x : peval (wpoly L w) x = peval (ipoly L w) x.
Proof. unfold wpoly. rewrite peval_app, peval_repeat0. ring. Qed.

Lemma wpoly_length L w : L <= gen_log P -> length w = 2 ^ L -> length (wpoly L w) = 2 ^ L.
Proof.
  intros HL Hw. unfold wpoly. rewrite app_length, repeat_length.
  pose proof (proj1 (ipoly_spec L w HL ltac:(lia))). lia.
Qed.

Lemma evals_length L (c : list F) : length (evals L c) = 2 ^ L.
Proof. unfold evals. now rewrite map_length, seq_length. Qed.
Lemma nth_evals L (c : list F) i : i < 2 ^ L -> nth i (evals L c) f0 = peval c (npow (root L) i).
Proof. intros H. unfold evals. now rewrite nth_map_seq. Qed.

Lemma evals_wpoly L w : L <= gen_log P -> length w = 2 ^ L -> evals L (wpoly L w) = w.
Proof.
  intros HL Hw. apply (nth_ext' f0).
  - now rewrite evals_length.
  - rewrite evals_length. intros i Hi. rewrite nth_evals by easy. rewrite peval_wpoly.
    apply ipoly_spec; lia.
Qed.

Lemma firstn_evals_ipoly L ys : L <= gen_log P -> length ys <= 2 ^ L ->
  firstn (length ys) (evals L (ipoly L ys)) = ys.
Proof.
  intros HL Hl. apply (nth_ext' f0).
  - rewrite firstn_length, evals_length. lia.
  - rewrite firstn_length, evals_length. intros i Hi. rewrite nth_firstn'.
    destruct (Nat.ltb_spec i (length ys)); [|lia]. rewrite nth_evals by lia. now apply ipoly_spec.
Qed.

Lemma root_sub L M : L <= M -> M <= gen_log P -> root L = npow (root M) (2 ^ (M - L)).
Proof.
  intros H1 H2. rewrite !(nth_root_npow HP) by lia. rewrite <- npow_mul. f_equal.
  rewrite <- Nat.pow_add_r. f_equal. lia.
Qed.

End Interp.
