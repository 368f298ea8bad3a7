(** Algebra of the modelled field elements: ring laws for every modulus, field
    laws and Fermat's little theorem for every prime modulus, and the vector
    codec. *)
From Verif Require Export CommonFacts Field Spec.
From Coq Require Export Ring Field Znumtheory Permutation.
From Coq Require Import Eqdep_dec.
Open Scope Z_scope.

Section RingLaws.
Context {P : FieldClass}.
Notation F := (F P).
Implicit Types x y : F.

Lemma MODULUS_pos : 0 < MODULUS P.
Proof. reflexivity. Qed.

Lemma F_eq x y : val x = val y -> x = y.
Proof.
  destruct x as [x Hx], y as [y Hy]; simpl; intros ->. f_equal.
  apply UIP_dec. apply bool_dec.
Qed.

Lemma val_range x : 0 <= val x < MODULUS P.
Proof.
  destruct x as [v H]; simpl. apply andb_true_iff in H as [H1 H2].
  apply Z.leb_le in H1. apply Z.ltb_lt in H2. lia.
Qed.

Lemma fof_val x : fof (val x) = x.
Proof. apply F_eq. simpl. apply Z.mod_small. apply val_range. Qed.

Lemma val_fof z : val (fof z : F) = z mod MODULUS P.
Proof. reflexivity. Qed.

Lemma val_fof_small z : 0 <= z < MODULUS P -> val (fof z : F) = z.
Proof. apply Z.mod_small. Qed.

Lemma fof_eq a b : fof a = fof b :> F <-> a mod MODULUS P = b mod MODULUS P.
Proof.
  split; intros H.
  - apply (f_equal val) in H. exact H.
  - now apply F_eq.
Qed.

Lemma fof_add a b : fof (a + b) = fadd (fof a) (fof b) :> F.
Proof. apply F_eq. simpl. apply Zplus_mod. Qed.
Lemma fof_sub a b : fof (a - b) = fsub (fof a) (fof b) :> F.
Proof. apply F_eq. simpl. apply Zminus_mod. Qed.
Lemma fof_mul a b : fof (a * b) = fmul (fof a) (fof b) :> F.
Proof. apply F_eq. simpl. apply Zmult_mod. Qed.
Lemma fof_opp a : fof (- a) = fneg (fof a) :> F.
Proof.
  apply F_eq. simpl. replace (- a) with (0 - a) by lia.
  replace (- (a mod MODULUS P)) with (0 - a mod MODULUS P) by lia.
  now rewrite Zminus_mod_idemp_r.
Qed.
Lemma fof_modulus : fof (MODULUS P) = f0 :> F.
Proof. apply F_eq. simpl. now rewrite Z_mod_same_full, Zmod_0_l. Qed.

Lemma F_ind (Q : F -> Prop) : (forall z, Q (fof z)) -> forall x, Q x.
Proof. intros H x. rewrite <- (fof_val x). apply H. Qed.

Lemma F_ring : ring_theory f0 f1 fadd fmul fsub fneg (@eq F).
Proof.
  constructor; intros;
  repeat match goal with x : F |- _ => induction x using F_ind end;
  unfold f0, f1; rewrite <- ?fof_sub, <- ?fof_opp, <- ?fof_add, <- ?fof_mul,
     <- ?fof_add, <- ?fof_mul, <- ?fof_add; f_equal; try ring.
  all: rewrite <- fof_add; f_equal; ring.
Qed.

Add Ring Fring : F_ring.

Lemma feqb_eq x y : feqb x y = true <-> x = y.
Proof.
  unfold feqb. rewrite Z.eqb_eq. split; [apply F_eq|congruence].
Qed.
Lemma feqb_neq x y : feqb x y = false <-> x <> y.
Proof. rewrite <- feqb_eq. destruct (feqb x y); split; congruence. Qed.
Lemma feqb_refl x : feqb x x = true.
Proof. now apply feqb_eq. Qed.
Lemma feq_dec x y : {x = y} + {x <> y}.
Proof. destruct (feqb x y) eqn:E; [left; now apply feqb_eq | right; now apply feqb_neq]. Qed.

Lemma fsub_0 x y : fsub x y = f0 <-> x = y.
Proof.
  split; intros H.
  - replace x with (fadd (fsub x y) y) by ring. rewrite H. ring.
  - rewrite H. ring.
Qed.

Lemma fsub_eq_0 x y : fsub x y = f0 -> x = y.
Proof. apply fsub_0. Qed.

Lemma fadd_cancel_l x y (z : F) : fadd x y = fadd x z -> y = z.
Proof. intros H. replace y with (fsub (fadd x y) x) by ring. rewrite H. ring. Qed.

Lemma field_init_ok v : - MODULUS P < v < MODULUS P -> field_init v = Ok (fof v : F).
Proof.
  intros H. unfold field_init.
  rewrite (proj2 (Z.ltb_lt v _)), (proj2 (Z.ltb_lt (- _) v)) by lia. reflexivity.
Qed.
Lemma field_init_Ok v x : field_init v = Ok x <-> - MODULUS P < v < MODULUS P /\ x = fof v.
Proof.
  unfold field_init. split.
  - destruct (Z.ltb_spec v (MODULUS P)); [|discriminate].
    destruct (Z.ltb_spec (- MODULUS P) v); [|discriminate]. intros [= <-]. split; auto.
  - intros [H ->]. now apply field_init_ok.
Qed.

(** ** Powers *)
Lemma fpow_pos_succ x p : fpow_pos x (Pos.succ p) = fmul x (fpow_pos x p).
Proof.
  induction p; cbn [fpow_pos Pos.succ]; auto.
  rewrite IHp. ring.
Qed.

Lemma fpow_succ x n : fpow x (N.succ n) = fmul x (fpow x n).
Proof. destruct n; simpl. - ring. - apply fpow_pos_succ. Qed.

Lemma fpow_0 x : fpow x 0 = f1.
Proof. reflexivity. Qed.
Lemma fpow_1 x : fpow x 1 = x.
Proof. reflexivity. Qed.
Lemma fpow_2 x : fpow x 2 = fmul x x.
Proof. reflexivity. Qed.

Lemma fpow_add x n m : fpow x (n + m) = fmul (fpow x n) (fpow x m).
Proof.
  induction n using N.peano_ind.
  - rewrite N.add_0_l, fpow_0. ring.
  - rewrite N.add_succ_l, !fpow_succ, IHn. ring.
Qed.

Lemma fpow_mul_base x y n : fpow (fmul x y) n = fmul (fpow x n) (fpow y n).
Proof.
  induction n using N.peano_ind.
  - rewrite !fpow_0. ring.
  - rewrite !fpow_succ, IHn. ring.
Qed.

Lemma fpow_1_l n : fpow f1 n = f1 :> F.
Proof. induction n using N.peano_ind; auto. rewrite fpow_succ, IHn. ring. Qed.

Lemma fpow_mul x n m : fpow x (n * m) = fpow (fpow x n) m.
Proof.
  induction m using N.peano_ind.
  - now rewrite N.mul_0_r.
  - rewrite N.mul_succ_r, fpow_add, fpow_succ, IHm. ring.
Qed.

Lemma fpow_0_l n : n <> 0%N -> fpow f0 n = f0 :> F.
Proof.
  destruct (N.zero_or_succ n) as [->|(m & ->)]; [congruence|].
  intros _. rewrite fpow_succ. ring.
Qed.

Lemma fpow_nat_S x n : fpow x (N.of_nat (S n)) = fmul x (fpow x (N.of_nat n)).
Proof. rewrite Nat2N.inj_succ. apply fpow_succ. Qed.

Lemma fpow_fof z n : fpow (fof z : F) n = fof (z ^ Z.of_N n).
Proof.
  induction n using N.peano_ind.
  - reflexivity.
  - rewrite fpow_succ, IHn, N2Z.inj_succ, Z.pow_succ_r by lia. now rewrite fof_mul.
Qed.

(** ** Finite sums and products *)
Lemma fsum_ext n (f g : nat -> F) : (forall i, (i < n)%nat -> f i = g i) -> fsum n f = fsum n g.
Proof. induction n; simpl; intros H; auto. rewrite IHn, H by auto. auto. Qed.
Lemma fprodn_ext n (f g : nat -> F) : (forall i, (i < n)%nat -> f i = g i) -> fprodn n f = fprodn n g.
Proof. induction n; simpl; intros H; auto. rewrite IHn, H by auto. auto. Qed.
Lemma fsum_add n (f g : nat -> F) : fsum n (fun i => fadd (f i) (g i)) = fadd (fsum n f) (fsum n g).
Proof. induction n; simpl. - ring. - rewrite IHn. ring. Qed.
Lemma fsum_sub n (f g : nat -> F) : fsum n (fun i => fsub (f i) (g i)) = fsub (fsum n f) (fsum n g).
Proof. induction n; simpl. - ring. - rewrite IHn. ring. Qed.
Lemma fsum_scale n c (f : nat -> F) : fsum n (fun i => fmul c (f i)) = fmul c (fsum n f).
Proof. induction n; simpl. - ring. - rewrite IHn. ring. Qed.
Lemma fsum_scale_r n c (f : nat -> F) : fsum n (fun i => fmul (f i) c) = fmul (fsum n f) c.
Proof. induction n; simpl. - ring. - rewrite IHn. ring. Qed.
Lemma fsum_zero n (f : nat -> F) : (forall i, (i < n)%nat -> f i = f0) -> fsum n f = f0.
Proof. induction n; simpl; intros H; auto. rewrite IHn, H by auto. ring. Qed.
Lemma fsum_app n m (f : nat -> F) : fsum (n + m) f = fadd (fsum n f) (fsum m (fun i => f (n + i)%nat)).
Proof.
  induction m; simpl.
  - rewrite Nat.add_0_r. ring.
  - rewrite Nat.add_succ_r. simpl. rewrite IHm. ring.
Qed.
Lemma fsum_S_l n (f : nat -> F) : fsum (S n) f = fadd (f 0%nat) (fsum n (fun i => f (S i))).
Proof. change (S n) with (1 + n)%nat. rewrite fsum_app. simpl. ring. Qed.
Lemma fprodn_S_l n (f : nat -> F) : fprodn (S n) f = fmul (f 0%nat) (fprodn n (fun i => f (S i))).
Proof. induction n; simpl in *. - ring. - rewrite IHn. ring. Qed.
Lemma fsum_exchange n m (f : nat -> nat -> F) :
  fsum n (fun i => fsum m (fun j => f i j)) = fsum m (fun j => fsum n (fun i => f i j)).
Proof.
  induction n; simpl.
  - symmetry. apply fsum_zero. auto.
  - rewrite IHn, fsum_add. auto.
Qed.
Lemma fsum_single n k (f : nat -> F) : (k < n)%nat -> (forall i, (i < n)%nat -> i <> k -> f i = f0) ->
  fsum n f = f k.
Proof.
  intros Hk H. induction n; [lia|]. simpl.
  destruct (Nat.eq_dec k n) as [->|Hne].
  - rewrite fsum_zero by (intros; apply H; lia). ring.
  - rewrite IHn by (try lia; intros; apply H; lia). rewrite (H n) by lia. ring.
Qed.
Lemma fprodn_mul n (f g : nat -> F) : fprodn n (fun i => fmul (f i) (g i)) = fmul (fprodn n f) (fprodn n g).
Proof. induction n; simpl. - ring. - rewrite IHn. ring. Qed.
Lemma fprodn_const n (c : F) : fprodn n (fun _ => c) = fpow c (N.of_nat n).
Proof. induction n; auto. cbn [fprodn]. rewrite IHn, fpow_nat_S. ring. Qed.
Lemma fprodn_zero n (f : nat -> F) k : (k < n)%nat -> f k = f0 -> fprodn n f = f0.
Proof.
  intros Hk H. induction n; [lia|]. simpl.
  destruct (Nat.eq_dec k n) as [->|Hne].
  - rewrite H. ring.
  - rewrite IHn by lia. ring.
Qed.
Lemma fsuml_app (a b : list F) : fsuml (a ++ b) = fadd (fsuml a) (fsuml b).
Proof. induction a; simpl. - ring. - rewrite IHa. ring. Qed.
Lemma fsuml_perm (a b : list F) : Permutation a b -> fsuml a = fsuml b.
Proof. induction 1; simpl; auto; try congruence. ring. Qed.
Lemma fsuml_nth (l : list F) : fsuml l = fsum (length l) (fun i => nth i l f0).
Proof.
  induction l; [reflexivity|]. cbn [length]. rewrite fsum_S_l. simpl. now rewrite IHl.
Qed.
Lemma fold_left_fadd (l : list F) acc : fold_left fadd l acc = fadd acc (fsuml l).
Proof. revert acc; induction l; simpl; intros. - ring. - rewrite IHl. ring. Qed.

End RingLaws.

(** ** Prime moduli *)
Section FieldLaws.
Context {P : FieldClass} (Hp : prime (MODULUS P)).
Notation F := (F P).
Implicit Types x y : F.
Add Ring Fring2 : (@F_ring P).

Lemma f1_neq_f0 : f1 <> f0 :> F.
Proof.
  intros H. apply fof_eq in H. pose proof (prime_ge_2 _ Hp).
  rewrite !Z.mod_small in H by lia. lia.
Qed.

Lemma fof_0_divide z : fof z = f0 :> F <-> (MODULUS P | z).
Proof.
  unfold f0. rewrite fof_eq, Zmod_0_l. pose proof (@MODULUS_pos P). split.
  - intros. apply Z.mod_divide; lia.
  - intros. apply Z.mod_divide; [lia|auto].
Qed.

Lemma fmul_0 x y : fmul x y = f0 -> x = f0 \/ y = f0.
Proof.
  rewrite <- (fof_val x), <- (fof_val y), <- fof_mul, !fof_0_divide.
  apply prime_mult, Hp.
Qed.

Lemma fmul_neq_0 x y : x <> f0 -> y <> f0 -> fmul x y <> f0.
Proof. intros Hx Hy H. apply fmul_0 in H as []; auto. Qed.

Lemma fmul_cancel_l x y (z : F) : x <> f0 -> fmul x y = fmul x z -> y = z.
Proof.
  intros Hx H. apply fsub_0. assert (fmul x (fsub y z) = f0) as E.
  { replace (fmul x (fsub y z)) with (fsub (fmul x y) (fmul x z)) by ring. rewrite H. ring. }
  apply fmul_0 in E as []; [contradiction|auto].
Qed.

Lemma fpow_neq_0 x n : x <> f0 -> fpow x n <> f0.
Proof.
  intros Hx. induction n using N.peano_ind.
  - apply f1_neq_f0.
  - rewrite fpow_succ. now apply fmul_neq_0.
Qed.

Lemma fprodn_neq_0 n (f : nat -> F) : (forall i, (i < n)%nat -> f i <> f0) -> fprodn n f <> f0.
Proof.
  induction n; simpl; intros H.
  - apply f1_neq_f0.
  - apply fmul_neq_0; auto.
Qed.

(** All non-zero elements. *)
Let units : list F := map (fun i => fof (Z.of_nat i)) (seq 1 (Z.to_nat (MODULUS P - 1))).
Let prodl (l : list F) : F := fold_right fmul f1 l.

Lemma in_units x : In x units <-> x <> f0.
Proof.
  unfold units. rewrite in_map_iff. pose proof (val_range x) as Hx. pose proof (prime_ge_2 _ Hp).
  split.
  - intros (i & <- & Hi). apply in_seq in Hi. intros H0.
    apply fof_eq in H0. rewrite !Z.mod_small in H0 by lia. lia.
  - intros Hn. exists (Z.to_nat (val x)).
    assert (val x <> 0). { intros E. apply Hn. rewrite <- (fof_val x), E. reflexivity. }
    rewrite Z2Nat.id by lia. split; [apply fof_val|]. apply in_seq. lia.
Qed.

Lemma NoDup_map_inj {A B} (f : A -> B) l :
  (forall a b, In a l -> In b l -> f a = f b -> a = b) -> NoDup l -> NoDup (map f l).
Proof.
  intros Hf Hl. induction Hl; simpl; constructor.
  - rewrite in_map_iff. intros (y & E & Hy).
    assert (y = x) by (apply Hf; simpl; auto). subst. contradiction.
  - apply IHHl. intros; apply Hf; simpl; auto.
Qed.

Lemma NoDup_units : NoDup units.
Proof.
  apply NoDup_map_inj; [|apply seq_NoDup].
  intros a b Ha Hb E. apply in_seq in Ha, Hb. apply fof_eq in E.
  rewrite !Z.mod_small in E by lia. lia.
Qed.

Lemma units_perm (a : F) : a <> f0 -> Permutation (map (fmul a) units) units.
Proof.
  intros Ha. apply NoDup_Permutation_bis.
  - apply NoDup_map_inj; [|apply NoDup_units].
    intros x y _ _ E. now apply fmul_cancel_l in E.
  - rewrite map_length. lia.
  - intros x Hx. apply in_map_iff in Hx as (y & <- & Hy). apply in_units in Hy.
    apply in_units. now apply fmul_neq_0.
Qed.

Lemma fermat (a : F) : a <> f0 -> fpow a (Z.to_N (MODULUS P - 1)) = f1.
Proof.
  intros Ha.
  assert (E : prodl (map (fmul a) units) = fmul (fpow a (N.of_nat (length units))) (prodl units)).
  { unfold prodl. generalize units. intros l. clear. induction l as [|x l IH].
    - cbn. ring.
    - cbn [map fold_right length]. rewrite IH. rewrite fpow_nat_S. ring. }
  assert (Hperm : prodl (map (fmul a) units) = prodl units).
  { pose proof (units_perm a Ha) as HP. revert HP. generalize (map (fmul a) units).
    generalize units. clear. intros l l' HP.
    induction HP; simpl; auto; try congruence. ring. }
  assert (Hnz : prodl units <> f0).
  { assert (forall l, (forall x, In x l -> x <> f0) -> prodl l <> f0) as H.
    { induction l; simpl; intros.
      - apply f1_neq_f0.
      - apply fmul_neq_0; auto. }
    apply H. intros x Hx. now apply in_units. }
  rewrite Hperm in E.
  assert (L : N.of_nat (length units) = Z.to_N (MODULUS P - 1)).
  { unfold units. rewrite map_length, seq_length. pose proof (prime_ge_2 _ Hp). lia. }
  rewrite L in E. apply (fmul_cancel_l (prodl units)); auto.
  transitivity (prodl units); [|ring]. rewrite E at 2. ring.
Qed.

Lemma finv_l x : x <> f0 -> fmul (finv x) x = f1.
Proof.
  intros Hx. unfold finv. rewrite <- (fermat x Hx).
  pose proof (prime_ge_2 _ Hp).
  replace (Z.to_N (MODULUS P - 1)) with (N.succ (Z.to_N (MODULUS P - 2))) by lia.
  rewrite fpow_succ. ring.
Qed.

Lemma finv_r x : x <> f0 -> fmul x (finv x) = f1.
Proof. intros. rewrite <- (finv_l x) by auto. ring. Qed.

Lemma finv_neq_0 x : x <> f0 -> finv x <> f0.
Proof. intros Hx H. pose proof (finv_l x Hx) as E. rewrite H in E.
  apply f1_neq_f0. rewrite <- E. ring. Qed.

Lemma finv_unique x y : fmul y x = f1 -> y = finv x.
Proof.
  intros H. assert (x <> f0). { intros ->. apply f1_neq_f0. rewrite <- H. ring. }
  apply (fmul_cancel_l x); auto. rewrite finv_r by auto. rewrite <- H. ring.
Qed.

Lemma finv_mul x y : x <> f0 -> y <> f0 -> finv (fmul x y) = fmul (finv x) (finv y).
Proof.
  intros Hx Hy. symmetry. apply finv_unique.
  transitivity (fmul (fmul (finv x) x) (fmul (finv y) y)); [ring|].
  rewrite !finv_l by auto. ring.
Qed.

Definition fdiv (x y : F) : F := fmul x (finv y).

Lemma F_field : field_theory f0 f1 fadd fmul fsub fneg fdiv finv (@eq F).
Proof.
  constructor.
  - apply F_ring.
  - apply f1_neq_f0.
  - reflexivity.
  - intros. now apply finv_l.
Qed.
End FieldLaws.

(** [0.inv() == 0] for every odd prime; (for modulus 2 the exponent is 0 and
    Python's [pow(0, 0, 2)] is 1). *)
Lemma finv_0 {P} : 2 < MODULUS P -> finv (f0 : F P) = f0.
Proof. intros H. unfold finv. apply fpow_0_l. lia. Qed.

(** ** Vectors *)
Section Vectors.
Context {P : FieldClass}.
Add Ring Fring3 : (@F_ring P).

Lemma vec_add_ok (l r : list (F P)) : length l = length r -> vec_add l r = Ok (zip_with fadd l r).
Proof. intros H. unfold vec_add. now rewrite (proj2 (Nat.eqb_eq _ _) H). Qed.
Lemma vec_sub_ok (l r : list (F P)) : length l = length r -> vec_sub l r = Ok (zip_with fsub l r).
Proof. intros H. unfold vec_sub. now rewrite (proj2 (Nat.eqb_eq _ _) H). Qed.
Lemma vec_add_Ok (l r v : list (F P)) : vec_add l r = Ok v <-> length l = length r /\ v = zip_with fadd l r.
Proof.
  unfold vec_add. destruct (Nat.eqb_spec (length l) (length r)); split.
  - intros [= <-]; auto. - intros [_ ->]; auto. - discriminate. - intros []; congruence.
Qed.
Lemma vec_sub_Ok (l r v : list (F P)) : vec_sub l r = Ok v <-> length l = length r /\ v = zip_with fsub l r.
Proof.
  unfold vec_sub. destruct (Nat.eqb_spec (length l) (length r)); split.
  - intros [= <-]; auto. - intros [_ ->]; auto. - discriminate. - intros []; congruence.
Qed.

Lemma zip_fadd_comm (a b : list (F P)) : zip_with fadd a b = zip_with fadd b a.
Proof. revert b; induction a; intros [|]; simpl; auto. f_equal; auto. ring. Qed.
Lemma zip_fadd_assoc (a b c : list (F P)) :
  zip_with fadd (zip_with fadd a b) c = zip_with fadd a (zip_with fadd b c).
Proof. revert b c; induction a; intros [|] [|]; simpl; auto. f_equal; auto. ring. Qed.
Lemma zip_fadd_fsub (a b : list (F P)) : length a = length b ->
  zip_with fsub (zip_with fadd a b) b = a.
Proof. revert b; induction a; intros [|]; simpl; auto; try discriminate. intros [= H].
  f_equal; auto. ring. Qed.
Lemma zip_fsub_fadd (a b : list (F P)) : length a = length b ->
  zip_with fadd (zip_with fsub a b) b = a.
Proof. revert b; induction a; intros [|]; simpl; auto; try discriminate. intros [= H].
  f_equal; auto. ring. Qed.
Lemma zip_fadd_0_l (a : list (F P)) n : (length a <= n)%nat -> zip_with fadd (repeat f0 n) a = a.
Proof. revert n; induction a; intros [|n]; simpl; auto; try lia. intros. f_equal; [ring|].
  apply IHa; lia. Qed.
Lemma zip_fadd_0_r (a : list (F P)) n : (length a <= n)%nat -> zip_with fadd a (repeat f0 n) = a.
Proof. intros. rewrite zip_fadd_comm. now apply zip_fadd_0_l. Qed.

(** ** Vector codec *)
Definition field_size_ok : Prop := MODULUS P <= 2 ^ (8 * Z.of_nat (ENCODED_SIZE P)).

Definition encode_elem (x : F P) : bytes := le_bytes (ENCODED_SIZE P) (val x).

Lemma encode_vec_ok (v : list (F P)) : field_size_ok -> encode_vec v = Ok (concat (map encode_elem v)).
Proof.
  intros Hs. unfold encode_vec.
  assert (G : forall acc, foldM (fun encoded x =>
      let* e := to_le_bytes (fint x) (ENCODED_SIZE P) in Ok (encoded ++ e)) v acc
      = Ok (acc ++ concat (map encode_elem v))).
  { induction v as [|x v IH]; intros acc; simpl.
    - now rewrite app_nil_r.
    - unfold fint. pose proof (val_range x). unfold field_size_ok in Hs.
      rewrite to_le_bytes_ok by lia. simpl. rewrite IH. now rewrite app_assoc. }
  apply G.
Qed.

Lemma encode_vec_length (v : list (F P)) b : encode_vec v = Ok b -> length b = (length v * ENCODED_SIZE P)%nat.
Proof.
  unfold encode_vec. intros H.
  assert (G : forall v acc, foldM (fun encoded (x : F P) =>
      let* e := to_le_bytes (fint x) (ENCODED_SIZE P) in Ok (encoded ++ e)) v acc = Ok b ->
      length b = (length acc + length v * ENCODED_SIZE P)%nat).
  { clear H. intros w. induction w as [|x w IH]; simpl; intros acc H.
    - injection H as <-. lia.
    - apply bind_Ok in H as (a & H & H'). apply bind_Ok in H as (e & He & H).
      injection H as <-. apply IH in H'. apply to_le_bytes_spec in He as [He _].
      rewrite app_length in H'. lia. }
  apply G in H. exact H.
Qed.

Lemma concat_encode_length (v : list (F P)) :
  length (concat (map encode_elem v)) = (length v * ENCODED_SIZE P)%nat.
Proof.
  induction v; simpl; auto. rewrite app_length, IHv. unfold encode_elem. now rewrite le_bytes_length.
Qed.

Lemma decode_vec_loop_encode (v : list (F P)) : field_size_ok -> (0 < ENCODED_SIZE P)%nat ->
  forall fuel acc, (length v <= fuel)%nat ->
  decode_vec_loop fuel (concat (map encode_elem v)) acc = Ok (acc ++ v).
Proof.
  intros Hs Hpos. induction v as [|x v IH]; intros fuel acc Hf.
  - simpl. rewrite app_nil_r. now destruct fuel.
  - simpl in Hf. destruct fuel as [|fuel]; [lia|].
    cbn [map concat]. set (rest := concat (map encode_elem v)).
    assert (L : length (encode_elem x) = ENCODED_SIZE P) by apply le_bytes_length.
    cbn [decode_vec_loop].
    destruct (encode_elem x ++ rest) as [|b bs] eqn:E.
    { apply (f_equal (@length _)) in E. rewrite app_length in E. simpl in E. lia. }
    rewrite <- E. rewrite front_app by auto. cbn [bind].
    pose proof (val_range x) as Hx. unfold field_size_ok in Hs.
    assert (from_le_bytes (encode_elem x) = val x) as ->.
    { apply from_le_bytes_le_bytes. lia. }
    destruct (Z.leb_spec (MODULUS P) (val x)); [lia|].
    rewrite field_init_ok by lia. cbn [bind]. rewrite fof_val.
    unfold rest. rewrite IH by lia. now rewrite <- app_assoc.
Qed.

Lemma decode_vec_loop_Ok : field_size_ok ->
  forall fuel b acc (v : list (F P)),
  decode_vec_loop fuel b acc = Ok v ->
  exists w, v = acc ++ w /\ b = concat (map encode_elem w).
Proof.
  intros Hs. induction fuel as [|fuel IH]; intros b acc v H.
  - destruct b; [|discriminate]. injection H as <-. exists []. rewrite app_nil_r. auto.
  - destruct b as [|b0 bs].
    { injection H as <-. exists []. rewrite app_nil_r. auto. }
    remember (b0 :: bs) as b eqn:Eb. cbn [decode_vec_loop] in H. rewrite Eb in H. rewrite <- Eb in H.
    apply bind_Ok in H as ([ex rest] & H1 & H). cbn beta iota zeta in H.
    apply front_Ok in H1 as [L1 E1].
    destruct (Z.leb_spec (MODULUS P) (from_le_bytes ex)); [discriminate|].
    apply bind_Ok in H as (e & He & H). apply field_init_Ok in He as [_ ->].
    apply IH in H as (w & -> & ->).
    exists (fof (from_le_bytes ex) :: w). rewrite <- app_assoc. split; auto.
    rewrite E1. cbn [map concat]. f_equal. unfold encode_elem.
    pose proof (from_le_bytes_range ex). rewrite val_fof_small by lia.
    rewrite <- L1. now rewrite le_bytes_from_le_bytes.
Qed.

Lemma decode_encode_vec (v : list (F P)) : field_size_ok -> (0 < ENCODED_SIZE P)%nat ->
  decode_vec (concat (map encode_elem v)) = Ok v.
Proof.
  intros Hs Hpos. unfold decode_vec. rewrite concat_encode_length.
  rewrite Nat.mod_mul by lia. cbn [Nat.eqb negb].
  rewrite decode_vec_loop_encode; auto. nia.
Qed.

Lemma decode_vec_Ok b (v : list (F P)) : field_size_ok -> 
  decode_vec b = Ok v -> b = concat (map encode_elem v).
Proof.
  unfold decode_vec. intros Hs H. destruct (negb _); [discriminate|].
  apply decode_vec_loop_Ok in H as (w & -> & ->); auto.
Qed.

(** Failure is always a ValueError. *)
Lemma decode_vec_loop_Raise : (0 < ENCODED_SIZE P)%nat ->
  forall fuel b (acc : list (F P)) e,
  (length b <= fuel)%nat -> (length b mod ENCODED_SIZE P = 0)%nat ->
  decode_vec_loop fuel b acc = Raise e -> exists m, e = ValueError m.
Proof.
  intros Hpos. induction fuel as [|fuel IH]; intros b acc e L M H.
  - destruct b; simpl in *; [discriminate|lia].
  - destruct b as [|b0 bs]; [discriminate|].
    remember (b0 :: bs) as b eqn:Eb. cbn [decode_vec_loop] in H. rewrite Eb in H. rewrite <- Eb in H.
    assert (ENCODED_SIZE P <= length b)%nat as Hle.
    { apply Nat.mod_divides in M as [c Hc]; [|lia]. rewrite Hc. subst b. simpl in Hc.
      destruct c; [lia|]. nia. }
    rewrite front_ok in H by auto. cbn [bind] in H.
    destruct (Z.leb_spec (MODULUS P) (from_le_bytes (firstn (ENCODED_SIZE P) b))).
    + injection H as <-. eauto.
    + pose proof (from_le_bytes_range (firstn (ENCODED_SIZE P) b)).
      rewrite field_init_ok in H by lia. cbn [bind] in H.
      apply IH in H; auto; rewrite skipn_length.
      * lia.
      * replace (length b) with ((length b - ENCODED_SIZE P) + 1 * ENCODED_SIZE P)%nat in M by lia.
        rewrite Nat.mod_add in M by lia. auto.
Qed.

Lemma decode_vec_Raise b e : (0 < ENCODED_SIZE P)%nat ->
  decode_vec b = Raise e :> res (list (F P)) -> exists m, e = ValueError m.
Proof.
  unfold decode_vec. intros Hpos H.
  destruct (Nat.eqb_spec (length b mod ENCODED_SIZE P) 0); cbn [negb] in H.
  - eapply decode_vec_loop_Raise; eauto.
  - injection H as <-. eauto.
Qed.

Lemma encode_elem_inj (x y : F P) : field_size_ok -> encode_elem x = encode_elem y -> x = y.
Proof.
  intros Hs H. apply F_eq. unfold encode_elem, field_size_ok in *.
  pose proof (val_range x). pose proof (val_range y).
  rewrite <- (from_le_bytes_le_bytes (ENCODED_SIZE P) (val x)) by lia.
  rewrite <- (from_le_bytes_le_bytes (ENCODED_SIZE P) (val y)) by lia. now rewrite H.
Qed.
End Vectors.
Arguments field_size_ok P : clear implicits.
