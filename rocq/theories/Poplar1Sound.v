(** Soundness of the sketch. *)
From Verif Require Export Poplar1Run Counting.
Open Scope nat_scope.

Section DotFacts.
Context {P : FieldClass}.
Notation F := (F P).
Add Ring FringPS : (@F_ring P).

Lemma dot_upd i (D r : list F) : i < length r -> length D = length r ->
  dot D r = fadd (fmul (nth i D f0) (nth i r f0)) (dot D (upd r i f0)).
Proof.
  revert i r. induction D as [|d D IH]; intros i [|x r] Hi Hl; simpl in Hi, Hl; try lia.
  destruct i as [|i]; cbn [upd nth]; rewrite !dot_cons.
  - ring.
  - rewrite (IH i r) at 1 by lia. ring.
Qed.

Lemma squares_upd i (r : list F) : squares (upd r i f0) = upd (squares r) i f0.
Proof.
  revert i. induction r as [|x r IH]; intros [|i]; unfold squares in *; cbn [upd map]; try reflexivity.
  all: apply f_equal2; [ring | easy || apply IH].
Qed.

Lemma upd_upd {A} (l : list A) i x y : upd (upd l i x) i y = upd l i y.
Proof. revert i. induction l as [|a l IH]; intros [|i]; cbn [upd]; try easy. f_equal. apply IH. Qed.
Lemma upd_comm {A} (l : list A) i j x y : i <> j -> upd (upd l i x) j y = upd (upd l j y) i x.
Proof. revert i j. induction l as [|a l IH]; intros [|i] [|j] H; cbn [upd]; try easy. f_equal. apply IH. lia. Qed.

(** The polynomial that the two rounds evaluate. *)
Definition sketch_poly (a b c A B : F) (D K r : list F) : F :=
  let z0 := fadd a (dot D r) in
  fadd (fadd (fsub (fsub (fmul z0 z0) (fadd b (dot D (squares r)))) (fadd c (dot K r))) (fmul A z0)) B.

Definition lin_coef (a A : F) (D K : list F) i (r : list F) : F :=
  let s := fadd a (dot D (upd r i f0)) in
  let d := nth i D f0 in
  fadd (fsub (fmul d (fadd s s)) (nth i K f0)) (fmul A d).
Definition quad_coefs (a b c A B : F) (D K : list F) i (r : list F) : list F :=
  let r' := upd r i f0 in
  let d := nth i D f0 in
  [sketch_poly a b c A B D K r'; lin_coef a A D K i r; fsub (fmul d d) d].

Lemma sketch_poly_quad a b c A B D K i r : i < length r -> length D = length r -> length K = length r ->
  sketch_poly a b c A B D K r = peval (quad_coefs a b c A B D K i r) (nth i r f0).
Proof.
  intros Hi HD HK. unfold quad_coefs, sketch_poly, lin_coef. cbv zeta. cbn [peval].
  rewrite (dot_upd i D r) at 1 2 3 by easy. rewrite (dot_upd i K r) at 1 by easy.
  rewrite (dot_upd i D (squares r)) at 1 by (unfold squares; rewrite ?map_length; easy).
  rewrite squares_upd.
  assert (E : nth i (squares r) f0 = fmul (nth i r f0) (nth i r f0)).
  { unfold squares. now rewrite (nth_map' _ _ _ f0) by easy. }
  rewrite E. ring.
Qed.

Lemma quad_coefs_upd a b c A B D K i r x : quad_coefs a b c A B D K i (upd r i x) = quad_coefs a b c A B D K i r.
Proof. unfold quad_coefs, lin_coef. now rewrite upd_upd. Qed.

Lemma lin_coef_lin a A D K i j r : i <> j -> i < length r -> j < length r -> length D = length r ->
  nth i D f0 = f1 -> nth j D f0 = f1 ->
  lin_coef a A D K i r = peval [lin_coef a A D K i (upd r j f0); fadd f1 f1] (nth j r f0).
Proof.
  intros Hij Hi Hj HD Di Dj. unfold lin_coef. cbv zeta. cbn [peval].
  rewrite (dot_upd j D (upd r i f0)) by (rewrite ?length_upd; easy).
  rewrite Di, Dj, (upd_comm r i j) by easy. rewrite nth_upd_other by easy. ring.
Qed.

Lemma bounded_dec n (f : nat -> bool) : {i | i < n /\ f i = true} + {forall i, i < n -> f i = false}.
Proof.
  induction n as [|n [[i [Hi Hf]]|IH]].
  - right. lia.
  - left. exists i. split; [lia | easy].
  - destruct (f n) eqn:E.
    + left. exists n. split; [lia | easy].
    + right. intros i Hi. destruct (Nat.eq_dec i n) as [->|]; [easy|]. apply IH. lia.
Qed.

Context (Hp : prime (MODULUS P)).

Lemma idem_01 (x : F) : fsub (fmul x x) x = f0 -> x = f0 \/ x = f1.
Proof.
  intros H. assert (E : fmul x (fsub x f1) = f0) by (rewrite <- H; ring).
  apply (fmul_0 Hp) in E. destruct E as [E|E]; [now left|].
  right. transitivity (fadd (fsub x f1) f1); [ring|]. rewrite E. ring.
Qed.

Lemma not_hot n (D : list F) : length D = n -> ~ one_hot n (fun i => nth i D f0) ->
  (exists i, i < n /\ fsub (fmul (nth i D f0) (nth i D f0)) (nth i D f0) <> f0) \/
  (exists i j, i <> j /\ i < n /\ j < n /\ nth i D f0 = f1 /\ nth j D f0 = f1).
Proof.
  intros HD HN.
  destruct (bounded_dec n (fun i => negb (feqb (fsub (fmul (nth i D f0) (nth i D f0)) (nth i D f0)) f0))) as [(i & Hi & E)|H].
  { left. exists i. split; [easy|]. apply Bool.negb_true_iff in E. intros X. rewrite (proj2 (feqb_eq _ _) X) in E. discriminate. }
  assert (H01 : forall i, i < n -> nth i D f0 = f0 \/ nth i D f0 = f1).
  { intros i Hi. specialize (H i Hi). apply Bool.negb_false_iff, feqb_eq in H. now apply idem_01. }
  right.
  destruct (bounded_dec n (fun i => negb (feqb (nth i D f0) f0))) as [(i & Hi & E)|H0].
  2:{ exfalso. apply HN. exists n. intros i Hi. specialize (H0 i Hi). apply Bool.negb_false_iff, feqb_eq in H0.
      rewrite (proj2 (Nat.eqb_neq _ _)) by lia. exact H0. }
  assert (Di : nth i D f0 = f1).
  { destruct (H01 i Hi) as [E1|]; [|easy]. rewrite (proj2 (feqb_eq _ _) E1) in E. discriminate. }
  destruct (bounded_dec n (fun j => negb (j =? i) && negb (feqb (nth j D f0) f0))) as [(j & Hj & Ej)|H0].
  - apply Bool.andb_true_iff in Ej. destruct Ej as [E1 E2]. apply Bool.negb_true_iff, Nat.eqb_neq in E1.
    exists i, j. repeat apply conj; try easy; [congruence|].
    destruct (H01 j Hj) as [E3|]; [|easy]. rewrite (proj2 (feqb_eq _ _) E3) in E2. discriminate.
  - exfalso. apply HN. exists i. intros j Hj. destruct (j =? i) eqn:E1; [apply Nat.eqb_eq in E1; now subst|].
    specialize (H0 j Hj). cbv beta in H0. rewrite E1 in H0. cbn [negb andb] in H0. now apply Bool.negb_false_iff, feqb_eq in H0.
Qed.

Lemma filter_split {A} (f : A -> bool) l : length l = length (filter f l) + length (filter (fun x => negb (f x)) l).
Proof. induction l as [|x l IH]; cbn [filter length]; [easy|]. destruct (f x); cbn [negb length]; lia. Qed.

Theorem sketch_bound n a b c A B (D K : list F) (Q : list (list F)) : (2 < MODULUS P)%Z ->
  length D = n -> length K = n -> ~ one_hot n (fun i => nth i D f0) -> NoDup Q ->
  (forall r, In r Q -> length r = n /\ sketch_poly a b c A B D K r = f0) ->
  (Z.of_nat (length Q) <= 2 * MODULUS P ^ (Z.of_nat n - 1))%Z.
Proof.
  intros H2 HD HK HN HNd HQ.
  destruct (not_hot n D HD HN) as [(i & Hi & Hq)|(i & j & Hij & Hi & Hj & Di & Dj)];
  replace (Z.of_nat n - 1)%Z with (Z.of_nat (n - 1)) by lia.
  - apply (count_poly Hp n 2 i Q (quad_coefs a b c A B D K i) Hi HNd).
    + intros v Hv. split; [|easy]. intros Hz. apply Hq. unfold quad_coefs in Hz. cbv zeta in Hz.
      rewrite allzero_nth in Hz. exact (Hz 2).
    + intros. apply quad_coefs_upd.
    + intros v Hv. destruct (HQ v Hv) as [Hl E]. split; [easy|]. rewrite <- (sketch_poly_quad a b c A B D K i v); [exact E| congruence ..].
  - rewrite (filter_split (fun r => feqb (lin_coef a A D K i r) f0) Q).
    set (Q1 := filter (fun r => feqb (lin_coef a A D K i r) f0) Q).
    set (Q2 := filter (fun r => negb (feqb (lin_coef a A D K i r) f0)) Q).
    assert (N11 : fadd f1 f1 <> @f0 P).
    { intros E. apply (f_equal val) in E. unfold f1, f0 in E. rewrite <- fof_add, !val_fof_small in E by lia. lia. }
    assert (B1 : (Z.of_nat (length Q1) <= Z.of_nat 1 * MODULUS P ^ Z.of_nat (n - 1))%Z).
    { apply (count_poly Hp n 1 j Q1 (fun r => [lin_coef a A D K i (upd r j f0); fadd f1 f1]) Hj); [now apply NoDup_filter| | |].
      - intros v Hv. split; [|easy]. intros Hz. apply N11. rewrite allzero_nth in Hz. exact (Hz 1).
      - intros v x Hv. now rewrite upd_upd.
      - intros v Hv. apply filter_In in Hv. destruct Hv as [Hv E]. apply feqb_eq in E. destruct (HQ v Hv) as [Hl _].
        split; [easy|]. rewrite <- (lin_coef_lin a A D K i j v); [exact E| congruence ..]. }
    assert (B2 : (Z.of_nat (length Q2) <= Z.of_nat 1 * MODULUS P ^ Z.of_nat (n - 1))%Z).
    { apply (count_poly Hp n 1 i Q2 (fun r => if feqb (lin_coef a A D K i r) f0 then [f1]
         else [sketch_poly a b c A B D K (upd r i f0); lin_coef a A D K i r]) Hi); [now apply NoDup_filter| | |].
      - intros v Hv. destruct (feqb (lin_coef a A D K i v) f0) eqn:E.
        + split; [|simpl; lia]. intros Hz. rewrite allzero_nth in Hz. specialize (Hz 0). cbn [nth] in Hz.
          apply (f_equal val) in Hz. unfold f1, f0 in Hz. rewrite !val_fof_small in Hz by lia. lia.
        + split; [|easy]. intros Hz. rewrite allzero_nth in Hz. specialize (Hz 1). cbn [nth] in Hz.
          rewrite Hz, (proj2 (feqb_eq _ _) eq_refl) in E. discriminate.
      - intros v x Hv. unfold lin_coef. now rewrite upd_upd.
      - intros v Hv. apply filter_In in Hv. destruct Hv as [Hv E]. apply Bool.negb_true_iff in E. rewrite E.
        destruct (HQ v Hv) as [Hl E2]. split; [easy|].
        rewrite (sketch_poly_quad a b c A B D K i v) in E2 by congruence. transitivity (peval (quad_coefs a b c A B D K i v) (nth i v f0)); [|exact E2].
        unfold quad_coefs. cbv zeta. cbn [peval]. rewrite Di. ring. }
    rewrite Nat2Z.inj_add. lia.
Qed.
End DotFacts.

Section Run.
Context (p : Poplar1).
Notation Pi := (id_field_inner (p1_idpf p)).
Notation Pl := (id_field_leaf (p1_idpf p)).

Lemma sketch_run_poly {P : FieldClass} inj (V : View p P inj) ctx lv prefixes A0 B0 A1 B1 a0 b0 c0 a1 b1 c1 v0 v1 (r : list (F P)) :
  length v0 = length r -> length v1 = length r -> Forall (fun v => length v = 2) v0 -> Forall (fun v => length v = 2) v1 ->
  sketch_run p inj ctx (lv, prefixes) (A0, B0) (A1, B1) (a0, b0, c0) (a1, b1, c1) v0 v1 r
  = if (fint (sketch_poly (fadd a0 a1) (fadd b0 b1) (fadd c0 c1) (fadd A0 A1) (fadd B0 B1)
        (zip_with fadd (data_of v0) (data_of v1)) (zip_with fadd (auth_of v0) (auth_of v1)) r) =? 0)%Z
    then Ok None else Raise (ValueError "sketch verification failed").
Proof.
  intros L0 L1 F0 F1. unfold sketch_run. cbn [fst snd].
  rewrite (sketch_loop_ok r v0) by easy. cbn [bind].
  rewrite (sketch_loop_ok r v1) by easy. cbn [bind].
  unfold p1_verifier_shares_to_message at 1. cbn [length Nat.eqb check bind].
  match goal with |- context [get [?x; ?y] 0] => change (get [x; y] 0) with (Ok x); change (get [x; y] 1) with (Ok y) end. cbn [bind].
  rewrite (vw_add _ _ _ V). rewrite vec_add_ok by easy. cbn [bind]. rewrite (vw_len _ _ _ V).
  pose proof (msg1_sum P [a0; b0; c0] [a1; b1; c1] v0 v1 r ltac:(congruence) eq_refl eq_refl) as HM.
  cbv zeta in HM. unfold sk in HM. cbn [nth zip_with] in HM.
  cbn [zip_with]. rewrite HM. clear HM.
  set (D := zip_with fadd (data_of v0) (data_of v1)). set (K := zip_with fadd (auth_of v0) (auth_of v1)).
  set (z0 := fadd (fadd a0 a1) (dot D r)). set (z1 := fadd (fadd b0 b1) (dot D (squares r))).
  set (z2 := fadd (fadd c0 c1) (dot K r)). cbn [length Nat.eqb bind].
  set (mv := fsub (fsub (fpow z0 2) z1) z2).
  assert (EN : forall j A B (d : list (F P)), p1_verify_next p ctx (EVALUATE_SKETCH, lv, inj (A :: B :: j :: d)) (Some (inj [z0; z1; z2]))
    = Ok (inl ((REVEAL_SKETCH, lv, inj d), inj [fadd (fadd (fmul j mv) (fmul A z0)) B]))).
  { intros j A B d. rewrite (vw_next _ _ _ V). cbn [length Nat.eqb check bind].
    unfold sketch_terms_in. cbn [get nth_error bind]. fold mv. unfold evaluate_in.
    cbn [get nth_error bind skipn]. now rewrite !fof_val. }
  cbn [app]. rewrite !EN. cbn [bind].
  unfold p1_verifier_shares_to_message. cbn [length Nat.eqb check bind].
  match goal with |- context [get [?x; ?y] 0] => change (get [x; y] 0) with (Ok x); change (get [x; y] 1) with (Ok y) end. cbn [bind].
  rewrite (vw_add _ _ _ V). rewrite vec_add_ok by easy. cbn [bind zip_with]. rewrite (vw_len _ _ _ V). cbn [length Nat.eqb].
  rewrite (vw_vals _ _ _ V). cbn [map nth].
  match goal with |- context [fint ?x] => assert (EZ : x = sketch_poly (fadd a0 a1) (fadd b0 b1) (fadd c0 c1) (fadd A0 A1) (fadd B0 B1) D K r) end.
  { unfold sketch_poly. cbv zeta. fold z0 z1 z2. unfold mv. rewrite fpow_2. change (fof 0) with (@f0 P). change (fof 1) with (@f1 P).
    clear. generalize (fsub (fsub (fmul z0 z0) z1) z2) as w. intros w.
    rewrite <- (fof_val w), <- (fof_val A0), <- (fof_val A1), <- (fof_val B0), <- (fof_val B1), <- (fof_val z0).
    unfold f0, f1. rewrite <- ?fof_mul, <- ?fof_add, <- ?fof_mul, <- ?fof_add. f_equal. ring. }
  now rewrite EZ.
Qed.

Lemma fint_zero {P : FieldClass} (x : F P) : fint x = 0%Z -> x = f0.
Proof. intros E. unfold fint in E. rewrite <- (fof_val x), E. reflexivity. Qed.

Theorem sketch_sound {P : FieldClass} inj (V : View p P inj) (Hp : prime (MODULUS P)) ctx ap AB0 AB1 abc0 abc1 v0 v1 n (Q : list (list (F P))) :
  length v0 = n -> length v1 = n -> Forall (fun v => length v = 2) v0 -> Forall (fun v => length v = 2) v1 ->
  ~ one_hot n (sum_part 0 v0 v1) -> NoDup Q ->
  (forall r, In r Q -> length r = n /\ exists m, sketch_run p inj ctx ap AB0 AB1 abc0 abc1 v0 v1 r = Ok m) ->
  (Z.of_nat (length Q) <= 2 * MODULUS P ^ (Z.of_nat n - 1))%Z.
Proof.
  intros L0 L1 F0 F1 HN HNd HQ. destruct ap as [lv prefixes], AB0 as [A0 B0], AB1 as [A1 B1], abc0 as [[a0 b0] c0], abc1 as [[a1 b1] c1].
  set (D := zip_with fadd (data_of v0) (data_of v1)). set (K := zip_with fadd (auth_of v0) (auth_of v1)).
  apply (sketch_bound Hp n (fadd a0 a1) (fadd b0 b1) (fadd c0 c1) (fadd A0 A1) (fadd B0 B1) D K Q).
  - apply (vw_mod _ _ _ V).
  - unfold D, data_of. rewrite zip_with_length, !map_length. lia.
  - unfold K, auth_of. rewrite zip_with_length, !map_length. lia.
  - intros [t Ht]. apply HN. exists t. intros i Hi. rewrite <- Ht by easy. unfold sum_part, D, data_of.
    rewrite (nth_zip_with _ _ _ _ f0 f0) by (rewrite map_length; lia). now rewrite !(nth_map' _ _ _ []) by lia.
  - exact HNd.
  - intros r Hr. destruct (HQ r Hr) as [Hl [m E]]. split; [easy|].
    rewrite (sketch_run_poly inj V) in E by (try easy; congruence). fold D K in E.
    destruct (fint _ =? 0)%Z eqn:E1; [|discriminate]. apply Z.eqb_eq in E1. exact (fint_zero _ E1).
Qed.

(** The verification key enters [verify_init] only through the verification randomness. *)
Lemma init_key P usage ff AB ctx j lv k nonce seed value :
  (exists e, forall key, verify_init_in p P usage ff AB key ctx j lv k nonce seed value = Raise e) \/
  (exists A B a b c, AB = [A; B] /\ forall key, verify_init_in p P usage ff AB key ctx j lv k nonce seed value =
     let* r := verify_rand_of p P key ctx nonce lv k in
     let* (s, o) := sketch_loop r value a b c in
     let* id := field_init (Z.of_nat j) in
     Ok ([A; B; id] ++ o, s)).
Proof.
  unfold verify_init_in.
  destruct (p1_dst usage ctx) as [dst|e]; [|left; exists e; easy]. cbn [bind].
  destruct (byte_of (Z.of_nat j)) as [b|e]; [|left; exists e; easy]. cbn [bind].
  destruct (xof_init (p1_xof p) seed dst (b ++ nonce)) as [st|e]; [|left; exists e; easy]. cbn [bind].
  match goal with |- context [bind (match ff with Some _ => _ | None => _ end) _] => destruct (match ff with
             | Some n => let* (_, st) := next_vec (p1_xof p) P st n in Ok st
             | None => Ok st
             end) as [st'|e]; [|left; exists e; easy] end. cbn [bind].
  destruct (next_vec (p1_xof p) P st' 3) as [[abc st2]|e]; [|left; exists e; easy]. cbn [bind].
  destruct abc as [|x0 [|x1 [|x2 [|]]]]; try (left; eexists; intros; reflexivity).
  destruct AB as [|A [|B [|]]]; try (left; eexists; intros; reflexivity).
  right. exists A, B, x0, x1, x2. split; easy.
Qed.

Context (lim : Z) (HO : Poplar1Ok p lim).

Lemma eval_shapes j ps key lv prefixes ctx nonce out : ctx_ok ctx -> length key = id_KEY_SIZE (p1_idpf p) ->
  idpf_public_wf (p1_idpf p) ps -> idpf_eval (p1_idpf p) j ps key lv prefixes ctx nonce = Ok out ->
  j < 2 /\ length out = length prefixes /\ forall P, Forall (fun v => length v = 2) (map (fv_as P) out).
Proof.
  intros Hc Hk Hw H. pose proof H as H0. unfold idpf_eval in H0. apply bind_Ok in H0. destruct H0 as (? & Hj & H0).
  apply check_Ok, Nat.ltb_lt in Hj. apply bind_Ok in H0. destruct H0 as (? & Hl & _). apply check_Ok in Hl.
  replace lv with (Z.of_nat (Z.to_nat lv)) in H by lia.
  destruct (eval_Ok_level p lim HO j ps key (Z.to_nat lv) prefixes ctx nonce out Hc Hk Hw H) as [Lo Fo].
  split; [exact Hj|]. split; [exact Lo|]. intros P. apply Forall_forall. intros z Hx. apply in_map_iff in Hx.
  destruct Hx as (y & <- & Hy). rewrite Forall_forall in Fo. specialize (Fo y Hy).
  destruct y as [l|l]; destruct Fo as [_ Fo]; cbn [fv_as]; now rewrite map_length.
Qed.

Theorem verify_init_key_inner ctx j lv prefixes nonce ps is : ctx_ok ctx -> length (fst (fst (fst is))) = id_KEY_SIZE (p1_idpf p) -> idpf_public_wf (p1_idpf p) ps ->
  level_is_inner p lv = true ->
  (exists e, forall key, p1_verify_init p key ctx j (lv, prefixes) nonce ps is = Raise e) \/
  (exists A B a b c value, length value = length prefixes /\ Forall (fun v => length v = 2) value /\
   forall key, p1_verify_init p key ctx j (lv, prefixes) nonce ps is =
     let* r := verify_rand_of p Pi key ctx nonce lv (length prefixes) in
     let* (s, o) := sketch_loop r value a b c in
     Ok ((EVALUATE_SKETCH, lv, Inner ([A; B; fof (Z.of_nat j)] ++ o)), Inner s)).
Proof.
  intros Hc Hk Hw Hl. destruct is as [[[k seed] ci] cl]. unfold p1_verify_init. rewrite Hl.
  destruct (idpf_eval (p1_idpf p) j ps k lv prefixes ctx nonce) as [out|e] eqn:Ev; [|left; exists e; easy]. cbn [bind].
  destruct (eval_shapes j ps k lv prefixes ctx nonce out Hc Hk Hw Ev) as (Hj & Lo & Fo).
  destruct (init_key Pi USAGE_CORR_INNER (Some (3 * Z.to_nat lv)) (slice ci (2 * Z.to_nat lv) (2 * (Z.to_nat lv + 1))) ctx j lv (length prefixes) nonce seed
    (map (fv_as Pi) out)) as [[e H]|(A & B & a & b & c & EAB & H)].
  - left. exists e. intros key. now rewrite H.
  - right. exists A, B, a, b, c, (map (fv_as Pi) out).
    split; [now rewrite map_length|]. split; [apply Fo|]. intros key. rewrite H, bind_assoc. apply bind_ext. intros r _.
    rewrite bind_assoc. apply bind_ext. intros [s o] _.
    rewrite field_init_ok by (pose proof (pk_inner _ _ HO); lia). easy.
Qed.

Theorem verify_init_key_leaf ctx j lv prefixes nonce ps is : ctx_ok ctx -> length (fst (fst (fst is))) = id_KEY_SIZE (p1_idpf p) -> idpf_public_wf (p1_idpf p) ps ->
  level_is_inner p lv = false ->
  (exists e, forall key, p1_verify_init p key ctx j (lv, prefixes) nonce ps is = Raise e) \/
  (exists A B a b c value, length value = length prefixes /\ Forall (fun v => length v = 2) value /\
   forall key, p1_verify_init p key ctx j (lv, prefixes) nonce ps is =
     let* r := verify_rand_of p Pl key ctx nonce lv (length prefixes) in
     let* (s, o) := sketch_loop r value a b c in
     Ok ((EVALUATE_SKETCH, lv, Leaf ([A; B; fof (Z.of_nat j)] ++ o)), Leaf s)).
Proof.
  intros Hc Hk Hw Hl. destruct is as [[[k seed] ci] cl]. unfold p1_verify_init. rewrite Hl.
  destruct (idpf_eval (p1_idpf p) j ps k lv prefixes ctx nonce) as [out|e] eqn:Ev; [|left; exists e; easy]. cbn [bind].
  destruct (eval_shapes j ps k lv prefixes ctx nonce out Hc Hk Hw Ev) as (Hj & Lo & Fo).
  destruct (init_key Pl USAGE_CORR_LEAF None cl ctx j lv (length prefixes) nonce seed
    (map (fv_as Pl) out)) as [[e H]|(A & B & a & b & c & EAB & H)].
  - left. exists e. intros key. now rewrite H.
  - right. exists A, B, a, b, c, (map (fv_as Pl) out).
    split; [now rewrite map_length|]. split; [apply Fo|]. intros key. rewrite H, bind_assoc. apply bind_ext. intros r _.
    rewrite bind_assoc. apply bind_ext. intros [s o] _.
    rewrite field_init_ok by (pose proof (pk_leaf _ _ HO); lia). easy.
Qed.
End Run.
