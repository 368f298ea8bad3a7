(** Gadgets: pointwise evaluation and polynomial composition agree. *)
From Verif Require Import Base Common Field Poly FlpBBCGGI19 CircuitSpec Spec BaseFacts CommonFacts FieldFacts
  PolyAlg Roots NttFacts PolyFacts LagrangeFacts.
Open Scope nat_scope.

Lemma np2_spec n : 1 <= n -> n <= np2 n < 2 * n.
Proof.
  intros H. unfold np2.
  destruct (bit_length_spec (Z.of_nat n - 1)) as (H1 & H2 & H3); [lia|].
  set (b := bit_length (Z.of_nat n - 1)) in *.
  assert (E : Z.of_nat (2 ^ b) = (2 ^ Z.of_nat b)%Z) by apply pow2_nat_Z.
  split; [lia|].
  destruct (Z.eq_dec (Z.of_nat n - 1) 0) as [Z0|NZ].
  - rewrite H3 by easy. cbn. lia.
  - specialize (H2 NZ). destruct b as [|b].
    + cbn in E, H1. lia.
    + replace (Z.of_nat (S b) - 1)%Z with (Z.of_nat b) in H2 by lia.
      rewrite <- pow2_nat_Z in H2. cbn [Nat.pow]. lia.
Qed.

Lemma pow2_range_unique a b n : n <= 2 ^ a -> 2 ^ a < 2 * n -> n <= 2 ^ b -> 2 ^ b < 2 * n -> a = b.
Proof.
  intros Ha1 Ha2 Hb1 Hb2.
  destruct (lt_eq_lt_dec a b) as [[H|H]|H]; [|easy|]; exfalso.
  - assert (2 ^ S a <= 2 ^ b) by (apply Nat.pow_le_mono_r; lia). cbn [Nat.pow] in *. lia.
  - assert (2 ^ S b <= 2 ^ a) by (apply Nat.pow_le_mono_r; lia). cbn [Nat.pow] in *. lia.
Qed.

Lemma np2_unique n k : n <= 2 ^ k -> 2 ^ k < 2 * n -> np2 n = 2 ^ k.
Proof.
  intros H1 H2. assert (1 <= n) by lia. pose proof (np2_spec n H) as [H3 H4].
  unfold np2 in *. f_equal. eapply pow2_range_unique; eassumption.
Qed.

Lemma np2_next n : 1 <= n -> next_power_of_2_nat n = Ok (np2 n).
Proof.
  intros H. unfold next_power_of_2_nat. rewrite next_power_of_2_ok by lia. cbn [bind].
  f_equal. unfold np2. rewrite <- pow2_nat_Z. apply Nat2Z.id.
Qed.

(** [wire_poly_len n = 2 ^ wlog n]. *)
Lemma wire_poly_len_pow calls : wire_poly_len calls = 2 ^ wlog calls.
Proof. reflexivity. Qed.
Lemma wlog_bound calls : S calls <= 2 ^ wlog calls.
Proof. rewrite <- wire_poly_len_pow. unfold wire_poly_len. pose proof (np2_spec (1 + calls) ltac:(lia)). lia. Qed.
Lemma wlog_pos calls : 1 <= calls -> 1 <= wlog calls.
Proof.
  intros H. pose proof (wlog_bound calls) as H0. destruct (wlog calls) eqn:E; [cbn in H0; lia | lia].
Qed.

(** [np2 (gadget_poly_len (DEGREE g) (2^L)) = 2 ^ glog g L]. *)
Lemma glog_pow g L : np2 (gadget_poly_len (DEGREE g) (2 ^ L)) = 2 ^ glog g L.
Proof. reflexivity. Qed.
Lemma glen_pos g L : 1 <= glen g L.
Proof. unfold glen, gadget_poly_len. rewrite Nat.add_1_r. apply le_n_S, Nat.le_0_l. Qed.
Lemma glog_bound g L : glen g L <= 2 ^ glog g L < 2 * glen g L.
Proof. apply np2_spec, glen_pos. Qed.

Lemma pow2_pos L : 1 <= 2 ^ L.
Proof. induction L; cbn [Nat.pow]; lia. Qed.

Section Gadgets.
Context {P : NttFieldClass}.
Notation F := (F P).
Add Ring FringG : (@F_ring P).

Notation gwf := (gwf P).

Lemma gwf_arity L g : gwf L g -> 1 <= ARITY g.
Proof.
  induction g as [| |sub IH count]; cbn [gwf ARITY]; try lia.
  intros [H1 H2]. specialize (IH H1). nia.
Qed.
Lemma gwf_degree L g : gwf L g -> 1 <= DEGREE g.
Proof.
  induction g as [| |sub IH count]; cbn [gwf DEGREE]; [lia | lia |].
  intros [H1 H2]. now apply IH.
Qed.

(** Composition of polynomials. *)
Fixpoint pcomp (p c : list F) : list F :=
  match p with
  | [] => []
  | [a] => [a]
  | a :: q => padd [a] (pmul c (pcomp q c))
  end.
Fixpoint psum (n : nat) (f : nat -> list F) : list F :=
  match n with
  | O => []
  | S m => padd (psum m f) (f m)
  end.
Fixpoint gcomp (g : gadget) (cs : list (list F)) : list F :=
  match g with
  | Mul => pmul (nth 0 cs []) (nth 1 cs [])
  | PolyEval p _ => pcomp (map fof p) (nth 0 cs [])
  | ParallelSum sub count =>
    psum count (fun i => gcomp sub (slice cs (i * ARITY sub) ((i + 1) * ARITY sub)))
  end.

Lemma peval_pcomp p c x : peval (pcomp p c) x = peval p (peval c x).
Proof.
  induction p as [|a [|b q] IH]; [easy | cbn; ring |].
  change (pcomp (a :: b :: q) c) with (padd [a] (pmul c (pcomp (b :: q) c))).
  rewrite peval_padd, peval_pmul, IH. cbn [peval]. ring.
Qed.

Lemma pcomp_length p c : 1 <= length c -> 1 <= length p ->
  length (pcomp p c) = (length p - 1) * (length c - 1) + 1.
Proof.
  intros Hc. induction p as [|a [|b q] IH]; intros Hp; [cbn in Hp; lia | cbn; lia |].
  change (pcomp (a :: b :: q) c) with (padd [a] (pmul c (pcomp (b :: q) c))).
  assert (IH' := IH ltac:(cbn; lia)).
  assert (1 <= length (pcomp (b :: q) c)) by (rewrite IH', Nat.add_1_r; apply le_n_S, Nat.le_0_l).
  rewrite padd_length, pmul_length_strong by lia. rewrite IH'. cbn [length].
  replace (S (S (length q)) - 1) with (S (length q)) by lia.
  replace (S (length q) - 1) with (length q) by lia. nia.
Qed.

Lemma peval_psum n f x : peval (psum n f) x = fsum n (fun i => peval (f i) x).
Proof.
  induction n as [|n IH]; [easy|]. cbn [psum fsum]. now rewrite peval_padd, IH.
Qed.

Lemma psum_length n f m : (forall i, i < n -> length (f i) <= m) -> length (psum n f) <= m.
Proof.
  induction n as [|n IH]; intros H; cbn [psum]; [cbn; lia|].
  rewrite padd_length. assert (length (psum n f) <= m) by (apply IH; intros; apply H; lia).
  specialize (H n ltac:(lia)). lia.
Qed.

Lemma slice_map {A B} (f : A -> B) l a b : slice (map f l) a b = map f (slice l a b).
Proof. unfold slice. now rewrite skipn_map, firstn_map. Qed.

Lemma slice_arity {A} (l : list A) ar count i : length l = ar * count -> i < count ->
  length (slice l (i * ar) ((i + 1) * ar)) = ar.
Proof. intros H Hi. rewrite slice_length by nia. nia. Qed.

Lemma slice_incl {A} (l : list A) a b x : In x (slice l a b) -> In x l.
Proof.
  unfold slice. intros H.
  assert (H1 : In x (skipn a l)).
  { rewrite <- (firstn_skipn (b - a) (skipn a l)). apply in_or_app. now left. }
  rewrite <- (firstn_skipn a l). apply in_or_app. now right.
Qed.

Lemma gcomp_length L g cs : gwf L g -> length cs = ARITY g ->
  (forall c, In c cs -> length c = 2 ^ L) -> length (gcomp g cs) <= glen g L.
Proof.
  revert cs. pose proof (pow2_pos L) as HL. unfold glen, gadget_poly_len.
  induction g as [|p n|sub IH count]; intros cs Hg Ha Hc.
  - destruct cs as [|c0 [|c1 []]]; try discriminate. cbn [gcomp nth DEGREE].
    pose proof (Hc c0 ltac:(now left)). pose proof (Hc c1 ltac:(right; now left)).
    rewrite pmul_length_strong by lia. lia.
  - destruct cs as [|c0 []]; try discriminate. cbn [gcomp nth DEGREE].
    pose proof (Hc c0 ltac:(now left)). destruct Hg as (_ & Hp & _).
    rewrite pcomp_length by (rewrite ?map_length; lia). rewrite map_length, H. lia.
  - cbn [gcomp DEGREE]. destruct Hg as [Hg Hcnt]. apply psum_length. intros i Hi.
    cbn [ARITY] in Ha. apply IH; [easy | now apply slice_arity with count |].
    intros c Hin. apply Hc. eapply slice_incl; eassumption.
Qed.

Lemma check_eval_ok g (inp : list F) : length inp = ARITY g -> check_gadget_eval g inp = Ok tt.
Proof. intros H. unfold check_gadget_eval. now rewrite H, Nat.eqb_refl. Qed.

Lemma check_eval_poly_ok g (inp : list (list F)) n : length inp = ARITY g ->
  (forall q, In q inp -> length q = n) -> check_gadget_eval_poly g inp = Ok tt.
Proof.
  intros H1 H2. unfold check_gadget_eval_poly. rewrite H1, Nat.eqb_refl. cbn [check bind].
  rewrite (proj2 (forallb_forall _ _)); [easy|]. intros q Hq. apply Nat.eqb_eq.
  rewrite (H2 q Hq). destruct inp as [|q0 inp]; [destruct Hq|]. cbn. symmetry. apply H2. now left.
Qed.

Lemma mapM_field_init p : Forall (fun c => - MODULUS P < c < MODULUS P)%Z p ->
  mapM field_init p = Ok (map fof p : list F).
Proof.
  intros H. apply mapM_map. intros x Hx. apply field_init_ok.
  rewrite Forall_forall in H. now apply H.
Qed.

(** Pure value of a gadget (meaningful for inputs of length ARITY). *)
Fixpoint gval (g : gadget) (inp : list F) : F :=
  match g with
  | Mul => fmul (nth 0 inp f0) (nth 1 inp f0)
  | PolyEval p _ => peval (map fof p) (nth 0 inp f0)
  | ParallelSum sub count =>
    fsum count (fun i => gval sub (slice inp (i * ARITY sub) ((i + 1) * ARITY sub)))
  end.

Lemma gadget_eval_gval L g inp : gwf L g -> length inp = ARITY g ->
  gadget_eval g inp = Ok (gval g inp).
Proof.
  revert inp. induction g as [|p n|sub IH count]; intros inp Hg Ha; cbn [gadget_eval gval].
  - rewrite check_eval_ok by easy. cbn [bind].
    destruct inp as [|a [|b []]]; try discriminate. reflexivity.
  - rewrite check_eval_ok by easy. cbn [bind]. destruct Hg as (_ & Hp & Hr & Hz).
    rewrite mapM_field_init by easy. cbn [bind].
    destruct inp as [|a []]; try discriminate. cbn.
    apply poly_eval_spec. now right.
  - rewrite check_eval_ok by easy. cbn [bind]. destruct Hg as [Hg Hc]. cbn [ARITY] in Ha.
    destruct (for_range_inv (fun i r => r = fsum i (fun i => gval sub (slice inp (i * ARITY sub) ((i + 1) * ARITY sub))))
      0 count f0 (fun out i => let* o := gadget_eval sub (slice inp (i * ARITY sub) ((i + 1) * ARITY sub)) in Ok (fadd out o)))
      as (r & -> & ->); [lia | easy | | easy].
    intros i r Hi ->. rewrite IH; [|easy|now apply slice_arity with count].
    cbn [bind]. eexists. split; reflexivity.
Qed.

Lemma gval_peval L g cs x : gwf L g -> length cs = ARITY g ->
  gval g (map (fun c => peval c x) cs) = peval (gcomp g cs) x.
Proof.
  revert cs. induction g as [|p n|sub IH count]; intros cs Hg Ha; cbn [gval gcomp].
  - destruct cs as [|a [|b []]]; try discriminate. cbn. now rewrite peval_pmul.
  - destruct cs as [|a []]; try discriminate. cbn. now rewrite peval_pcomp.
  - rewrite peval_psum. apply fsum_ext. intros i Hi. rewrite slice_map.
    destruct Hg as [Hg Hc]. apply IH; [easy|now apply slice_arity with count].
Qed.

Context (HP : NttOk P).

Lemma evals_nil L : evals L [] = repeat (f0 : F) (2 ^ L).
Proof.
  unfold evals. cbn [peval]. generalize (2 ^ L). intros m. generalize 0.
  induction m as [|m IH]; intros a; cbn; [easy|]. now rewrite IH.
Qed.

Lemma zip_add_evals L c d : zip_with fadd (evals L c) (evals L d) = evals L (padd c d : list F).
Proof.
  apply (nth_ext' f0).
  - rewrite zip_with_length, !evals_length. lia.
  - rewrite zip_with_length, !evals_length. intros i Hi.
    rewrite (nth_zip_with _ _ _ _ f0 f0) by (rewrite evals_length; lia).
    rewrite !nth_evals by lia. now rewrite peval_padd.
Qed.

Lemma add_loop (a b : list F) n : length a = n -> length b = n ->
  for_range 0 n a (fun s j => let* x := get s j in let* y := get b j in set s j (fadd x y))
  = Ok (zip_with fadd a b).
Proof.
  intros Ha Hb.
  destruct (for_range_inv (fun i r => length r = n /\ forall j, j < n ->
     nth j r f0 = if j <? i then fadd (nth j a f0) (nth j b f0) else nth j a f0) 0 n a
     (fun s j => let* x := get s j in let* y := get b j in set s j (fadd x y)))
    as (r & E & Hr & Hn); [lia | split; [easy | intros j Hj; destruct (Nat.ltb_spec j 0); [lia | easy]] | |].
  - intros i r Hi [Hr Hn]. rewrite (get_nth _ _ f0) by lia. cbn [bind].
    rewrite (get_nth _ _ f0) by lia. cbn [bind]. rewrite set_lt by lia.
    eexists; split; [reflexivity|]. split; [now rewrite length_upd|]. intros j Hj.
    rewrite nth_upd by lia. destruct (Nat.eqb_spec i j) as [<-|Hne].
    + rewrite Hn by lia. rewrite (proj2 (Nat.ltb_ge i i)) by lia.
      now rewrite (proj2 (Nat.ltb_lt i (S i))) by lia.
    + rewrite Hn by lia. destruct (Nat.ltb_spec j i), (Nat.ltb_spec j (S i)); try lia; easy.
  - rewrite E. f_equal. apply (nth_ext' f0).
    + rewrite zip_with_length. lia.
    + intros i Hi. rewrite (nth_zip_with _ _ _ _ f0 f0) by lia. rewrite Hn by lia.
      now rewrite (proj2 (Nat.ltb_lt i n)) by lia.
Qed.

Lemma gadget_eval_poly_spec L g cs : 1 <= L -> gwf L g -> glog g L <= gen_log P ->
  length cs = ARITY g -> (forall c, In c cs -> length c = 2 ^ L) ->
  gadget_eval_poly g (map (evals L) cs) = Ok (evals (glog g L) (gcomp g cs)).
Proof.
  intros HL. revert cs. pose proof (pow2_pos L) as HL2.
  induction g as [|p n|sub IH count]; intros cs Hg Hlog Ha Hc; cbn [gadget_eval_poly gcomp].
  - rewrite (check_eval_poly_ok _ _ (2 ^ L));
      [|now rewrite map_length | intros q Hq; apply in_map_iff in Hq as (c & <- & _); apply evals_length].
    cbn [bind]. destruct cs as [|a [|b []]]; try discriminate. cbn.
    assert (E : glog Mul L = S L).
    { pose proof (glog_bound Mul L) as [H1 H2]. unfold glen, gadget_poly_len in *. cbn [DEGREE] in *.
      assert (2 <= 2 ^ L) by (change 2 with (2 ^ 1) at 1; apply Nat.pow_le_mono_r; lia).
      eapply pow2_range_unique; [exact H1 | exact H2 | |]; cbn [Nat.pow]; lia. }
    rewrite E in *. apply lag_poly_mul_spec; try easy; rewrite Hc; try lia; [now left | right; now left].
  - rewrite (check_eval_poly_ok _ _ (2 ^ L));
      [|now rewrite map_length | intros q Hq; apply in_map_iff in Hq as (c & <- & _); apply evals_length].
    cbn [bind]. destruct cs as [|a []]; try discriminate. cbn [map get nth_error bind].
    rewrite evals_length. rewrite assert_power_of_2_nat. cbn [bind].
    destruct Hg as (Hn & Hp & Hr & Hz).
    assert (Ha' : length a = 2 ^ L) by (apply Hc; now left).
    assert (HLg : L <= glog (PolyEval p n) L).
    { apply Nat.pow_le_mono_r_iff with 2; [lia|].
      eapply Nat.le_trans; [|apply glog_bound]. unfold glen, gadget_poly_len. cbn [DEGREE]. nia. }
    assert (HLL : L <= gen_log P) by lia.
    rewrite (inv_ntt_ok HP) by easy. cbn [bind].
    rewrite firstn_all2 by (rewrite evals_length; lia).
    rewrite (inv_coeffs_evals HP) by easy.
    rewrite Hn. change (length p - 1) with (DEGREE (PolyEval p n)). rewrite glog_pow.
    rewrite (ntt_evals HP); [|easy|rewrite Ha'; apply Nat.pow_le_mono_r; lia].
    cbn [bind]. rewrite mapM_field_init by easy. cbn [bind].
    rewrite (mapM_map _ (peval (map fof p))); [|intros; apply poly_eval_spec; now right].
    f_equal. unfold evals. rewrite map_map. apply map_ext. intros i. cbn [nth].
    now rewrite peval_pcomp.
  - destruct Hg as [Hg Hcnt]. cbn [ARITY] in Ha.
    rewrite (check_eval_poly_ok _ _ (2 ^ L));
      [|now rewrite map_length | intros q Hq; apply in_map_iff in Hq as (c & <- & _); apply evals_length].
    cbn [bind]. pose proof (gwf_arity _ _ Hg).
    destruct cs as [|c0 cs']; [cbn in Ha; nia|].
    assert (E0 : get (map (evals L) (c0 :: cs')) 0 = Ok (evals L c0)) by reflexivity.
    rewrite E0. cbn [bind]. rewrite evals_length.
    set (cs := c0 :: cs') in *.
    change (glog (ParallelSum sub count) L) with (glog sub L) in *.
    rewrite glog_pow. rewrite <- evals_nil.
    destruct (for_range_inv (fun i r => r = evals (glog sub L) (psum i (fun i => gcomp sub (slice cs (i * ARITY sub) ((i + 1) * ARITY sub)))))
      0 count (evals (glog sub L) []) (fun out_sum i =>
        let* out_current := gadget_eval_poly sub (slice (map (evals L) cs) (i * ARITY sub) ((i + 1) * ARITY sub)) in
        for_range 0 (2 ^ glog sub L) out_sum (fun out_sum0 j =>
          let* s := get out_sum0 j in let* c := get out_current j in set out_sum0 j (fadd s c))))
      as (r & E & ->); [lia | easy | | exact E].
    intros i r Hi ->. rewrite slice_map.
    rewrite IH; [|easy|easy|now apply slice_arity with count|].
    2: { intros c Hin. apply Hc. eapply slice_incl; eassumption. }
    cbn [bind]. rewrite add_loop by apply evals_length. eexists; split; [reflexivity|].
    apply zip_add_evals.
Qed.

End Gadgets.
