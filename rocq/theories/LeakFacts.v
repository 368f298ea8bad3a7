(** What the heavy hitters protocol reveals: proofs. *)
From Verif Require Import LeakSpec HeavyHitters HeavySpec HeavyFacts HeavyRun Poplar1Spec Poplar1 BaseFacts.
From Coq Require Import Permutation Lia.
Open Scope nat_scope.

Lemma levels_agree (q q' : Poplar1AggParam -> res (list Z)) T : forall remaining level history prefixes l h l' h',
  heavy_levels q T remaining level history prefixes = Ok (l, h) -> heavy_levels q' T remaining level history prefixes = Ok (l', h') ->
  (forall ap c c', In ap h -> q ap = Ok c -> q' ap = Ok c' -> c = c') -> l = l' /\ h = h'.
Proof.
  induction remaining as [|remaining IH]; intros level history prefixes l h l' h' E E' A; cbn [heavy_levels] in E, E'.
  - injection E as <- <-. injection E' as <- <-. now split.
  - pose proof E as E0. apply bind_Ok in E. destruct E as (ok & V & E). rewrite V in E'. cbn [bind] in E'.
    apply bind_Ok in E. destruct E as (u & C & E). rewrite C in E'. cbn [bind] in E'.
    apply bind_Ok in E. destruct E as (c & Q & E). apply bind_Ok in E'. destruct E' as (c' & Q' & E').
    assert (In (Z.of_nat level, prefixes) h).
    { destruct ((remaining =? 0) || (length (heavy_prefixes T prefixes c) =? 0)).
      - injection E as _ <-. apply in_or_app. right. now left.
      - destruct (levels_prefix q T _ _ _ _ _ _ E) as (more & ->). apply in_or_app. left. apply in_or_app. right. now left. }
    assert (c = c') by (eapply A; eassumption). subst c'.
    destruct ((remaining =? 0) || (length (heavy_prefixes T prefixes c) =? 0)).
    + injection E as <- <-. injection E' as <- <-. now split.
    + exact (IH _ _ _ _ _ _ _ E E' A).
Qed.

Section Two.
Context (q q' : Poplar1AggParam -> res (list Z)) (T : Z) (bits : nat) (M M' : list (list bool)) (H0 : 0 < bits).
Context (q_exact : forall level prefixes counts, level < bits -> level_ok level prefixes ->
  q (Z.of_nat level, prefixes) = Ok counts -> counts = map (zcount M) prefixes).
Context (q_exact' : forall level prefixes counts, level < bits -> level_ok level prefixes ->
  q' (Z.of_nat level, prefixes) = Ok counts -> counts = map (zcount M') prefixes).
Context (l l' : list (list bool)) (h h' : list Poplar1AggParam).
Context (E : heavy_hitters q T bits = Ok (l, h)) (E' : heavy_hitters q' T bits = Ok (l', h')).

Lemma q_len : forall level prefixes counts, level < bits -> level_ok level prefixes ->
  q (Z.of_nat level, prefixes) = Ok counts -> length counts = length prefixes.
Proof. intros level prefixes counts A B C. rewrite (q_exact level prefixes counts A B C). apply map_length. Qed.

Lemma seen_same : (forall y, in_tree T bits M y -> count_prefix y M = count_prefix y M') -> l = l' /\ seen q h = seen q' h'.
Proof.
  intros A.
  assert (Q : forall ap c c', In ap h -> q ap = Ok c -> q' ap = Ok c' -> c = c').
  { intros ap c c' Hin Q Q'. destruct (heavy_incl q T bits q_len l h E ap Hin) as (k & prefixes & -> & Hk & LO).
    rewrite (q_exact k prefixes c Hk LO Q), (q_exact' k prefixes c' Hk LO Q').
    destruct (exact_tree q T bits M H0 q_exact l h E) as (Lh & TR & _).
    apply In_nth with (d := (0%Z, [])) in Hin. destruct Hin as (i & Hi & Ei). destruct (TR i Hi) as (Fi & Si). rewrite Ei in Fi, Si. cbn [fst snd] in Fi, Si.
    assert (i = k) by lia. subst i. apply map_ext_in. intros y Hy. unfold zcount. f_equal. apply A.
    apply Si in Hy. destruct Hy as (Ly & Hy). split; [lia|]. destruct Hy as [->|Hy]; [now left|]. right. rewrite Ly. replace (S k - 1) with k by lia. exact Hy. }
  destruct (levels_agree q q' T _ _ _ _ _ _ _ _ E E' Q) as (<- & <-). split; [reflexivity|].
  unfold seen. apply map_ext_in. intros ap Hin. f_equal.
  destruct (levels_queried q T _ _ _ _ _ _ E ap Hin) as [[]|(c & Qc)]. destruct (levels_queried q' T _ _ _ _ _ _ E' ap Hin) as [[]|(c' & Qc')].
  rewrite Qc, Qc'. f_equal. exact (Q ap c c' Hin Qc Qc').
Qed.

Lemma seen_history : seen q h = seen q' h' -> h = h'.
Proof. intros X. apply (f_equal (map fst)) in X. unfold seen in X. rewrite !map_map in X. cbn [fst] in X. now rewrite !map_id in X. Qed.

Lemma seen_counts : seen q h = seen q' h' -> forall y, in_tree T bits M y -> count_prefix y M = count_prefix y M'.
Proof.
  intros X y ((L1 & L2) & Hy). pose proof (seen_history X) as Hh.
  destruct (exact_tree q T bits M H0 q_exact l h E) as (Lh & TR & END). set (k := length y - 1).
  assert (Hk : k < length h).
  { destruct END as [->|END]; [unfold k; lia|]. destruct (Nat.lt_ge_cases k (length h)) as [G|G]; [exact G|]. exfalso.
    destruct Hy as [Hy|Hy]; [unfold k in G; lia|]. fold k in Hy.
    assert (Lf : length (firstn (length h) y) = length h) by (rewrite firstn_length; unfold k in G; lia).
    pose proof (END _ Lf) as Hlt. pose proof (zcount_anti M (firstn k y) (length h)) as An. rewrite firstn_firstn, Nat.min_l in An by lia. unfold zcount in An. lia. }
  destruct (TR k Hk) as (Fk & Sk).
  assert (Hin : In y (snd (nth k h (0%Z, [])))).
  { apply Sk. split; [unfold k; lia|]. destruct Hy as [Hy|Hy]; [left; unfold k; lia|right; exact Hy]. }
  pose proof (nth_In h (0%Z, []) Hk) as Hap. remember (nth k h (0%Z, [])) as ap eqn:Eap.
  destruct (heavy_incl q T bits q_len l h E ap Hap) as (k' & prefixes & -> & Hk' & LO). cbn [snd] in Hin.
  destruct (levels_queried q T _ _ _ _ _ _ E _ Hap) as [[]|(c & Qc)].
  assert (Qc' : q' (Z.of_nat k', prefixes) = Ok c).
  { rewrite <- Qc. assert (N : nth k (seen q h) ((0%Z, []), q (0%Z, [])) = ((Z.of_nat k', prefixes), q (Z.of_nat k', prefixes))).
    { unfold seen. rewrite (map_nth (fun ap => (ap, q ap))), <- Eap. reflexivity. }
    rewrite X in N. assert (Hk2 : k < length h') by (rewrite <- Hh; exact Hk).
    assert (N' : nth k (seen q' h') ((0%Z, []), q (0%Z, [])) = (nth k h' (0%Z, []), q' (nth k h' (0%Z, [])))).
    { unfold seen. rewrite (nth_indep _ _ ((fun ap => (ap, q' ap)) (0%Z, []))) by (rewrite map_length; exact Hk2). now rewrite (map_nth (fun ap => (ap, q' ap))). }
    rewrite N' in N. rewrite <- Hh, <- Eap in N. congruence. }
  pose proof (q_exact k' prefixes c Hk' LO Qc) as C1. pose proof (q_exact' k' prefixes c Hk' LO Qc') as C2. rewrite C1 in C2.
  assert (Z0 : zcount M y = zcount M' y).
  { clear -C2 Hin. induction prefixes as [|x prefixes IH]; [destruct Hin|]. cbn [map] in C2. injection C2 as Ex Er. destruct Hin as [->|Hin]; [exact Ex|exact (IH Hin Er)]. }
  unfold zcount in Z0. lia.
Qed.
End Two.

Lemma count_perm y M M' : Permutation M M' -> count_prefix y M = count_prefix y M'.
Proof.
  intros HP. unfold count_prefix. induction HP; cbn.
  - reflexivity.
  - match goal with |- context [if ?b then _ else _] => destruct b; cbn; lia end.
  - repeat match goal with |- context [if ?b then _ else _] => destruct b; cbn end; lia.
  - lia.
Qed.

Section Small.
Context (q q' : Poplar1AggParam -> res (list Z)) (T : Z) (bits : nat) (M M' : list (list bool)) (H0 : 0 < bits).
Context (q_exact : forall level prefixes counts, level < bits -> level_ok level prefixes ->
  q (Z.of_nat level, prefixes) = Ok counts -> counts = map (zcount M) prefixes).
Context (q_exact' : forall level prefixes counts, level < bits -> level_ok level prefixes ->
  q' (Z.of_nat level, prefixes) = Ok counts -> counts = map (zcount M') prefixes).
Context (l l' : list (list bool)) (h h' : list Poplar1AggParam).
Context (E : heavy_hitters q T bits = Ok (l, h)) (E' : heavy_hitters q' T bits = Ok (l', h')).

Theorem seen_small : (T <= 1)%Z -> Forall (fun m => length m = bits) M -> Forall (fun m => length m = bits) M' ->
  seen q h = seen q' h' <-> Permutation M M'.
Proof.
  intros HT HM HM'. split.
  - intros X. apply (Permutation_count_occ (list_eq_dec Bool.bool_dec)). intros y.
    change (holders y M = holders y M').
    destruct (Nat.eq_dec (length y) bits) as [Ly|Ly].
    2: { assert (N : forall M, Forall (fun m => length m = bits) M -> holders y M = 0).
         { intros M0 F0. apply count_occ_not_In. intros Hin. rewrite Forall_forall in F0. exact (Ly (F0 y Hin)). }
         now rewrite !N. }
    assert (C : forall M, Forall (fun m => length m = bits) M -> count_prefix y M = holders y M).
    { intros M0 F0. apply count_holders. eapply Forall_impl; [|exact F0]. cbn beta. intros; lia. }
    rewrite <- !C by assumption.
    pose proof (zcount_anti M y (length y - 1)) as A1. pose proof (zcount_anti M' y (length y - 1)) as A2. unfold zcount in A1, A2.
    destruct (Nat.eq_dec (count_prefix (firstn (length y - 1) y) M) 0) as [Z1|Z1].
    + destruct (Nat.eq_dec (count_prefix (firstn (length y - 1) y) M') 0) as [Z2|Z2]; [lia|].
      symmetry. apply (seen_counts q' q T bits M' M H0 q_exact' q_exact l' h' h E' (eq_sym X)). split; [lia|]. right. lia.
    + apply (seen_counts q q' T bits M M' H0 q_exact q_exact' l h h' E X). split; [lia|]. right. lia.
  - intros HP. apply (seen_same q q' T bits M M' H0 q_exact q_exact' l l' h h' E E'). intros y _. now apply count_perm.
Qed.
End Small.
