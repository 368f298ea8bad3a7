(** Soundness of the FLP against the estimate of Plot.v. *)
From Coq Require Import Qround Qpower Lqa.
From Verif Require Import Plot PlotSpec Spec BaseFacts FieldFacts Roots FlpSpec FlpProofs CircuitSpec FlpFacts GadgetFacts Prio3 Prio3Spec Prio3Sound.
Open Scope Q_scope.

Lemma terms_nonneg {A} (f : A -> Q) l : (forall x, In x l -> 0 <= f x) -> 0 <= fold_right Qplus 0 (map f l).
Proof.
  induction l as [|x l IH]; intros H; cbn [map fold_right]; [apply Qle_refl|].
  pose proof (H x (or_introl eq_refl)). specialize (IH (fun y Hy => H y (or_intror Hy))). lra.
Qed.
Lemma term_le {A} (f : A -> Q) l x : (forall x, In x l -> 0 <= f x) -> In x l -> f x <= fold_right Qplus 0 (map f l).
Proof.
  induction l as [|y l IH]; [intros _ []|]. intros H [->|Hin]; cbn [map fold_right].
  - pose proof (terms_nonneg f l (fun y Hy => H y (or_intror Hy))). lra.
  - specialize (IH (fun z Hz => H z (or_intror Hz)) Hin). pose proof (H y (or_introl eq_refl)). lra.
Qed.
Lemma list_max_in l : l <> [] -> In (list_max l) l.
Proof.
  induction l as [|x l IH]; [congruence|]. intros _. cbn [list_max fold_right]. fold (list_max l).
  destruct l as [|y l]; [left; cbn; lia|]. specialize (IH ltac:(discriminate)).
  destruct (Nat.max_spec x (list_max (y :: l))) as [[_ ->]|[_ ->]]; [now right | now left].
Qed.
Lemma list_max_ge l x : In x l -> (x <= list_max l)%nat.
Proof. induction l as [|y l IH]; [easy|]. intros [->|H]; cbn [list_max fold_right]; fold (list_max l); [|specialize (IH H)]; lia. Qed.

Section B.
Context {P : NttFieldClass} (HP : NttOk P) (v : Valid P).
Notation M := (MODULUS P).

Definition degs : list nat := map (fun '(g, c) => DEGREE g * padded c)%nat (combine (GADGETS v) (GADGET_CALLS v)).

Lemma degs_nth (HV : ValidOk v) i : (i < length (GADGETS v))%nat ->
  (DEGREE (nth i (GADGETS v) Mul) * (wire_poly_len (nth i (GADGET_CALLS v) 0%nat) - 1) <= list_max degs)%nat.
Proof.
  intros Hi. apply list_max_ge. unfold degs. apply in_map_iff.
  exists (nth i (GADGETS v) Mul, nth i (GADGET_CALLS v) 0%nat). split; [reflexivity|].
  rewrite <- (combine_nth _ _ _ _ _ (vo_len _ HV)). apply nth_In. rewrite combine_length, <- (vo_len _ HV). lia.
Qed.

(** d / |F| is below the padded estimate. *)
Lemma padded_bound (HV : ValidOk v) : GADGETS v <> [] -> Forall (fun c => Z.of_nat (padded c) < M)%Z (GADGET_CALLS v) ->
  inject_Z (Z.of_nat (list_max degs)) / inject_Z M <= padded_soundness v.
Proof.
  intros NE FM. pose proof (ntt_odd P HP) as Hodd.
  assert (NE' : degs <> []).
  { unfold degs. pose proof (vo_len _ HV) as L. destruct (GADGETS v) as [|g gs], (GADGET_CALLS v) as [|c cs]; cbn in *; congruence. }
  pose proof (list_max_in degs NE') as HI. unfold degs at 2 in HI. apply in_map_iff in HI. destruct HI as ([g c] & E & HI).
  assert (FM' : forall g c, In (g, c) (combine (GADGETS v) (GADGET_CALLS v)) -> (Z.of_nat (padded c) < M)%Z).
  { intros g' c' H. apply in_combine_r in H. rewrite Forall_forall in FM. now apply FM. }
  unfold padded_soundness.
  set (f := fun '(g, c) => inject_Z (Z.of_nat (padded c * DEGREE g)) / inject_Z (M - Z.of_nat (padded c))).
  eapply Qle_trans; [|apply (term_le f _ (g, c))].
  - unfold f. rewrite <- E. rewrite (Nat.mul_comm (padded c)). pose proof (FM' _ _ HI) as Hc.
    unfold Qdiv.
    assert (I : / inject_Z M <= / inject_Z (M - Z.of_nat (padded c))).
    { apply Qle_shift_inv_l; [change 0 with (inject_Z 0); rewrite <- Zlt_Qlt; lia|].
      rewrite Qmult_comm. apply Qle_shift_div_r; [change 0 with (inject_Z 0); rewrite <- Zlt_Qlt; lia|].
      rewrite Qmult_1_l. rewrite <- Zle_Qle. lia. }
    assert (N : 0 <= inject_Z (Z.of_nat (DEGREE g * padded c))) by (change 0 with (inject_Z 0); rewrite <- Zle_Qle; lia).
    nra.
  - intros [g' c'] H. unfold f. apply Qle_shift_div_l; [change 0 with (inject_Z 0); rewrite <- Zlt_Qlt; specialize (FM' _ _ H); lia|].
    rewrite Qmult_0_l. change 0 with (inject_Z 0). rewrite <- Zle_Qle. lia.
  - exact HI.
Qed.

Lemma base_padded : Forall (fun c => wire_poly_len c = S c) (GADGET_CALLS v) -> base_soundness v = padded_soundness v.
Proof.
  intros H. unfold base_soundness, padded_soundness. f_equal. apply map_ext_in. intros [g c] Hin. apply in_combine_r in Hin.
  rewrite Forall_forall in H. unfold padded. rewrite (H _ Hin). now replace (S c - 1)%nat with c by lia.
Qed.

Lemma base_padded_pow : Forall (fun c => exists k, c + 1 = 2 ^ k)%nat (GADGET_CALLS v) -> base_soundness v = padded_soundness v.
Proof.
  intros H. apply base_padded. eapply Forall_impl; [|exact H]. intros c (k & E). unfold wire_poly_len. cbn [Nat.add].
  rewrite (np2_unique (S c) k) by lia. lia.
Qed.

Lemma one_deg : GADGETS v <> [] -> Forall (fun g => 1 <= DEGREE g)%nat (GADGETS v) -> ValidOk v -> (1 <= list_max degs)%nat.
Proof.
  intros NE FD HV. destruct (GADGETS v) as [|g gs] eqn:EG; [congruence|].
  pose proof (degs_nth HV 0 ltac:(rewrite EG; cbn; lia)) as D. rewrite EG in D. cbn [nth] in D.
  destruct (vo_gadgets _ HV 0 ltac:(rewrite EG; cbn; lia)) as (C & _). inversion_clear FD.
  assert (W : (2 <= wire_poly_len (nth 0 (GADGET_CALLS v) 0))%nat).
  { unfold wire_poly_len. pose proof (np2_spec (1 + nth 0 (GADGET_CALLS v) 0)%nat). lia. }
  nia.
Qed.

Lemma qrl_pos : GADGETS v <> [] -> (1 <= query_rand_len v)%nat.
Proof. unfold query_rand_len. destruct (GADGETS v); [congruence|]. cbn [length]. destruct (1 <? EVAL_OUTPUT_LEN v)%nat; lia. Qed.

Lemma count_le (d k : nat) (x : Q) N : (1 <= k)%nat -> inject_Z (Z.of_nat d) / inject_Z M <= x ->
  (N <= Z.of_nat d * M ^ (Z.of_nat k - 1))%Z -> inject_Z N <= x * inject_Z (M ^ Z.of_nat k).
Proof.
  intros Hk Hx HN. pose proof (ntt_odd P HP).
  assert (Z : (M ^ Z.of_nat k = M * M ^ (Z.of_nat k - 1))%Z) by (rewrite <- Z.pow_succ_r by lia; f_equal; lia).
  rewrite Z, inject_Z_mult. eapply Qle_trans; [rewrite <- Zle_Qle; exact HN|]. rewrite inject_Z_mult.
  assert (PM : 0 < inject_Z M) by (change 0 with (inject_Z 0); rewrite <- Zlt_Qlt; lia).
  assert (PK : 0 <= inject_Z (M ^ (Z.of_nat k - 1))) by (change 0 with (inject_Z 0); rewrite <- Zle_Qle; apply Z.pow_nonneg; lia).
  assert (Hd : inject_Z (Z.of_nat d) <= x * inject_Z M).
  { setoid_replace (inject_Z (Z.of_nat d)) with (inject_Z (Z.of_nat d) / inject_Z M * inject_Z M) by (field; lra). nra. }
  nra.
Qed.

Theorem padded_sound (HV : ValidOk v) meas proof joint_rand out (Q : list (list (F P))) :
  plottable v ->
  length meas = vMEAS_LEN v -> length joint_rand = vJOINT_RAND_LEN v -> length proof = proof_len v ->
  valid_eval_plain v meas joint_rand 1 = Ok out -> Exists (fun x => x <> f0) out -> NoDup Q ->
  (forall q, In q Q -> length q = query_rand_len v /\
     exists ver, bbcggi19_query v meas proof q joint_rand 1 = Ok ver /\ bbcggi19_decide v ver = Ok true) ->
  inject_Z (Z.of_nat (length Q)) <= padded_soundness v * inject_Z (M ^ Z.of_nat (query_rand_len v)).
Proof.
  intros (NE & FD & FM) Lm Lj Lp EO EX ND HQ.
  apply (count_le (list_max degs)); [now apply qrl_pos | now apply padded_bound |].
  apply (sound HP v HV meas proof joint_rand out (list_max degs) Q); try easy; [now apply one_deg | apply (degs_nth HV)].
Qed.

Lemma inject_pow (z : Z) (n : nat) : inject_Z (z ^ Z.of_nat n) == inject_Z z ^ Z.of_nat n.
Proof. apply Zpower_Qpower. lia. Qed.
Lemma Qpow_mono (a b : Q) (n : nat) : 0 <= a -> a <= b -> a ^ Z.of_nat n <= b ^ Z.of_nat n.
Proof.
  intros Ha Hab. induction n as [|n IH]; [apply Qle_refl|].
  rewrite !Nat2Z.inj_succ, <- !Z.add_1_r, !Qpower_plus' by lia. rewrite !Qpower_1_r.
  pose proof (Qpower_pos a (Z.of_nat n) Ha). nra.
Qed.

Theorem padded_sound_multi (HV : ValidOk v) (X : XofClass) (ID : Z) (vks n m : nat) : (1 <= n)%nat -> (Z.of_nat n < M)%Z ->
  let p := {| p3_field := P; p3_flp := FlpBBCGGI19 v; p3_xof := X; p3_ID := ID;
              p3_VERIFY_KEY_SIZE := vks; p3_SHARES := n; p3_PROOFS := m |} in
  forall ctx (ms ps : list (list (F P))) (jr : list (F P)) (Q : list (list (F P))),
  plottable v ->
  vecs n (vMEAS_LEN v) ms -> vecs n (proof_len v * m) ps -> length jr = (vJOINT_RAND_LEN v * m)%nat ->
  (forall k, (k < m)%nat -> exists out, valid_eval_plain v (vsum (vMEAS_LEN v) ms) (piece (vJOINT_RAND_LEN v) k jr) 1 = Ok out /\
     Exists (fun x => x <> f0) out) ->
  NoDup Q ->
  (forall qr, In qr Q -> length qr = (query_rand_len v * m)%nat /\ exists (vss : list (list (list (F P)))) parts msg,
     length vss = n /\
     (forall j, (j < n)%nat -> proof_verifiers p (nth j ms []) (nth j ps []) qr jr = Ok (nth j vss [])) /\
     p3_verifier_shares_to_message p ctx tt (map (fun j => (concat (nth j vss []), parts j)) (seq 0 n)) = Ok msg) ->
  inject_Z (Z.of_nat (length Q)) <= robustness (padded_soundness v) 0 1 m * inject_Z (M ^ Z.of_nat (query_rand_len v * m)).
Proof.
  intros Hn HnM p ctx ms ps jr Q (NE & FD & FM) Vm Vp Lj Hout ND HQ.
  pose proof (prio3_sound P HP v HV X ID vks n m Hn HnM ctx ms ps jr (list_max degs) Q Vm Vp Lj Hout
                (one_deg NE FD HV) (degs_nth HV) ND HQ) as HS.
  eapply Qle_trans; [rewrite <- Zle_Qle; exact HS|].
  pose proof (count_le (list_max degs) (query_rand_len v) (padded_soundness v) _ (qrl_pos NE) (padded_bound HV NE FM) (Z.le_refl _)) as HC.
  unfold robustness. rewrite inject_pow.
  rewrite Nat2Z.inj_mul, Z.pow_mul_r, inject_pow by lia.
  cbn [Nat.add Z.of_nat Pos.of_succ_nat]. change (inject_Z 1) with 1. rewrite Qmult_1_l, <- Qmult_power.
  apply Qpow_mono; [|exact HC].
  change 0 with (inject_Z 0). rewrite <- Zle_Qle. pose proof (ntt_odd P HP). pose proof (Z.pow_nonneg M (Z.of_nat (query_rand_len v) - 1)). nia.
Qed.
End B.
