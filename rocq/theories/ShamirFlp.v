(** Verification of an FLP proof on Shamir shares, as in the tests of
    /repo/poc/example_flp_shamir.py:122-188. *)
From Verif Require Import Base Common Field Poly FlpBBCGGI19 Spec BaseFacts CommonFacts FieldFacts PolyAlg Roots VecFacts
  FlpFacts FlpSpec FlpProofs Shamir ShamirSpec ShamirFacts.
Open Scope nat_scope.

Section SF.
Context {P : NttFieldClass} (HP : NttOk P) (v : Valid P) (HV : ValidOk v).
Notation F := (F P).
Add Ring FringSF : (@F_ring P).
Context (query_rand joint_rand : list F)
  (Hq : length query_rand = query_rand_len v) (Hj : length joint_rand = vJOINT_RAND_LEN v) (Ht : test_points_ok v query_rand).

Notation ML := (vMEAS_LEN v).
Notation PL := (proof_len v).
Notation VL := (verifier_len v).

(** The verifier, if any. *)
Definition qv (n : nat) (x : list F * list F) : list F :=
  match bbcggi19_query v (fst x) (snd x) query_rand joint_rand n with Ok l => l | Raise _ => [] end.
Definition pwf (x : list F * list F) : Prop := length (fst x) = ML /\ length (snd x) = PL.
Definition padd (x y : list F * list F) : list F * list F := (zip_with fadd (fst x) (fst y), zip_with fadd (snd x) (snd y)).
Definition pscale (c : F) (x : list F * list F) : list F * list F := (map (fmul c) (fst x), map (fmul c) (snd x)).
Definition pzero : list F * list F := (repeat f0 ML, repeat f0 PL).

Lemma qv_ok n x : pwf x -> 1 <= n -> (Z.of_nat n < MODULUS P)%Z ->
  bbcggi19_query v (fst x) (snd x) query_rand joint_rand n = Ok (qv n x) /\ length (qv n x) = VL.
Proof using HP HV Hq Hj Ht.
  intros [A B] Hn Hm. destruct (proj1 (query_guard HP v HV _ _ _ _ n A B Hq Hj Hn Hm) Ht) as (ver & E & L).
  unfold qv. now rewrite E.
Qed.
Lemma pwf_add x y : pwf x -> pwf y -> pwf (padd x y).
Proof using HP HV Hq Hj Ht. intros [A B] [C D]. split; cbn [fst snd padd]; rewrite zip_with_length; lia. Qed.
Lemma pwf_scale c x : pwf x -> pwf (pscale c x).
Proof using HP HV Hq Hj Ht. intros [A B]. split; cbn [fst snd pscale]; now rewrite map_length. Qed.
Lemma pwf_zero : pwf pzero.
Proof using HP HV Hq Hj Ht. split; apply repeat_length. Qed.

Lemma qv_pair x y i : pwf x -> pwf y -> i < VL ->
  nth i (qv 1 (padd x y)) f0 = fadd (nth i (qv 2 x) f0) (nth i (qv 2 y) f0).
Proof using HP HV Hq Hj Ht.
  intros [A B] [C D] Hi. pose proof (ntt_odd P HP) as Hm.
  destruct (query_linear_list HP v HV 2 [fst x; fst y] [snd x; snd y] query_rand joint_rand ltac:(lia) ltac:(lia))
    as (vs & [Lv Fv] & E & S); try easy; [split; [easy | now repeat constructor] .. |].
  pose proof (E 0 ltac:(lia)) as E0. pose proof (E 1 ltac:(lia)) as E1. cbn [nth] in E0, E1.
  assert (R0 : qv 2 x = nth 0 vs []) by (unfold qv; now rewrite E0).
  assert (R1 : qv 2 y = nth 1 vs []) by (unfold qv; now rewrite E1).
  assert (ES : (vsum ML [fst x; fst y], vsum PL [snd x; snd y]) = padd x y).
  { unfold padd. rewrite !vsum_cons, !vsum_nil by (rewrite ?vsum_length; easy).
    f_equal; (eapply vec_eq; [rewrite !zip_with_length, repeat_length; reflexivity | rewrite zip_with_length; lia |]);
      intros k Hk; rewrite !(nth_zip_with _ _ _ _ f0 f0) by (rewrite ?zip_with_length, ?repeat_length; lia); rewrite nth_repeat; ring. }
  assert (RS : qv 1 (padd x y) = vsum VL vs) by (unfold qv; rewrite <- ES; cbn [fst snd]; now rewrite S).
  rewrite RS, R0, R1, nth_vsum by easy. destruct vs as [|a [|b [|]]]; try discriminate. cbn. ring.
Qed.

(** The linear part of the verifier. *)
Definition lin (i : nat) (x : list F * list F) : F := fsub (nth i (qv 1 x) f0) (nth i (qv 1 pzero) f0).

Lemma padd_zero x : pwf x -> padd x pzero = x.
Proof using HP HV Hq Hj Ht.
  intros [A B]. destruct x as [m p]. unfold padd, pzero. cbn [fst snd] in *.
  f_equal; (eapply vec_eq; [rewrite zip_with_length, repeat_length; reflexivity | lia |]);
    intros k Hk; rewrite (nth_zip_with _ _ _ _ f0 f0) by (rewrite ?repeat_length; lia); rewrite nth_repeat; ring.
Qed.
Lemma lin_add i x y : i < VL -> pwf x -> pwf y -> lin i (padd x y) = fadd (lin i x) (lin i y).
Proof using HP HV Hq Hj Ht.
  intros Hi Hx Hy. unfold lin.
  pose proof (qv_pair x y i Hx Hy Hi) as E.
  pose proof (qv_pair x pzero i Hx pwf_zero Hi) as Ex. pose proof (qv_pair y pzero i Hy pwf_zero Hi) as Ey.
  pose proof (qv_pair pzero pzero i pwf_zero pwf_zero Hi) as E0.
  rewrite padd_zero in Ex, Ey, E0 by (try easy; apply pwf_zero). rewrite E, Ex, Ey, E0. ring.
Qed.
Lemma lin_zero i : lin i pzero = f0.
Proof using HP HV Hq Hj Ht. unfold lin. ring. Qed.
Lemma pscale_0 x : pwf x -> pscale f0 x = pzero.
Proof using HP HV Hq Hj Ht.
  intros [A B]. unfold pscale, pzero. f_equal; (eapply vec_eq; [rewrite map_length; reflexivity | rewrite repeat_length; lia |]);
    intros k Hk; rewrite (nth_map' _ _ _ f0) by lia; rewrite nth_repeat; ring.
Qed.
Lemma pscale_S c x : pscale (fadd f1 c) x = padd x (pscale c x).
Proof using HP HV Hq Hj Ht.
  destruct x as [m p]. unfold pscale, padd. cbn [fst snd].
  f_equal; (eapply vec_eq; [rewrite map_length; reflexivity | rewrite zip_with_length, map_length; lia |]);
    intros k Hk; rewrite (nth_zip_with _ _ _ _ f0 f0) by (rewrite ?map_length; lia); rewrite !(nth_map' _ _ _ f0) by lia; ring.
Qed.
Lemma fof_S k : fof (Z.of_nat (S k)) = fadd f1 (fof (Z.of_nat k)) :> F.
Proof using HP HV Hq Hj Ht. rewrite Nat2Z.inj_succ. unfold Z.succ. rewrite Z.add_comm, fof_add. reflexivity. Qed.
Lemma lin_scale i c x : i < VL -> pwf x -> lin i (pscale c x) = fmul c (lin i x).
Proof using HP HV Hq Hj Ht.
  intros Hi Hx.
  assert (N : forall k, lin i (pscale (fof (Z.of_nat k)) x) = fmul (fof (Z.of_nat k)) (lin i x)).
  { induction k as [|k IH].
    - change (fof (Z.of_nat 0)) with (f0 : F). rewrite pscale_0, lin_zero by easy. ring.
    - rewrite fof_S, pscale_S, lin_add by (try easy; now apply pwf_scale). rewrite IH. ring. }
  specialize (N (Z.to_nat (val c))). rewrite Z2Nat.id in N by (pose proof (val_range c); lia).
  now rewrite !fof_val in N.
Qed.

(** Columns of a list of polynomials. *)
Definition col (k : nat) (polys : list (list F)) : list F := map (fun c => nth k c f0) polys.

Lemma share_horner x (polys : list (list F)) :
  map (fun c => peval c x) polys = zip_with fadd (col 0 polys) (map (fmul x) (map (fun c => peval (tl c) x) polys)).
Proof using HP HV Hq Hj Ht.
  induction polys as [|c polys IH]; [reflexivity|]. cbn [map col zip_with]. f_equal; [|exact IH].
  destruct c as [|a c]; cbn [peval nth tl]; ring.
Qed.

Lemma lin_share i x t : forall (M Q : list (list F)), i < VL -> length M = ML -> length Q = PL ->
  Forall (fun c => length c <= t) M -> Forall (fun c => length c <= t) Q ->
  lin i (map (fun c => peval c x) M, map (fun c => peval c x) Q)
  = peval (map (fun k => lin i (col k M, col k Q)) (seq 0 t)) x.
Proof using HP HV Hq Hj Ht.
  induction t as [|t IH]; intros M Q Hi LM LQ FM FQ.
  - cbn [seq map peval]. rewrite <- (lin_zero i). f_equal. unfold pzero.
    assert (Z : forall l : list (list F), Forall (fun c => length c <= 0) l -> map (fun c => peval c x) l = repeat f0 (length l)).
    { induction 1 as [|c l Hc Hl IH]; [reflexivity|]. cbn [map length repeat]. destruct c; [|cbn in Hc; lia]. cbn [peval]. now rewrite IH. }
    rewrite !Z by easy. now rewrite LM, LQ.
  - rewrite (share_horner x M), (share_horner x Q).
    change (lin i (padd (col 0 M, col 0 Q) (pscale x (map (fun c => peval (tl c) x) M, map (fun c => peval (tl c) x) Q)))
      = peval (map (fun k => lin i (col k M, col k Q)) (seq 0 (S t))) x).
    rewrite lin_add, lin_scale; try easy;
      [| split; cbn [fst snd]; now rewrite map_length | split; cbn [fst snd col]; unfold col; now rewrite map_length
       | apply pwf_scale; split; cbn [fst snd]; now rewrite map_length ].
    cbn [seq map peval]. rewrite <- seq_shift, map_map.
    assert (T : forall l : list (list F), Forall (fun c => length c <= S t) l -> Forall (fun c => length c <= t) (map (@tl F) l)).
    { induction 1 as [|c l Hc Hl IHl]; [constructor|]. constructor; [destruct c; cbn in *; lia | exact IHl]. }
    specialize (IH (map (@tl F) M) (map (@tl F) Q) Hi ltac:(now rewrite map_length) ltac:(now rewrite map_length) (T _ FM) (T _ FQ)).
    rewrite !map_map in IH. rewrite IH.
    assert (C : forall k (l : list (list F)), col k (map (@tl F) l) = col (S k) l).
    { intros k l. unfold col. rewrite map_map. apply map_ext. intros [|a c]; [now destruct k | reflexivity]. }
    rewrite (map_ext _ (fun k => lin i (col (S k) M, col (S k) Q))) by (intros k; now rewrite !C). ring.
Qed.

(** The polynomials whose values are the verifier shares. *)
Definition vpolys (t : nat) (M Q : list (list F)) : list (list F) :=
  map (fun i => nth i (qv 1 (col 0 M, col 0 Q)) f0 :: map (fun k => lin i (col k M, col k Q)) (seq 1 t)) (seq 0 VL).

Lemma query_share j t (M Q : list (list F)) : length M = ML -> length Q = PL ->
  Forall (fun c => length c <= S t) M -> Forall (fun c => length c <= S t) Q ->
  bbcggi19_query v (share_of M j) (share_of Q j) query_rand joint_rand 1 = Ok (share_of (vpolys t M Q) j).
Proof using HP HV Hq Hj Ht.
  intros LM LQ FM FQ. pose proof (ntt_odd P HP).
  assert (W : pwf (share_of M j, share_of Q j)) by (split; unfold share_of; cbn [fst snd]; now rewrite map_length).
  destruct (qv_ok 1 _ W ltac:(lia) ltac:(lia)) as [E L]. cbn [fst snd] in E. rewrite E. f_equal.
  apply (vec_eq VL); [easy | unfold share_of, vpolys; now rewrite !map_length, seq_length |].
  intros i Hi. unfold share_of at 3, vpolys. rewrite map_map.
  rewrite (nth_map' _ _ _ 0) by (now rewrite seq_length). rewrite seq_nth by easy. cbn [Nat.add].
  pose proof (lin_share i (pt j) (S t) M Q Hi LM LQ FM FQ) as LS. cbn [seq map peval] in LS.
  change (map (fun c => peval c (pt j)) M) with (share_of M j) in LS. change (map (fun c => peval c (pt j)) Q) with (share_of Q j) in LS.
  cbn [peval].
  assert (N : forall x, nth i (qv 1 x) f0 = fadd (lin i x) (nth i (qv 1 pzero) f0)) by (intros x; unfold lin; ring).
  rewrite N, LS, (N (col 0 M, col 0 Q)). ring.
Qed.

Lemma vpolys_secret t M Q : length M = ML -> length Q = PL -> map (fun c => nth 0 c f0) (vpolys t M Q) = qv 1 (col 0 M, col 0 Q).
Proof using HP HV Hq Hj Ht.
  intros LM LQ. pose proof (ntt_odd P HP).
  assert (W : pwf (col 0 M, col 0 Q)) by (split; unfold col; cbn [fst snd]; now rewrite map_length).
  destruct (qv_ok 1 _ W ltac:(lia) ltac:(lia)) as [E L].
  unfold vpolys. rewrite map_map. cbn [nth]. apply (vec_eq VL); [now rewrite map_length, seq_length | easy |].
  intros i Hi. rewrite (nth_map' _ _ _ 0) by (now rewrite seq_length). now rewrite seq_nth.
Qed.


Lemma unshard_ok_zero t index (M Q : list (list F)) : NoDup index -> index <> [] -> S t <= length index ->
  Forall (fun j => Z.of_nat (j + 1) < MODULUS P)%Z index ->
  forallb (unshard_ok index) (vpolys t M Q)
  = negb ((1 <? length index) && zero_component VL (map (share_of (vpolys t M Q)) index)).
Proof using HP HV Hq Hj Ht.
  intros ND NE HT HI. destruct (Nat.ltb_spec 1 (length index)) as [H1|H1]; cycle 1.
  { cbn [andb negb]. apply forallb_forall. intros c _. unfold unshard_ok.
    destruct index as [|? [|]]; cbn [length] in *; try lia; reflexivity. }
  cbn [andb]. unfold zero_component.
  assert (G : forall i, i < VL -> unshard_ok index (nth i (vpolys t M Q) [])
    = negb (forallb (fun s => feqb (nth i s f0) f0) (map (share_of (vpolys t M Q)) index))).
  { intros i Hi. set (c := nth i (vpolys t M Q) []).
    assert (LP : length (vpolys t M Q) = VL) by (unfold vpolys; now rewrite map_length, seq_length).
    assert (Lc : length c = S t).
    { unfold c, vpolys. rewrite (nth_map' _ _ _ 0) by (now rewrite seq_length). cbn [length]. now rewrite map_length, seq_length. }
    assert (EV : forall j, nth i (share_of (vpolys t M Q) j) f0 = peval c (pt j)).
    { intros j. unfold share_of. now rewrite (nth_map' _ _ _ []) by lia. }
    unfold unshard_ok. replace (length index =? 1) with false by (symmetry; apply Nat.eqb_neq; lia). cbn [orb].
    destruct (existsb (fun a => negb (feqb a f0)) c) eqn:X.
    - symmetry. apply negb_true_iff. apply not_true_iff_false. intros A. rewrite forallb_forall in A.
      assert (AZ : allzero c).
      { apply (poly_roots_zero (ntt_prime P HP) (map pt index)).
        - now apply pt_NoDup.
        - rewrite map_length. lia.
        - intros x Hx. apply in_map_iff in Hx. destruct Hx as (j & <- & Hj'). rewrite <- EV. apply feqb_eq, A. now apply in_map. }
      apply existsb_exists in X. destruct X as (a & Ha & Na). apply negb_true_iff in Na.
      unfold allzero in AZ. rewrite Forall_forall in AZ. rewrite (AZ a Ha) in Na. rewrite (proj2 (feqb_eq _ _) eq_refl) in Na. discriminate.
    - symmetry. apply negb_false_iff. apply forallb_forall. intros s Hs. apply in_map_iff in Hs. destruct Hs as (j & <- & _).
      apply feqb_eq. rewrite EV. apply peval_allzero. apply Forall_forall. intros a Ha. apply feqb_eq.
      destruct (feqb a f0) eqn:Ea; [reflexivity|]. enough (existsb (fun a => negb (feqb a f0)) c = true) by congruence.
      apply existsb_exists. exists a. now rewrite Ea. }
  assert (LP : length (vpolys t M Q) = VL) by (unfold vpolys; now rewrite map_length, seq_length).
  destruct (existsb _ (seq 0 VL)) eqn:X; cbn [negb].
  - apply existsb_exists in X. destruct X as (i & Hi & Z). apply in_seq in Hi.
    apply not_true_iff_false. intros A. rewrite forallb_forall in A.
    specialize (A (nth i (vpolys t M Q) []) ltac:(apply nth_In; lia)). rewrite G in A by lia. rewrite Z in A. discriminate.
  - apply forallb_forall. intros c Hc. apply (In_nth _ _ []) in Hc. destruct Hc as (i & Hi & <-). rewrite G by lia.
    apply negb_true_iff. apply not_true_iff_false. intros A.
    enough (existsb (fun i => forallb (fun s => feqb (nth i s f0) f0) (map (share_of (vpolys t M Q)) index)) (seq 0 VL) = true) by congruence.
    apply existsb_exists. exists i. split; [apply in_seq; lia | exact A].
Qed.

Lemma col0_polys (meas : list F) rand : length rand = length meas -> col 0 (polys_of meas rand) = meas.
Proof using HP HV Hq Hj Ht. exact (polys_secret meas rand). Qed.

Theorem query_shamir meas proof meas_rand proof_rand t n index :
  length meas = ML -> length proof = PL ->
  (Z.of_nat n < MODULUS P)%Z -> 1 <= t ->
  length meas_rand = ML -> Forall (fun r => length r = t - 1) meas_rand ->
  length proof_rand = PL -> Forall (fun r => length r = t - 1) proof_rand ->
  NoDup index -> Forall (fun j => j < n) index -> t <= length index ->
  exists meas_shares proof_shares verifier_shares verifier,
    shamir_shard meas meas_rand n = Ok meas_shares /\ shamir_shard proof proof_rand n = Ok proof_shares /\
    mapM (fun j => bbcggi19_query v (nth j meas_shares []) (nth j proof_shares []) query_rand joint_rand 1) index = Ok verifier_shares /\
    bbcggi19_query v meas proof query_rand joint_rand 1 = Ok verifier /\
    shamir_unshard (map Z.of_nat index) verifier_shares =
      if (1 <? length index) && zero_component VL verifier_shares then Raise IndexError else Ok verifier.
Proof using HP HV Hq Hj Ht.
  intros Lm Lp Hn Ht1 Lmr Fmr Lpr Fpr ND Fi Hti. pose proof (ntt_odd P HP).
  set (M := polys_of meas meas_rand). set (Q := polys_of proof proof_rand).
  assert (LM : length M = ML) by (unfold M; rewrite polys_length; congruence).
  assert (LQ : length Q = PL) by (unfold Q; rewrite polys_length; congruence).
  assert (FP : forall (a : list F) r, Forall (fun r => length r = t - 1) r -> Forall (fun c => length c <= S (t - 1)) (polys_of a r)).
  { intros a r Fr. apply Forall_forall. intros c Hc. unfold polys_of in Hc. apply in_map_iff in Hc. destruct Hc as ([x y] & <- & Hin).
    apply in_combine_r in Hin. cbn [fst snd length]. rewrite Forall_forall in Fr. now rewrite (Fr _ Hin). }
  assert (Hfit : Forall (fun j => Z.of_nat (j + 1) < MODULUS P)%Z index) by (now apply (index_fits n)).
  assert (NE : index <> []) by (intros ->; cbn in Hti; lia).
  exists (map (share_of M) (range 0 n)), (map (share_of Q) (range 0 n)), (map (share_of (vpolys (t - 1) M Q)) index), (qv 1 (meas, proof)).
  split; [apply shard_spec; congruence|]. split; [apply shard_spec; congruence|]. split; [|split].
  - assert (H0 : Forall (fun j => j < n) index) by easy. clear - HP HV Hq Hj Ht LM LQ FP Fmr Fpr H0. subst M Q.
    induction H0 as [|j index Hj' Hi IH]; [reflexivity|]. cbn [mapM map].
    assert (NR : forall polys : list (list F), nth j (map (share_of polys) (range 0 n)) [] = share_of polys j).
    { intros polys. unfold range. rewrite Nat.sub_0_r. rewrite (nth_map' _ _ _ 0) by (now rewrite seq_length). now rewrite seq_nth. }
    rewrite !NR. rewrite (query_share j (t - 1)) by (try easy; now apply FP). cbn [bind]. rewrite IH. reflexivity.
  - exact (proj1 (qv_ok 1 (meas, proof) (conj Lm Lp) ltac:(lia) ltac:(lia))).
  - rewrite (unshard_spec (ntt_prime P HP)) by (try easy; apply Forall_forall; intros c Hc;
      unfold vpolys in Hc; apply in_map_iff in Hc; destruct Hc as (i & <- & _); cbn [length]; rewrite map_length, seq_length; lia).
    rewrite (unshard_ok_zero (t - 1)) by (try easy; lia).
    rewrite vpolys_secret by easy. unfold M, Q. rewrite !col0_polys by congruence.
    now destruct ((1 <? length index) && _).
Qed.
End SF.

Section SF2.
Context {P : NttFieldClass} (HP : NttOk P) (v : Valid P) (HV : ValidOk v).
Notation F := (F P).

(** A verifier that is reconstructed is that of the whole measurement and proof. *)
Lemma shamir_verifier meas proof query_rand joint_rand meas_shares proof_shares meas_rand proof_rand t n index vs ver :
  length meas = vMEAS_LEN v -> length proof = proof_len v -> length joint_rand = vJOINT_RAND_LEN v -> length query_rand = query_rand_len v ->
  (Z.of_nat n < MODULUS P)%Z -> 1 <= t ->
  length meas_rand = vMEAS_LEN v -> Forall (fun r => length r = t - 1) meas_rand ->
  length proof_rand = proof_len v -> Forall (fun r => length r = t - 1) proof_rand ->
  NoDup index -> Forall (fun j => j < n) index -> t <= length index ->
  shamir_shard meas meas_rand n = Ok meas_shares -> shamir_shard proof proof_rand n = Ok proof_shares ->
  mapM (fun j => bbcggi19_query v (nth j meas_shares []) (nth j proof_shares []) query_rand joint_rand 1) index = Ok vs ->
  shamir_unshard (map Z.of_nat index) vs = Ok ver -> bbcggi19_query v meas proof query_rand joint_rand 1 = Ok ver.
Proof.
  intros Lm Lp Lj Lq Hn Ht1 Lmr Fmr Lprr Fpr ND Fi Hti Es1 Es2 Ev Eu. pose proof (ntt_odd P HP).
  destruct (existsb (bad_point v query_rand) (seq 0 (length (GADGETS v)))) eqn:B.
  - assert (NT : ~ test_points_ok v query_rand) by (intros T; apply bad_points_iff in T; congruence).
    exfalso. destruct index as [|j index]; [cbn in Hti; lia|]. inversion_clear Fi as [|? ? Hj _]. cbn [mapM] in Ev.
    rewrite shard_spec in Es1, Es2 by congruence. injection Es1 as <-. injection Es2 as <-.
    assert (NR : forall polys : list (list F), nth j (map (share_of polys) (range 0 n)) [] = share_of polys j).
    { intros polys. unfold range. rewrite Nat.sub_0_r. rewrite (nth_map' _ _ _ 0) by (now rewrite seq_length). now rewrite seq_nth. }
    rewrite !NR in Ev.
    assert (LS : forall a r, length r = length a -> length (share_of (polys_of a r) j : list F) = length a).
    { intros a r E. unfold share_of. now rewrite map_length, polys_length. }
    rewrite (proj2 (query_guard HP v HV (share_of (polys_of meas meas_rand) j) (share_of (polys_of proof proof_rand) j) query_rand joint_rand 1
       ltac:(rewrite LS; congruence) ltac:(rewrite LS; congruence) Lq Lj ltac:(lia) ltac:(lia)) NT) in Ev.
    discriminate.
  - apply bad_points_iff in B.
    destruct (query_shamir HP v HV query_rand joint_rand Lq Lj B meas proof meas_rand proof_rand t n index)
      as (ms & ps & vs' & ver' & E1 & E2 & E3 & E4 & E5); try easy.
    rewrite Es1 in E1. injection E1 as <-. rewrite Es2 in E2. injection E2 as <-. rewrite Ev in E3. injection E3 as <-.
    rewrite Eu in E5. destruct ((1 <? length index) && _) in E5; [discriminate|]. congruence.
Qed.

(** An honest proof is accepted. *)
Theorem shamir_complete meas proof prove_rand query_rand joint_rand meas_shares proof_shares meas_rand proof_rand t n index vs ver :
  length meas = vMEAS_LEN v -> length prove_rand = prove_rand_len v -> length joint_rand = vJOINT_RAND_LEN v ->
  length query_rand = query_rand_len v -> circuit_zero v meas joint_rand -> bbcggi19_prove v meas prove_rand joint_rand = Ok proof ->
  (Z.of_nat n < MODULUS P)%Z -> 1 <= t ->
  length meas_rand = vMEAS_LEN v -> Forall (fun r => length r = t - 1) meas_rand ->
  length proof_rand = proof_len v -> Forall (fun r => length r = t - 1) proof_rand ->
  NoDup index -> Forall (fun j => j < n) index -> t <= length index ->
  shamir_shard meas meas_rand n = Ok meas_shares -> shamir_shard proof proof_rand n = Ok proof_shares ->
  mapM (fun j => bbcggi19_query v (nth j meas_shares []) (nth j proof_shares []) query_rand joint_rand 1) index = Ok vs ->
  shamir_unshard (map Z.of_nat index) vs = Ok ver -> bbcggi19_decide v ver = Ok true.
Proof.
  intros Lm Lpr Lj Lq Z Ep Hn Ht1 Lmr Fmr Lprr Fpr ND Fi Hti Es1 Es2 Ev Eu.
  assert (Lp : length proof = proof_len v).
  { destruct (prove_total HP v HV meas prove_rand joint_rand Lm Lpr Lj) as (p' & E & L). congruence. }
  apply (complete_decide HP v HV meas prove_rand joint_rand query_rand proof); try easy.
  now apply (shamir_verifier meas proof query_rand joint_rand meas_shares proof_shares meas_rand proof_rand t n index vs).
Qed.

(** Soundness with Shamir shares. *)
Theorem shamir_sound meas proof joint_rand meas_shares proof_shares meas_rand proof_rand t n index out d (Q : list (list F)) :
  length meas = vMEAS_LEN v -> length joint_rand = vJOINT_RAND_LEN v -> length proof = proof_len v ->
  valid_eval_plain v meas joint_rand 1 = Ok out -> Exists (fun x => x <> f0) out ->
  1 <= d ->
  (forall i, i < length (GADGETS v) ->
     DEGREE (nth i (GADGETS v) Mul) * (wire_poly_len (nth i (GADGET_CALLS v) 0) - 1) <= d) ->
  (Z.of_nat n < MODULUS P)%Z -> 1 <= t ->
  length meas_rand = vMEAS_LEN v -> Forall (fun r => length r = t - 1) meas_rand ->
  length proof_rand = proof_len v -> Forall (fun r => length r = t - 1) proof_rand ->
  NoDup index -> Forall (fun j => j < n) index -> t <= length index ->
  shamir_shard meas meas_rand n = Ok meas_shares -> shamir_shard proof proof_rand n = Ok proof_shares ->
  NoDup Q ->
  (forall q, In q Q -> length q = query_rand_len v /\ exists vs ver,
     mapM (fun j => bbcggi19_query v (nth j meas_shares []) (nth j proof_shares []) q joint_rand 1) index = Ok vs /\
     shamir_unshard (map Z.of_nat index) vs = Ok ver /\ bbcggi19_decide v ver = Ok true) ->
  (Z.of_nat (length Q) <= Z.of_nat d * MODULUS P ^ (Z.of_nat (query_rand_len v) - 1))%Z.
Proof.
  intros Lm Lj Lp EO EX Hd Hdeg Hn Ht1 Lmr Fmr Lprr Fpr ND Fi Hti Es1 Es2 NQ HQ.
  apply (sound HP v HV meas proof joint_rand out d Q); try easy.
  intros q Hq. destruct (HQ q Hq) as (Lq & vs & ver & E1 & E2 & E3). split; [exact Lq|]. exists ver. split; [|exact E3].
  now apply (shamir_verifier meas proof q joint_rand meas_shares proof_shares meas_rand proof_rand t n index vs).
Qed.
End SF2.
