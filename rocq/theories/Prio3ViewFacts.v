(** Proofs about Prio3ViewSpec.v. *)
From Verif Require Import Prio3ViewSpec Prio3Run Prio3Sound ZkFacts FlpProofs VecFacts FieldFacts BaseFacts CommonFacts.
Open Scope nat_scope.

Section G.
Context {P : FieldClass}.
Notation F := (F P).
Add Ring FringPW : (@F_ring P).

Lemma leader_vecs k len (s : list F) h : length s = len -> vecs k len h -> vecs (S k) len (leader_first len s h).
Proof.
  intros Hs [L Fh]. split; [cbn; lia|]. constructor; [|exact Fh]. apply zip_length_eq; [exact Hs | apply vsum_length].
Qed.
Lemma leader_sum len (s : list F) h : length s = len -> vsum len (leader_first len s h) = s.
Proof.
  intros Hs. unfold leader_first. assert (L : length (zip_with fsub s (vsum len h)) = len) by (apply zip_length_eq; [exact Hs | apply vsum_length]).
  rewrite vsum_cons by exact L. apply (vec_eq len); [apply zip_length_eq; [exact L|apply vsum_length] | exact Hs |].
  intros i Hi. rewrite (nth_zip_with _ _ _ _ f0 f0) by (rewrite ?vsum_length; lia).
  rewrite (nth_zip_with _ _ _ _ f0 f0) by (rewrite ?vsum_length; lia). ring.
Qed.
Lemma leader_unique k len (l : list (list F)) : vecs (S k) len l -> l = leader_first len (vsum len l) (tl l).
Proof.
  intros [L Fl]. destruct l as [|x l]; [discriminate|]. inversion Fl as [|? ? Hx Fl']; subst. unfold leader_first. cbn [tl]. f_equal.
  assert (Ls : length (vsum (length x) (x :: l)) = length x) by apply vsum_length.
  apply (vec_eq (length x)); [easy | apply zip_length_eq; [easy | apply vsum_length] |].
  intros i Hi. rewrite (nth_zip_with _ _ _ _ f0 f0) by (rewrite ?vsum_length; lia).
  rewrite vsum_cons by easy. rewrite (nth_zip_with _ _ _ _ f0 f0) by (rewrite ?vsum_length; lia). ring.
Qed.
Lemma tl_vecs k len (l : list (list F)) : vecs (S k) len l -> vecs k len (tl l).
Proof. intros [L Fl]. destruct l as [|x l]; [discriminate|]. inversion Fl; subst. split; [cbn in L; cbn; lia | easy]. Qed.

(** Sharings that agree outside [j] exist for every secret. *)
Lemma resharing k len j (s : list F) (l : list (list F)) : length s = len -> j <= k -> vecs (S k) len l ->
  exists l', vecs (S k) len l' /\ vsum len l' = s /\ without j l' = without j l.
Proof.
  intros Hs Hj V.
  destruct (share_hiding s (without j l) j) as (mr & Fm & Lm & (ms & Em & Om) & _).
  { rewrite Hs. apply without_Forall, V. }
  { rewrite (without_length j l k); [easy|apply V|easy]. }
  destruct (share_vecs s mr ms Fm Em) as [Vm Sm]. rewrite Lm, (without_length j l k (proj1 V) Hj), Hs in Vm. rewrite Hs in Sm.
  exists ms. repeat split; try apply Vm; try easy.
Qed.

Lemma pieces_eq {A} len n (u w : list A) : length u = len * n -> length w = len * n ->
  (forall k, k < n -> piece len k u = piece len k w) -> u = w.
Proof.
  intros Hu Hw H. rewrite <- (piece_concat_self len n u Hu), <- (piece_concat_self len n w Hw). f_equal.
  apply map_ext_in. intros k Hk. apply in_seq in Hk. apply H. lia.
Qed.
End G.

Lemma without_map {A B} (f : A -> B) j l : without j (map f l) = map f (without j l).
Proof. unfold without. now rewrite map_app, firstn_map, skipn_map. Qed.
Lemma mapM_map {A B} (f : A -> res B) (g : A -> B) l : (forall x, In x l -> f x = Ok (g x)) -> mapM f l = Ok (map g l).
Proof.
  induction l as [|x l IH]; intros H; [reflexivity|]. cbn [mapM map]. rewrite (H x (or_introl eq_refl)). cbn [bind].
  rewrite IH; [reflexivity|]. intros y Hy. apply H. now right.
Qed.
Lemma choose_nat {A} (n : nat) (Q : nat -> A -> Prop) (d : A) : (forall k, k < n -> exists x, Q k x) ->
  exists l, length l = n /\ forall k, k < n -> Q k (nth k l d).
Proof.
  induction n as [|n IH]; intros H; [exists []; split; [reflexivity|lia]|].
  destruct IH as (l & L & Hl); [intros; apply H; lia|]. destruct (H n (Nat.lt_succ_diag_r n)) as [x Hx].
  exists (l ++ [x]). split; [rewrite app_length; cbn; lia|]. intros k Hk.
  destruct (Nat.eq_dec k n) as [->|E].
  - rewrite app_nth2, L, Nat.sub_diag by lia. exact Hx.
  - rewrite app_nth1 by lia. apply Hl. lia.
Qed.

Section V.
Context {P : NttFieldClass} (HP : NttOk P) (v : Valid P) (HV : ValidOk v).
Context (X : XofClass) (ID : Z) (vks n m : nat) (Hn : 1 <= n) (HnM : (Z.of_nat n < MODULUS P)%Z).
Notation F := (F P).
Let p : Prio3 := {| p3_field := P; p3_flp := FlpBBCGGI19 v; p3_xof := X; p3_ID := ID;
              p3_VERIFY_KEY_SIZE := vks; p3_SHARES := n; p3_PROOFS := m |}.

Context (qr jr : list F) (Lq : length qr = query_rand_len v * m) (Lj : length jr = vJOINT_RAND_LEN v * m)
  (Hq : forall k, k < m -> test_points_ok v (piece (query_rand_len v) k qr)).
Notation qk k := (piece (query_rand_len v) k qr).
Notation jk k := (piece (vJOINT_RAND_LEN v) k jr).

Definition getl {A} (r : res (list A)) : list A := match r with Ok x => x | Raise _ => [] end.
Definition qv (k : nat) (x y : list F) : list F := getl (bbcggi19_query v x (piece (proof_len v) k y) (qk k) (jk k) n).
Definition pv (meas pr : list F) (k : nat) : list F := getl (bbcggi19_prove v meas (piece (prove_rand_len v) k pr) (jk k)).

Lemma qv_ok k x y : k < m -> length x = vMEAS_LEN v -> length y = proof_len v * m ->
  bbcggi19_query v x (piece (proof_len v) k y) (qk k) (jk k) n = Ok (qv k x y) /\ length (qv k x y) = verifier_len v.
Proof.
  intros Hk Hx Hy.
  destruct (proj1 (query_guard HP v HV x (piece (proof_len v) k y) (qk k) (jk k) n Hx (piece_length _ _ m _ Hy Hk)
    (piece_length _ _ m _ Lq Hk) (piece_length _ _ m _ Lj Hk) Hn HnM) (Hq k Hk)) as (w & E & L).
  unfold qv. rewrite E. easy.
Qed.
Lemma pv_ok meas pr k : k < m -> length meas = vMEAS_LEN v -> length pr = prove_rand_len v * m ->
  bbcggi19_prove v meas (piece (prove_rand_len v) k pr) (jk k) = Ok (pv meas pr k) /\ length (pv meas pr k) = proof_len v.
Proof.
  intros Hk Hm Hr.
  destruct (prove_total HP v HV meas (piece (prove_rand_len v) k pr) (jk k) Hm (piece_length _ _ m _ Hr Hk) (piece_length _ _ m _ Lj Hk)) as (w & E & L).
  unfold pv. rewrite E. easy.
Qed.
Definition proofs_of (meas pr : list F) : list F := concat (map (pv meas pr) (seq 0 m)).
Lemma pv_all meas pr : length meas = vMEAS_LEN v -> length pr = prove_rand_len v * m ->
  Forall (fun x => length x = proof_len v) (map (pv meas pr) (seq 0 m)).
Proof. intros. apply Forall_forall. intros x Hx. apply in_map_iff in Hx as (k & <- & Hk). apply in_seq in Hk. apply pv_ok; try easy; lia. Qed.
Lemma proofs_of_length meas pr : length meas = vMEAS_LEN v -> length pr = prove_rand_len v * m -> length (proofs_of meas pr) = proof_len v * m.
Proof. intros. unfold proofs_of. rewrite (length_concat_const _ (proof_len v)) by now apply pv_all. rewrite map_length, seq_length. lia. Qed.
Lemma proofs_of_piece meas pr k : k < m -> length meas = vMEAS_LEN v -> length pr = prove_rand_len v * m ->
  piece (proof_len v) k (proofs_of meas pr) = pv meas pr k.
Proof.
  intros Hk ? ?. unfold proofs_of. rewrite piece_concat by (try (now apply pv_all); rewrite map_length, seq_length; easy).
  rewrite (nth_map' _ _ _ 0) by now rewrite seq_length. now rewrite seq_nth.
Qed.

Definition vss_of (ms ps : list (list F)) : list (list (list F)) :=
  map (fun '(x, y) => map (fun k => qv k x y) (seq 0 m)) (combine ms ps).

Lemma verifiers_ok x y : length x = vMEAS_LEN v -> length y = proof_len v * m ->
  proof_verifiers p x y qr jr = Ok (map (fun k => qv k x y) (seq 0 m)).
Proof. intros Hx Hy. apply mapM_map. intros k Hk. apply in_seq in Hk. apply qv_ok; try easy; lia. Qed.

Lemma view_is j (meas pr : list F) (hm hp : list (list F)) : length meas = vMEAS_LEN v -> p3_coins_wf p (pr, hm, hp) ->
  prio3_view p j meas qr jr (pr, hm, hp) =
  Ok (without j (leader_first (vMEAS_LEN v) meas hm), without j (leader_first (proof_len v * m) (proofs_of meas pr) hp),
      vss_of (leader_first (vMEAS_LEN v) meas hm) (leader_first (proof_len v * m) (proofs_of meas pr) hp)).
Proof.
  intros Hm (Hr & Vm & Vp). cbn [p3_flp p3_field p p3_PROOFS p3_SHARES] in Hr, Vm, Vp.
  change (MEAS_LEN (FlpBBCGGI19 v)) with (vMEAS_LEN v) in Vm. change (PROOF_LEN (FlpBBCGGI19 v)) with (proof_len v) in Vp.
  change (PROVE_RAND_LEN (FlpBBCGGI19 v)) with (prove_rand_len v) in Hr.
  assert (EP : mapM (fun k => flp_prove (p3_flp p) meas (piece (PROVE_RAND_LEN (p3_flp p)) k pr)
                 (piece (JOINT_RAND_LEN (p3_flp p)) k jr)) (seq 0 (p3_PROOFS p)) = Ok (map (pv meas pr) (seq 0 m))).
  { apply mapM_map. intros k Hk. apply in_seq in Hk. apply (pv_ok meas pr k); try easy; lia. }
  unfold prio3_view. cbv zeta. refine (eq_trans (f_equal (fun z => bind z _) EP) _). cbn [bind].
  change (concat (map (pv meas pr) (seq 0 m))) with (proofs_of meas pr).
  assert (V1 := leader_vecs (n - 1) (vMEAS_LEN v) meas hm Hm Vm).
  assert (V2 := leader_vecs (n - 1) (proof_len v * m) (proofs_of meas pr) hp (proofs_of_length meas pr Hm Hr) Vp).
  change (MEAS_LEN (p3_flp p)) with (vMEAS_LEN v). change (PROOF_LEN (p3_flp p) * p3_PROOFS p) with (proof_len v * m).
  rewrite (mapM_map _ (fun '(x, y) => map (fun k => qv k x y) (seq 0 m))); [reflexivity|].
  intros [x y] Hxy. pose proof (in_combine_l _ _ _ _ Hxy) as Ix. pose proof (in_combine_r _ _ _ _ Hxy) as Iy.
  destruct V1 as [_ F1], V2 as [_ F2]. rewrite Forall_forall in F1, F2.
  apply verifiers_ok; [now apply F1 | now apply F2].
Qed.

(** The column of verifiers of one proof. *)
Lemma column k ms ps d : k < m -> map (fun row => nth k row d) (vss_of ms ps) = map (fun '(x, y) => qv k x y) (combine ms ps).
Proof.
  intros Hk. unfold vss_of. rewrite map_map. apply map_ext. intros [x y]. rewrite (nth_map' _ _ _ 0) by now rewrite seq_length. now rewrite seq_nth.
Qed.
Lemma column_vecs k ms ps : k < m -> vecs n (vMEAS_LEN v) ms -> vecs n (proof_len v * m) ps ->
  vecs n (verifier_len v) (map (fun '(x, y) => qv k x y) (combine ms ps)).
Proof.
  intros Hk [L1 F1] [L2 F2]. split; [rewrite map_length, combine_length; lia|]. apply Forall_forall. intros z Hz.
  apply in_map_iff in Hz as ([x y] & <- & Hxy). rewrite Forall_forall in F1, F2.
  apply qv_ok; [easy | apply F1, (in_combine_l _ _ _ _ Hxy) | apply F2, (in_combine_r _ _ _ _ Hxy)].
Qed.
Lemma column_sum k meas pr ms ps : k < m -> vecs n (vMEAS_LEN v) ms -> vecs n (proof_len v * m) ps ->
  length meas = vMEAS_LEN v -> length pr = prove_rand_len v * m ->
  vsum (vMEAS_LEN v) ms = meas -> vsum (proof_len v * m) ps = proofs_of meas pr ->
  honest_verifier v meas (piece (prove_rand_len v) k pr) (qk k) (jk k)
  = Ok (vsum (verifier_len v) (map (fun '(x, y) => qv k x y) (combine ms ps))).
Proof.
  intros Hk Vm Vp Hm Hr Sm Sp. unfold honest_verifier. rewrite (proj1 (pv_ok meas pr k Hk Hm Hr)). cbn [bind].
  assert (Vp' : vecs n (proof_len v) (map (piece (proof_len v) k) ps)).
  { destruct Vp as [L2 F2]. split; [now rewrite map_length|]. apply Forall_forall. intros x Hx. apply in_map_iff in Hx as (y & <- & Hy).
    rewrite Forall_forall in F2. apply piece_length with m; [now apply F2 | easy]. }
  destruct (query_linear_mapM HP v HV n ms (map (piece (proof_len v) k) ps) (qk k) (jk k) Hn HnM Vm Vp'
    (piece_length _ _ m _ Lq Hk) (piece_length _ _ m _ Lj Hk) (Hq k Hk)) as (vs & Vv & Eq & E1).
  rewrite Sm, (vsum_piece _ m) in E1 by (try easy; apply Vp). rewrite Sp, (proofs_of_piece meas pr k Hk Hm Hr) in E1.
  rewrite E1. do 2 f_equal.
  assert (E2 : mapM (fun '(x, y) => bbcggi19_query v x y (qk k) (jk k) n) (combine ms (map (piece (proof_len v) k) ps))
     = Ok (map (fun '(x, y) => qv k x y) (combine ms ps))).
  { clear -Vm Vp Hk Lq Lj Hq Hn HnM HP HV. destruct Vm as [L1 F1], Vp as [L2 F2]. clear L1 L2.
    revert ps F2. induction F1 as [|x ms Hx F1 IH]; intros [|y ps] F2; try reflexivity.
    inversion F2; subst. cbn [map combine mapM]. rewrite (proj1 (qv_ok k x y Hk Hx ltac:(assumption))). cbn [bind].
    now rewrite IH. }
  rewrite E2 in Eq. now injection Eq.
Qed.

Theorem view_independent j (meas meas' : list F) :
  length meas = vMEAS_LEN v -> length meas' = vMEAS_LEN v ->
  (forall k, k < m -> circuit_zero v meas (jk k)) -> (forall k, k < m -> circuit_zero v meas' (jk k)) -> j < n ->
  forall c, p3_coins_wf p c ->
  exists view, prio3_view p j meas qr jr c = Ok view /\
  exists c', p3_coins_wf p c' /\ prio3_view p j meas' qr jr c' = Ok view /\
    forall c'', p3_coins_wf p c'' -> prio3_view p j meas' qr jr c'' = Ok view -> c'' = c'.
Proof.
  intros Hm Hm' HC HC' Hjn ((pr & hm) & hp) W. eexists. split; [apply (view_is j meas pr hm hp Hm W)|].
  pose proof W as (Hr & Vm0 & Vp0). change (length pr = prove_rand_len v * m) in Hr. change (vecs (n - 1) (vMEAS_LEN v) hm) in Vm0.
  change (vecs (n - 1) (proof_len v * m) hp) in Vp0.
  set (ms := leader_first (vMEAS_LEN v) meas hm). set (ps := leader_first (proof_len v * m) (proofs_of meas pr) hp).
  assert (EN : S (n - 1) = n) by lia.
  assert (Vm : vecs n (vMEAS_LEN v) ms) by (rewrite <- EN; now apply leader_vecs).
  assert (Vp : vecs n (proof_len v * m) ps) by (rewrite <- EN; apply leader_vecs; [now apply proofs_of_length | easy]).
  assert (Sm : vsum (vMEAS_LEN v) ms = meas) by now apply leader_sum.
  assert (Sp : vsum (proof_len v * m) ps = proofs_of meas pr) by now apply leader_sum, proofs_of_length.
  (* the prove randomness of the other measurement *)
  destruct (choose_nat m (fun k r => length r = prove_rand_len v /\
      honest_verifier v meas' r (qk k) (jk k) = honest_verifier v meas (piece (prove_rand_len v) k pr) (qk k) (jk k) /\
      forall r', length r' = prove_rand_len v ->
        honest_verifier v meas' r' (qk k) (jk k) = honest_verifier v meas (piece (prove_rand_len v) k pr) (qk k) (jk k) -> r' = r) [])
    as (rs & Lrs & Hrs).
  { intros k Hk. assert (A1 := piece_length _ _ m _ Lq Hk). assert (A2 := piece_length _ _ m _ Lj Hk).
    destruct (proj1 (zk_verifier HP v HV meas (qk k) (jk k) Hm A2 A1 (HC k Hk) (Hq k Hk)) (piece (prove_rand_len v) k pr)
      (piece_length _ _ m _ Hr Hk)) as (w & Hw & ES).
    destruct (proj2 (zk_verifier HP v HV meas' (qk k) (jk k) Hm' A2 A1 (HC' k Hk) (Hq k Hk)) w Hw) as (r & L & E & U).
    exists r. rewrite ES. easy. }
  assert (Frs : Forall (fun r => length r = prove_rand_len v) rs).
  { apply Forall_forall. intros x Hx. apply (In_nth _ _ []) in Hx as (k & Hk & <-). apply Hrs. lia. }
  set (pr' := concat rs).
  assert (Hr' : length pr' = prove_rand_len v * m) by (unfold pr'; rewrite (length_concat_const _ (prove_rand_len v)) by easy; lia).
  assert (Pr' : forall k, k < m -> piece (prove_rand_len v) k pr' = nth k rs []).
  { intros k Hk. unfold pr'. apply piece_concat; [easy | lia]. }
  destruct (resharing (n - 1) (vMEAS_LEN v) j meas' ms Hm' ltac:(lia) ltac:(now rewrite EN)) as (ms' & Vm' & Sm' & Om).
  destruct (resharing (n - 1) (proof_len v * m) j (proofs_of meas' pr') ps (proofs_of_length _ _ Hm' Hr') ltac:(lia) ltac:(now rewrite EN))
    as (ps' & Vp' & Sp' & Op).
  pose proof (leader_unique _ _ _ Vm') as Lm'. pose proof (leader_unique _ _ _ Vp') as Lp'. rewrite Sm' in Lm'. rewrite Sp' in Lp'.
  pose proof (tl_vecs _ _ _ Vm') as Tm'. pose proof (tl_vecs _ _ _ Vp') as Tp'.
  remember (tl ms') as hm' eqn:Ehm. remember (tl ps') as hp' eqn:Ehp.
  assert (W' : p3_coins_wf p (pr', hm', hp')).
  { split; [exact Hr'|]. split; [exact Tm' | exact Tp']. }
  rewrite EN in Vm', Vp'.
  exists (pr', hm', hp'). split; [exact W'|].
  assert (Combo : forall a b a' b' : list (list F), length a = n -> length b = n -> length a' = n -> length b' = n ->
     without j a = without j a' -> without j b = without j b' -> without j (vss_of a b) = without j (vss_of a' b')).
  { intros a b a' b' La Lb La' Lb' E1 E2. unfold vss_of. rewrite !without_map, !without_combine by lia. now rewrite E1, E2. }
  assert (RowLen : forall a b : list (list F), Forall (fun row => length row = m) (vss_of a b)).
  { intros a b. apply Forall_forall. intros row Hrow. apply in_map_iff in Hrow as ([x y] & <- & _). now rewrite map_length, seq_length. }
  split.
  - refine (eq_trans (view_is j meas' pr' _ _ Hm' W') _). rewrite <- Lm', <- Lp', Om, Op.
    assert (vss_of ms' ps' = vss_of ms ps) as ->; [|reflexivity].
    pose proof (Combo ms' ps' ms ps (proj1 Vm') (proj1 Vp') (proj1 Vm) (proj1 Vp) Om Op) as EW.
    assert (Cols : forall k, k < m -> map (fun row => nth k row []) (vss_of ms' ps') = map (fun row => nth k row []) (vss_of ms ps)).
    { intros k Hk. apply (vecs_eq n (verifier_len v) j).
      - rewrite column by easy. now apply column_vecs.
      - rewrite column by easy. now apply column_vecs.
      - easy.
      - now rewrite !without_map, EW.
      - rewrite !column by easy. pose proof (column_sum k meas pr ms ps Hk Vm Vp Hm Hr Sm Sp) as C1.
        pose proof (column_sum k meas' pr' ms' ps' Hk Vm' Vp' Hm' Hr' Sm' Sp') as C2.
        rewrite (Pr' k Hk) in C2. pose proof (eq_trans (eq_sym C2) (eq_trans (proj1 (proj2 (Hrs k Hk))) C1)) as C3. exact (f_equal getl C3). }
    assert (LL : length (vss_of ms' ps') = length (vss_of ms ps)).
    { unfold vss_of. rewrite !map_length, !combine_length. destruct Vm, Vp, Vm', Vp'. lia. }
    apply (nth_ext _ _ [] [] LL). intros i Hi. pose proof (RowLen ms' ps') as R1. pose proof (RowLen ms ps) as R2.
    rewrite Forall_forall in R1, R2.
    assert (A1 : length (nth i (vss_of ms' ps') []) = m) by (apply R1, nth_In; easy).
    assert (A2 : length (nth i (vss_of ms ps) []) = m) by (apply R2, nth_In; lia).
    apply (nth_ext _ _ [] []); [congruence|]. intros k Hk. rewrite A1 in Hk.
    pose proof (f_equal (fun l => nth i l []) (Cols k Hk)) as E. cbv beta in E.
    rewrite !(nth_map' _ _ _ []) in E by lia. exact E.
  - intros ((pr2 & hm2) & hp2) W2 E2. pose proof (eq_trans (eq_sym (view_is j meas' pr2 hm2 hp2 Hm' W2)) E2) as E2'. clear E2. rename E2' into E2.
    pose proof W2 as (Hr2 & Vm2 & Vp2). change (length pr2 = prove_rand_len v * m) in Hr2. change (vecs (n - 1) (vMEAS_LEN v) hm2) in Vm2.
    change (vecs (n - 1) (proof_len v * m) hp2) in Vp2.
    assert (O1 := f_equal (fun r => match r with Ok z => fst (fst z) | Raise _ => [] end) E2).
    assert (O2 := f_equal (fun r => match r with Ok z => snd (fst z) | Raise _ => [] end) E2).
    assert (O3 := f_equal (fun r => match r with Ok z => snd z | Raise _ => [] end) E2). cbn [fst snd] in O1, O2, O3. clear E2.
    set (ms2 := leader_first (vMEAS_LEN v) meas' hm2) in *.
    set (ps2 := leader_first (proof_len v * m) (proofs_of meas' pr2) hp2) in *.
    assert (VM2 : vecs n (vMEAS_LEN v) ms2) by (rewrite <- EN; now apply leader_vecs).
    assert (VP2 : vecs n (proof_len v * m) ps2) by (rewrite <- EN; apply leader_vecs; [now apply proofs_of_length | easy]).
    assert (SM2 : vsum (vMEAS_LEN v) ms2 = meas') by now apply leader_sum.
    assert (SP2 : vsum (proof_len v * m) ps2 = proofs_of meas' pr2) by now apply leader_sum, proofs_of_length.
    assert (pr2 = pr') as ->.
    { apply (pieces_eq (prove_rand_len v) m); try easy. intros k Hk. refine (eq_trans _ (eq_sym (Pr' k Hk))). apply Hrs; [easy | now apply piece_length with m|].
      refine (eq_trans (column_sum k meas' pr2 ms2 ps2 Hk VM2 VP2 Hm' Hr2 SM2 SP2) (eq_trans _ (eq_sym (column_sum k meas pr ms ps Hk Vm Vp Hm Hr Sm Sp)))).
      do 2 f_equal. rewrite <- (column k ms2 ps2 []), <- (column k ms ps []) by easy. now rewrite O3. }
    assert (ms2 = ms') as EM by (apply (vecs_eq n (vMEAS_LEN v) j); try easy; congruence).
    assert (ps2 = ps') as EP by (apply (vecs_eq n (proof_len v * m) j); try easy; congruence).
    rewrite Ehm, Ehp, <- EM, <- EP. reflexivity.
Qed.
End V.

Lemma mapM_nth {A B} (f : A -> res B) l r (d : A) (e : B) : length l = length r ->
  (forall i, i < length l -> f (nth i l d) = Ok (nth i r e)) -> mapM f l = Ok r.
Proof.
  revert r. induction l as [|x l IH]; intros [|y r] L H; try discriminate; [reflexivity|]. cbn [mapM].
  pose proof (H 0 ltac:(cbn; lia)) as H0. cbn [nth] in H0. rewrite H0. cbn [bind].
  rewrite (IH r); [reflexivity | cbn in L; lia|]. intros i Hi. exact (H (S i) ltac:(cbn; lia)).
Qed.

Section Real.
Context {P : NttFieldClass} (HP : NttOk P) (v : Valid P) (HV : ValidOk v) (HT : truncate_linear v).
Context (X : XofClass) (ID : Z) (vks n m : nat).
Notation F := (F P).
Let p : Prio3 := {| p3_field := P; p3_flp := FlpBBCGGI19 v; p3_xof := X; p3_ID := ID;
              p3_VERIFY_KEY_SIZE := vks; p3_SHARES := n; p3_PROOFS := m |}.
Context (lim : Z) (HO : Prio3Ok p lim).

Theorem real_view key ctx (M : vMeasurement v) (meas : list F) nonce rand public iss (d : Prio3InputShare P)
  (st ver : nat -> list F * option bytes) :
  ctx_ok ctx -> length nonce = p3_NONCE_SIZE -> length rand = RAND_SIZE p ->
  valid_encode v M = Ok meas -> length meas = vMEAS_LEN v ->
  p3_shard p ctx M nonce rand = Ok (public, iss) ->
  (forall j, j < n -> p3_verify_init p key ctx j tt nonce public (nth j iss d) = Ok (st j, ver j)) ->
  exists (prove_seed : bytes) (prove_rand : list F) (ms ps : list (list F)) (blinds : list (option bytes)) (qr jr : list F) (vss : list (list (list F))),
    p3_coins_wf p (prove_rand, tl ms, tl ps) /\ prove_rands p ctx prove_seed = Ok prove_rand /\
    (forall j, j < n -> expand_input_share p ctx j (nth j iss d) = Ok (nth j ms [], nth j ps [], nth j blinds None)) /\
    query_rands p key ctx nonce = Ok qr /\
    (if 0 <? vJOINT_RAND_LEN v
     then exists parts seed, public = Some parts /\ joint_rand_seed p ctx parts = Ok seed /\ joint_rands p ctx seed = Ok jr
     else public = None /\ jr = []) /\
    length vss = n /\ (forall j, j < n -> fst (ver j) = concat (nth j vss [])) /\
    (forall j, prio3_view p j meas qr jr (prove_rand, tl ms, tl ps) = Ok (without j ms, without j ps, vss)).
Proof.
  intros Hc Hn Hr He Hl HS HI.
  pose proof (shard_post p lim HO (test_points_ok v) (circuit_zero v) (flp_ok HP v HV HT) ctx M meas nonce rand Hc Hn Hr He Hl) as HR.
  rewrite HS in HR. cbn [post] in HR. destruct HR as (ms & ps & blinds & prove_seed & pr & jr & proofs & R).
  destruct (report_joint p lim HO ctx meas nonce rand public iss ms ps blinds prove_seed pr jr proofs Hc R) as (Ljr & seed & parts & HJ & HJ2).
  pose proof (po_shares p lim HO) as H2. cbn [p3_SHARES p] in H2.
  pose proof (rp_meas_vecs _ _ _ _ _ _ _ _ _ _ _ _ _ _ R) as Vm. pose proof (rp_proof_vecs _ _ _ _ _ _ _ _ _ _ _ _ _ _ R) as Vp.
  change (vecs n (vMEAS_LEN v) ms) in Vm. change (vecs n (proof_len v * m) ps) in Vp.
  pose proof (rp_expand _ _ _ _ _ _ _ _ _ _ _ _ _ _ R) as HE. change (p3_SHARES p) with n in HE.
  assert (Hps : forall j, j < n -> length (nth j ps []) = proof_len v * m).
  { intros j Hj. destruct Vp as [L1 F1]. rewrite Forall_forall in F1. apply F1, nth_In. lia. }
  assert (HQ : forall j, j < n -> exists qr vss, query_rands p key ctx nonce = Ok qr /\
     proof_verifiers p (nth j ms []) (nth j ps []) qr jr = Ok vss /\ fst (ver j) = concat vss).
  { intros j Hj. specialize (HI j Hj). specialize (HE j Hj d). specialize (HJ j Hj). destruct (ver j) as [vj pj] eqn:Ev.
    destruct (verify_init_verifiers P v X ID vks n m ltac:(lia) key ctx j nonce public (nth j iss d) (st j) vj pj (nth j ms []) (nth j ps [])
      (nth j blinds None) HI HE (Hps j Hj)) as (qr & jr' & vss & E1 & E2 & E3 & E4).
    exists qr, vss. split; [exact E1|]. split; [|exact E3].
    assert (jr' = jr) as ->; [|exact E2].
    unfold p3_verify_init in HI. apply bind_Ok in HI as ([[a b] c] & HX & HI). rewrite HE in HX.
    assert (EE := f_equal (fun r => match r with Ok z => z | Raise _ => ([], [], None) end) HX). cbv beta iota in EE.
    assert (Ea : nth j ms [] = a) by exact (f_equal (fun z => fst (fst z)) EE). assert (Ec : nth j blinds None = c) by exact (f_equal snd EE).
    rewrite Ea in HJ. rewrite Ec in HJ. clear EE HX.
    apply bind_Ok in HI as (o & _ & HI). apply bind_Ok in HI as ([[sd pt] jr0] & HX & HI). rewrite HJ in HX.
    assert (EE := f_equal (fun r => match r with Ok z => z | Raise _ => (None, None, []) end) HX). cbv beta iota in EE.
    assert (Es : seed = sd) by exact (f_equal (fun z => fst (fst z)) EE).
    assert (Est : snd (st j) = sd).
    { apply bind_Ok in HI as (? & _ & HI). apply bind_Ok in HI as ([[[? ?] ?] ?] & _ & HI).
      exact (f_equal (fun r => match r with Ok z => snd (fst z) | Raise _ => None end) (eq_sym HI)). }
    pose proof (rp_joint _ _ _ _ _ _ _ _ _ _ _ _ _ _ R) as RJ. change (JOINT_RAND_LEN (p3_flp p)) with (vJOINT_RAND_LEN v) in RJ, HJ2.
    destruct (0 <? vJOINT_RAND_LEN v) eqn:EJ.
    - destruct E4 as (s4 & E41 & E42). destruct RJ as (pp & s5 & Epub & Lpp & Hparts & Hs5 & Hjr).
      assert (s4 = s5) as ->; [|exact (f_equal getl (eq_trans (eq_sym E42) Hjr))].
      assert (E43 : seed = Some s4) by exact (eq_trans Es (eq_trans (eq_sym Est) E41)). unfold verify_joint_rand in HJ. change (JOINT_RAND_LEN (p3_flp p)) with (vJOINT_RAND_LEN v) in HJ. rewrite EJ in HJ.
      destruct (Hparts j Hj) as (bl & Ebl & _ & Hpart & _). rewrite <- Ec, Ebl, Epub in HJ. rewrite Ea in Hpart. rewrite Hpart in HJ. cbn [bind] in HJ.
      rewrite set_lt in HJ by (change (p3_SHARES p) with n in Lpp; lia). cbn [bind] in HJ.
      assert (U : upd pp j (nth j pp []) = pp).
      { change (p3_SHARES p) with n in Lpp. apply (nth_ext' ([] : bytes)); [apply length_upd|]. intros i Hi.
        rewrite nth_upd by lia. destruct (j =? i) eqn:Eji; [|easy]. apply Nat.eqb_eq in Eji. now subst. }
      rewrite U, Hs5 in HJ. cbn [bind] in HJ. rewrite Hjr in HJ. cbn [bind] in HJ.
      assert (EE2 := f_equal (fun r => match r with Ok z => fst (fst z) | Raise _ => None end) HJ). cbn in EE2. congruence.
    - destruct RJ as (_ & E & _). rewrite E4. symmetry. exact E. }
  destruct (HQ 0 ltac:(lia)) as (qr & _ & Eqr & _).
  destruct (choose_nat n (fun j vss => proof_verifiers p (nth j ms []) (nth j ps []) qr jr = Ok vss /\ fst (ver j) = concat vss) []) as (vss & Lv & Hv).
  { intros j Hj. destruct (HQ j Hj) as (qr' & x & E1 & E2 & E3). exists x. rewrite Eqr in E1. split; [|exact E3].
    assert (qr = qr') as -> by exact (f_equal getl E1). exact E2. }
  assert (EN : S (n - 1) = n) by lia.
  assert (Lpr : length pr = prove_rand_len v * m).
  { pose proof (rp_prove_rand _ _ _ _ _ _ _ _ _ _ _ _ _ _ R) as E. unfold prove_rands in E.
    apply bind_Ok in E as (? & _ & E). apply bind_Ok in E as (? & _ & E). apply expand_len in E. exact E. }
  exists prove_seed, pr, ms, ps, blinds, qr, jr, vss. split.
  { split; [exact Lpr|]. split; [apply (tl_vecs (n - 1)); rewrite EN; exact Vm | apply (tl_vecs (n - 1)); rewrite EN; exact Vp]. }
  repeat apply conj.
  - exact (rp_prove_rand _ _ _ _ _ _ _ _ _ _ _ _ _ _ R).
  - intros j Hj. apply HE. exact Hj.
  - exact Eqr.
  - pose proof (rp_joint _ _ _ _ _ _ _ _ _ _ _ _ _ _ R) as RJ. change (JOINT_RAND_LEN (p3_flp p)) with (vJOINT_RAND_LEN v) in RJ.
    destruct (0 <? vJOINT_RAND_LEN v); [|now destruct RJ as (? & ? & _)]. destruct RJ as (pp & s & E1 & _ & _ & E2 & E3). now exists pp, s.
  - exact Lv.
  - intros j Hj. now apply Hv.
  - intros j. unfold prio3_view. cbv zeta.
    pose proof (rp_prove _ _ _ _ _ _ _ _ _ _ _ _ _ _ R) as RP. change (p3_PROOFS p) with m in RP.
    pose proof (rp_proofs _ _ _ _ _ _ _ _ _ _ _ _ _ _ R) as RL. change (p3_PROOFS p) with m in RL.
    assert (EP : mapM (fun k => flp_prove (p3_flp p) meas (piece (PROVE_RAND_LEN (p3_flp p)) k pr)
                 (piece (JOINT_RAND_LEN (p3_flp p)) k jr)) (seq 0 (p3_PROOFS p)) = Ok proofs).
    { apply (mapM_nth _ _ _ 0 []); [rewrite seq_length; now rewrite RL|]. intros i Hi. rewrite seq_length in Hi. rewrite seq_nth by exact Hi. now apply RP. }
    refine (eq_trans (f_equal (fun z => bind z _) EP) _). cbn [bind].
    pose proof (rp_meas _ _ _ _ _ _ _ _ _ _ _ _ _ _ R) as SM. pose proof (rp_proof _ _ _ _ _ _ _ _ _ _ _ _ _ _ R) as SP.
    assert (E1 : leader_first (MEAS_LEN (p3_flp p)) meas (tl ms) = ms).
    { rewrite <- SM. symmetry. apply (leader_unique (n - 1)). rewrite EN. exact Vm. }
    assert (E2 : leader_first (PROOF_LEN (p3_flp p) * p3_PROOFS p) (concat proofs) (tl ps) = ps).
    { rewrite <- SP. symmetry. apply (leader_unique (n - 1)). rewrite EN. exact Vp. }
    refine (eq_ind ms (fun L1 => bind (mapM _ (combine L1 _)) (fun vs => Ok (without j L1, _, vs)) = _) _ _ (eq_sym E1)).
    refine (eq_ind ps (fun L2 => bind (mapM _ (combine ms L2)) (fun vs => Ok (without j ms, without j L2, vs)) = _) _ _ (eq_sym E2)).
    assert (EM : mapM (fun '(x, y) => proof_verifiers p x y qr jr) (combine ms ps) = Ok vss).
    { assert (LC : length ms = length ps) by (destruct Vm, Vp; congruence).
      apply (mapM_nth _ _ _ ([], []) []); [rewrite combine_length, <- LC, Nat.min_id; destruct Vm; congruence|].
      intros i Hi. rewrite combine_length, <- LC, Nat.min_id in Hi. rewrite combine_nth by exact LC. apply Hv. destruct Vm. lia. }
    refine (eq_trans (f_equal (fun z => bind z _) EM) _). reflexivity.
Qed.
End Real.
