(** What the verifiers of Prio3Count accept, as an explicit equation, and what
    they do with a tampered report. *)
From Coq Require Import Strings.String.
From Verif Require Import FlpProofs CircuitInstances FlpFacts InterpFacts Prio3Spec Prio3Facts Prio3Sound CountSpec Prio3Run.
Open Scope nat_scope.

Section CT.
Context {P : NttFieldClass} (HP : NttOk P) (Hf : fits P Mul 1).
Notation F := (F P).
Notation root := (nth_root P).
Let Hp : prime (MODULUS P) := ntt_prime P HP.
Add Ring FringCT : (@F_ring P).

Lemma count_log : 2 <= gen_log P.
Proof.
  unfold fits in Hf. change (np2 (gadget_poly_len (DEGREE Mul) (wire_poly_len 1))) with 4 in Hf.
  rewrite (ntt_order P HP) in Hf. destruct (le_lt_dec 2 (gen_log P)); [easy|].
  assert (gen_log P = 1 \/ gen_log P = 0) as [E | E] by lia; rewrite E in Hf; exfalso; apply Hf; reflexivity.
Qed.

Lemma quarter_sq : fmul (root 2) (root 2) = fneg f1.
Proof.
  pose proof (root_half HP 2 ltac:(pose proof count_log; lia)) as H.
  rewrite <- H. cbn. ring.
Qed.
Lemma half_root : root 1 = fneg f1.
Proof.
  pose proof (root_half HP 1 ltac:(pose proof count_log; lia)) as H. rewrite <- H. cbn. ring.
Qed.

Lemma ipoly_scale L (ys : list F) c x : L <= gen_log P -> length ys <= 2 ^ L ->
  peval (ipoly L (map (fmul c) ys)) x = fmul c (peval (ipoly L ys) x).
Proof.
  intros HL Hl. destruct (ipoly_spec HP L ys HL Hl) as [H1 H2].
  rewrite <- (peval_map_scale _ c). apply ipoly_unique; rewrite ?map_length; try easy.
  intros i Hi. rewrite peval_map_scale, H2 by easy.
  rewrite (nth_map' _ _ _ f0) by easy. easy.
Qed.

Notation two := (fadd f1 f1 : F).
Notation four := (fmul two two : F).

Lemma two_neq0 : two <> f0.
Proof.
  intros C. pose proof (ntt_odd P HP) as H. apply (f_equal val) in C. revert C.
  unfold fadd, f1, f0. rewrite !val_fof, (Z.mod_small 1), !Z.mod_small; lia.
Qed.
Lemma four_neq0 : four <> f0.
Proof. intros C. apply (fmul_0 Hp) in C. destruct C as [C|C]; now apply two_neq0. Qed.

Lemma wire_value s x t : fmul two (peval (ipoly 1 [s; x]) t) = wire2 s x t.
Proof.
  pose proof count_log as Hg.
  rewrite <- ipoly_scale by (cbn; lia).
  rewrite (ipoly_unique HP 1 _ [fadd s x; fsub s x]); cbn [length map]; [|lia|cbn; lia|lia|].
  - unfold wire2. cbn. ring.
  - intros i Hi. rewrite half_root. destruct i as [|[|i]]; [| |lia]; cbn; ring.
Qed.

Lemma quad_value g0 g1 g2 t : fmul four (peval (ipoly 2 [g0; g1; g2]) t) = quad4 g0 g1 g2 t.
Proof.
  pose proof count_log as Hg. pose proof quarter_sq as Hq.
  rewrite <- ipoly_scale by (cbn; lia). set (i := root 2) in *.
  rewrite (ipoly_unique HP 2 _
    [fadd (fadd (fmul (fsub f1 i) g0) (fmul two g1)) (fmul (fadd f1 i) g2);
     fmul two (fsub g0 g2);
     fadd (fsub (fmul (fadd f1 i) g0) (fmul two g1)) (fmul (fsub f1 i) g2)]); cbn [length map]; [|lia|cbn; lia|lia|].
  - unfold quad4. cbn [peval fold_right]. fold i. ring [Hq].
  - intros k Hk. fold i. clearbody i. destruct k as [|[|[|k]]]; [| | |lia]; unfold npow; cbn; rewrite ?Hq; ring [Hq].
Qed.

Lemma count_flp x s0 s1 g0 g1 g2 t : fmul t t <> f1 ->
  exists ver, bbcggi19_query (Count P) [x] [s0; s1; g0; g1; g2] [t] [] 1 = Ok ver /\
    bbcggi19_decide (Count P) ver = Ok (count_accepts x [s0; s1; g0; g1; g2] t).
Proof.
  intros Ht. pose proof (Count_ok Hf) as HV. pose proof (ntt_odd P HP).
  destruct (query_ok HP (Count P) HV [x] [s0; s1; g0; g1; g2] [t] [] 1 eq_refl eq_refl eq_refl eq_refl ltac:(lia) ltac:(lia))
    as (out & log & Ho & Ht' & He & Eq).
  assert (B : existsb (bad_point (Count P) [t]) (seq 0 (length (GADGETS (Count P)))) = false).
  { cbn [GADGETS Count length seq existsb]. unfold bad_point. cbn -[npow feqb].
    rewrite orb_false_r. apply feqb_neq. intros C. apply Ht. rewrite <- C. unfold npow. cbn. ring. }
  rewrite B in Eq. eexists. split; [exact Eq|].
  rewrite (decide_ok (Count P) HV) by easy. f_equal.
  cbn -[query_oracle] in Ht'. injection Ht' as Eo El. 
  subst out log.
  change (red (Count P) _ [t]) with (fsub (query_oracle (Count P) [s0; s1; g0; g1; g2] 0 1 [x; x]) x).
  change (query_oracle (Count P) [s0; s1; g0; g1; g2] 0 1 [x; x]) with (peval (ipoly 2 [g0; g1; g2]) (npow (root 1) 1)).
  cbn [GADGETS Count length seq forallb]. rewrite andb_true_r.
  change (gcheck (Count P) [s0; s1; g0; g1; g2] [t] [[[x; x]]] 0)
    with (feqb (peval (pmul (wpoly 1 [s0; x]) (wpoly 1 [s1; x])) t) (peval (ipoly 2 [g0; g1; g2]) t)).
  rewrite peval_pmul, !peval_wpoly. unfold count_accepts. cbn [nth].
  rewrite <- !wire_value, <- quad_value. f_equal.
  - replace (npow (root 1) 1) with (npow (root 2) 2).
    2:{ rewrite half_root. unfold npow. cbn. rewrite <- quarter_sq. ring. }
    rewrite (proj2 (ipoly_spec HP 2 [g0; g1; g2] count_log ltac:(cbn; lia)) 2) by (cbn; lia).
    cbn [nth]. apply eq_true_iff_eq. rewrite !feqb_eq. split; [|intros ->; ring].
    intros C. replace g2 with (fadd (fsub g2 x) x) by ring. rewrite C. ring.
  - set (a := peval (ipoly 1 [s0; x]) t). set (b := peval (ipoly 1 [s1; x]) t). set (c := peval _ t).
    apply eq_true_iff_eq. rewrite !feqb_eq. split; intros C.
    + rewrite <- C. ring.
    + apply (fmul_cancel_l Hp four); [apply four_neq0|]. rewrite <- C. ring.
Qed.

Lemma count_flp_bad x s0 s1 g0 g1 g2 t n : 1 <= n -> (Z.of_nat n < MODULUS P)%Z -> fmul t t = f1 ->
  bbcggi19_query (Count P) [x] [s0; s1; g0; g1; g2] [t] [] n = Raise (ValueError "test point is a root of unity").
Proof.
  intros Hn HnM Ht. pose proof (Count_ok Hf) as HV.
  apply (query_guard HP (Count P) HV [x] [s0; s1; g0; g1; g2] [t] [] n eq_refl eq_refl eq_refl eq_refl Hn HnM).
  intros C. apply (C 0); [cbn; lia|]. change (npow t 2 = f1). rewrite <- Ht. unfold npow. cbn. ring.
Qed.
End CT.

Lemma message_unfold (q : Prio3) ctx n (vs : nat -> list (F (p3_field q))) :
  (forall j, j < n -> length (vs j) = VERIFIER_LEN (p3_flp q) * p3_PROOFS q) -> JOINT_RAND_LEN (p3_flp q) = 0 ->
  p3_verifier_shares_to_message q ctx tt (map (fun j => (vs j, None)) (seq 0 n)) =
  let* _ := for_range 0 (p3_PROOFS q) (vsum (VERIFIER_LEN (p3_flp q) * p3_PROOFS q) (map vs (seq 0 n)))
    (fun verifiers _ =>
      let* (verifier, verifiers) := front (VERIFIER_LEN (p3_flp q)) verifiers in
      let* ok := flp_decide (p3_flp q) verifier in
      let* _ := check ok (ValueError "proof verifier check failed") in
      Ok verifiers) in
  Ok None.
Proof.
  intros Hl HJ. unfold p3_verifier_shares_to_message.
  rewrite (shares_loop q n vs (fun _ => None) Hl) by lia.
  cbn [bind]. rewrite HJ. reflexivity.
Qed.

Section CP.
Context {P : NttFieldClass} (HP : NttOk P) (Hf : fits P Mul 1).
Context (X : XofClass) (ID : Z) (vks n : nat) (Hn : 1 <= n) (HnM : (Z.of_nat n < MODULUS P)%Z).
Notation F := (F P).
Notation p := {| p3_field := P; p3_flp := FlpBBCGGI19 (Count P); p3_xof := X; p3_ID := ID;
                 p3_VERIFY_KEY_SIZE := vks; p3_SHARES := n; p3_PROOFS := 1 |}.
Add Ring FringCQ : (@F_ring P).

Lemma len1 {A} (l : list A) : length l = 1 -> exists a, l = [a].
Proof. destruct l as [|a [|? ?]]; try discriminate. eauto. Qed.
Lemma len5 {A} (l : list A) : length l = 5 -> exists a b c d e, l = [a; b; c; d; e].
Proof. destruct l as [|a [|b [|c [|d [|e [|? ?]]]]]]; try discriminate. eauto 6. Qed.

Lemma count_init key ctx j nonce public is ms prs bl t :
  length ms = 1 -> length prs = 5 ->
  expand_input_share p ctx j is = Ok (ms, prs, bl) -> query_rands p key ctx nonce = Ok [t] ->
  p3_verify_init p key ctx j tt nonce public is =
  match bbcggi19_query (Count P) ms prs [t] [] n with
  | Ok v => Ok ((ms, None), (v, None))
  | Raise e => Raise e
  end.
Proof.
  intros Hm Hp E Eq. unfold p3_verify_init. rewrite E. cbn [bind].
  destruct (len1 ms Hm) as (x & ->). destruct (len5 prs Hp) as (a & b & c & d & e & ->).
  cbn [flp_truncate FlpBBCGGI19 p3_flp valid_truncate Count length Nat.eqb bind].
  unfold verify_joint_rand. cbn [JOINT_RAND_LEN FlpBBCGGI19 p3_flp vJOINT_RAND_LEN Count Nat.ltb Nat.leb bind].
  rewrite Eq. cbn [bind p3_PROOFS].
  unfold for_range. cbn -[bbcggi19_query].
  destruct (bbcggi19_query _ _ _ _ _ _); cbn; [|easy]. reflexivity.
Qed.

Lemma count_message ctx (vs : list (list F)) : vecs n 4 vs ->
  p3_verifier_shares_to_message p ctx tt (map (fun v => (v, None)) vs) =
  match bbcggi19_decide (Count P) (vsum 4 vs) with
  | Ok true => Ok None
  | Ok false => Raise (ValueError "proof verifier check failed")
  | Raise e => Raise e
  end.
Proof.
  intros [Hl Hv]. rewrite Forall_forall in Hv.
  replace (map (fun v => (v, None)) vs) with (map (fun j => (nth j vs [], @None bytes)) (seq 0 n)).
  2:{ apply (nth_ext' ([], None)). { now rewrite !map_length, seq_length. }
      intros i Hi. rewrite map_length, seq_length in Hi.
      rewrite (nth_map' _ _ _ 0), (nth_map' _ _ _ []) by (rewrite ?seq_length; lia). now rewrite seq_nth. }
  refine (eq_trans (message_unfold p ctx n (fun j => nth j vs []) _ eq_refl) _).
  { intros j Hj. change (length (nth j vs []) = 4). apply Hv, nth_In. lia. }
  assert (Em : map (fun j => nth j vs []) (seq 0 n) = vs).
  { symmetry. apply (nth_ext' []); [now rewrite map_length, seq_length|]. intros i Hi. rewrite (nth_map' _ _ _ 0) by (rewrite seq_length; lia). now rewrite seq_nth by lia. }
  change (VERIFIER_LEN (p3_flp p) * p3_PROOFS p) with 4.
  assert (L : length (vsum 4 vs) = 4) by (unfold vsum; now rewrite map_length, seq_length).
  unfold for_range. cbn [p3_field p3_PROOFS range seq foldM Nat.sub p3_flp VERIFIER_LEN FlpBBCGGI19 flp_decide].
  change (VERIFIER_LEN (p3_flp p)) with 4. change (verifier_len (Count P)) with 4.
  rewrite Em, (front_ok 4 (vsum 4 vs)) by lia. cbn [bind]. rewrite firstn_all2 by lia.
  destruct (bbcggi19_decide (Count P) (vsum 4 vs)) as [[|]|]; reflexivity.
Qed.

(** Verification of arbitrary input shares. *)
Theorem count_run key ctx nonce public (is : nat -> Prio3InputShare P) (ms prs : list (list F)) bls t :
  vecs n 1 ms -> vecs n 5 prs ->
  (forall j, j < n -> expand_input_share p ctx j (is j) = Ok (nth j ms [], nth j prs [], nth j bls None)) ->
  query_rands p key ctx nonce = Ok [t] ->
  if feqb (fmul t t) f1
  then forall j, j < n -> p3_verify_init p key ctx j tt nonce public (is j)
                          = Raise (ValueError "test point is a root of unity")
  else exists vs : list (list F), length vs = n /\
    (forall j, j < n -> p3_verify_init p key ctx j tt nonce public (is j)
                        = Ok ((nth j ms [], None), (nth j vs [], None))) /\
    p3_verifier_shares_to_message p ctx tt (map (fun v => (v, None)) vs)
    = if count_accepts (nth 0 (vsum 1 ms) f0) (vsum 5 prs) t then Ok None
      else Raise (ValueError "proof verifier check failed").
Proof.
  intros Vm Vp HE Hq. pose proof (Count_ok Hf) as HV.
  assert (Lm : forall j, j < n -> length (nth j ms []) = 1).
  { intros j Hj. destruct Vm as [L A]. rewrite Forall_forall in A. apply A, nth_In. lia. }
  assert (Lp : forall j, j < n -> length (nth j prs []) = 5).
  { intros j Hj. destruct Vp as [L A]. rewrite Forall_forall in A. apply A, nth_In. lia. }
  destruct (feqb (fmul t t) f1) eqn:Et.
  - apply feqb_eq in Et. intros j Hj.
    rewrite (count_init key ctx j nonce public (is j) _ _ _ t (Lm j Hj) (Lp j Hj) (HE j Hj) Hq).
    destruct (len1 _ (Lm j Hj)) as (x & ->). destruct (len5 _ (Lp j Hj)) as (a & b & c & d & e & ->).
    now rewrite (count_flp_bad HP Hf).
  - apply feqb_neq in Et.
    assert (TP : test_points_ok (Count P) [t]).
    { intros i Hi. cbn in Hi. assert (i = 0) as -> by lia. change (npow t 2 <> f1).
      intros C. apply Et. rewrite <- C. unfold npow. cbn. ring. }
    destruct (query_linear_list HP (Count P) HV n ms prs [t] [] Hn HnM Vm Vp eq_refl eq_refl TP) as (vs & Vv & E1 & E2).
    exists vs. split; [apply Vv|]. split.
    + intros j Hj. rewrite (count_init key ctx j nonce public (is j) _ _ _ t (Lm j Hj) (Lp j Hj) (HE j Hj) Hq).
      now rewrite (E1 j Hj).
    + refine (eq_trans (count_message ctx vs Vv) _).
      destruct (len1 (vsum 1 ms) eq_refl) as (x & Ex).
      destruct (len5 (vsum 5 prs) eq_refl) as (a & b & c & d & e & Ep).
      destruct (count_flp HP Hf x a b c d e t Et) as (ver & Q & D).
      assert (E3 : bbcggi19_query (Count P) [x] [a; b; c; d; e] [t] [] 1 = Ok (vsum 4 vs))
        by (rewrite <- Ex, <- Ep; exact E2).
      pose proof (eq_trans (eq_sym Q) E3) as E4. assert (ver = vsum 4 vs) as -> by (now apply (f_equal (fun r => match r with Ok v => v | Raise _ => [] end)) in E4).
      rewrite Ex, Ep.
      rewrite D. cbn [nth]. now destruct (count_accepts x _ t).
Qed.
End CP.

Section Alg.
Context {P : NttFieldClass} (HP : NttOk P) (Hf : fits P Mul 1).
Notation F := (F P).
Notation i := (nth_root P 2).
Let Hp : prime (MODULUS P) := ntt_prime P HP.
Add Ring FringCA : (@F_ring P).
Context (x s0 s1 g0 g1 g2 t d : F) (Ht : fmul t t <> f1) (Hd : d <> f0).
Context (HA : count_accepts x [s0; s1; g0; g1; g2] t = true).

Lemma plus_ne (a : F) : feqb (fadd a d) a = false.
Proof. apply feqb_neq. intros C. apply Hd. replace d with (fsub (fadd a d) a) by ring. rewrite C. ring. Qed.
Lemma plus_ne' (a : F) : feqb a (fadd a d) = false.
Proof. apply feqb_neq. intros C. pose proof (plus_ne a) as H. apply feqb_neq in H. now apply H. Qed.
Lemma HA' : g2 = x /\ fmul (wire2 s0 x t) (wire2 s1 x t) = quad4 g0 g1 g2 t.
Proof. unfold count_accepts in HA. apply andb_prop in HA as [A B]. cbn [nth] in *. rewrite feqb_eq in A, B. auto. Qed.
Lemma t_ne : fadd f1 t <> f0 /\ fsub f1 t <> f0 /\ fadd t f1 <> f0 /\ fsub f1 (fmul t t) <> f0.
Proof.
  assert (fsub f1 (fmul t t) <> f0) as N.
  { intros C. apply Ht. replace (fmul t t) with (fsub f1 (fsub f1 (fmul t t))) by ring. rewrite C. ring. }
  assert (E : fsub f1 (fmul t t) = fmul (fadd f1 t) (fsub f1 t)) by ring.
  repeat split; [| | |exact N]; intros C; apply N; rewrite E.
  - rewrite C. ring.
  - rewrite C. ring.
  - replace (fadd f1 t) with (fadd t f1) by ring. rewrite C. ring.
Qed.

Lemma tamper_meas : count_accepts (fadd x d) [s0; s1; g0; g1; g2] t = false.
Proof. destruct HA' as [-> _]. unfold count_accepts. cbn [nth]. now rewrite plus_ne'. Qed.
Lemma tamper_g2 : count_accepts x [s0; s1; g0; g1; fadd g2 d] t = false.
Proof. destruct HA' as [-> _]. unfold count_accepts. cbn [nth]. now rewrite plus_ne. Qed.
Lemma tamper_g1 : count_accepts x [s0; s1; g0; fadd g1 d; g2] t = false.
Proof.
  destruct HA' as [-> E]. unfold count_accepts. cbn [nth]. rewrite feqb_refl. cbn [andb].
  apply feqb_neq. rewrite E. intros C. destruct t_ne as (_ & _ & _ & N).
  assert (Z : fmul (fmul (fadd f1 f1) d) (fsub f1 (fmul t t)) = f0).
  { replace (fmul (fmul (fadd f1 f1) d) (fsub f1 (fmul t t)))
      with (fsub (quad4 g0 (fadd g1 d) x t) (quad4 g0 g1 x t)) by (unfold quad4; ring).
    rewrite <- C. ring. }
  apply (fmul_0 Hp) in Z as [Z|Z]; [|easy]. apply (fmul_0 Hp) in Z as [Z|Z]; [|easy].
  now apply (two_neq0 HP).
Qed.
Lemma tamper_s0 : count_accepts x [fadd s0 d; s1; g0; g1; g2] t = feqb (wire2 s1 x t) f0.
Proof.
  destruct HA' as [-> E]. unfold count_accepts. cbn [nth]. rewrite feqb_refl. cbn [andb].
  apply eq_true_iff_eq. rewrite !feqb_eq, <- E. destruct t_ne as (N & _).
  assert (X : fmul (wire2 (fadd s0 d) x t) (wire2 s1 x t) = fadd (fmul (wire2 s0 x t) (wire2 s1 x t)) (fmul (fmul d (fadd f1 t)) (wire2 s1 x t)))
    by (unfold wire2; ring).
  rewrite X. split; [|intros ->; ring]. intros C.
  assert (Z : fmul (fmul d (fadd f1 t)) (wire2 s1 x t) = f0).
  { set (a := fmul _ (wire2 s1 x t)) in C |- *. set (b := fmul _ (wire2 s1 x t)) in C |- *.
    replace b with (fsub (fadd a b) a) by ring. rewrite C. ring. }
  apply (fmul_0 Hp) in Z as [Z|Z]; [|easy]. apply (fmul_0 Hp) in Z as [Z|Z]; easy.
Qed.
Lemma tamper_s1 : count_accepts x [s0; fadd s1 d; g0; g1; g2] t = feqb (wire2 s0 x t) f0.
Proof.
  destruct HA' as [-> E]. unfold count_accepts. cbn [nth]. rewrite feqb_refl. cbn [andb].
  apply eq_true_iff_eq. rewrite !feqb_eq, <- E. destruct t_ne as (N & _).
  assert (X : fmul (wire2 s0 x t) (wire2 (fadd s1 d) x t) = fadd (fmul (wire2 s0 x t) (wire2 s1 x t)) (fmul (fmul d (fadd f1 t)) (wire2 s0 x t)))
    by (unfold wire2; ring).
  rewrite X. split; [|intros ->; ring]. intros C.
  assert (Z : fmul (fmul d (fadd f1 t)) (wire2 s0 x t) = f0).
  { set (a := fmul (wire2 s0 x t) _) in C |- *. set (b := fmul _ (wire2 s0 x t)) in C |- *.
    replace b with (fsub (fadd a b) a) by ring. rewrite C. ring. }
  apply (fmul_0 Hp) in Z as [Z|Z]; [|easy]. apply (fmul_0 Hp) in Z as [Z|Z]; easy.
Qed.
Lemma tamper_g0 : count_accepts x [s0; s1; fadd g0 d; g1; g2] t = feqb t i.
Proof.
  destruct HA' as [-> E]. unfold count_accepts. cbn [nth]. rewrite feqb_refl. cbn [andb].
  apply eq_true_iff_eq. rewrite !feqb_eq, E. destruct t_ne as (_ & _ & N & _).
  assert (X : quad4 (fadd g0 d) g1 x t = fadd (quad4 g0 g1 x t) (fmul (fmul d (fadd f1 i)) (fmul (fsub t i) (fadd t f1))))
    by (unfold quad4; ring).
  rewrite X. split.
  - intros C. assert (Z : fmul (fmul d (fadd f1 i)) (fmul (fsub t i) (fadd t f1)) = f0).
    { set (b := fmul (fmul d _) _) in C |- *. replace b with (fsub (fadd (quad4 g0 g1 x t) b) (quad4 g0 g1 x t)) by ring.
      rewrite <- C. ring. }
    apply (fmul_0 Hp) in Z as [Z|Z].
    + apply (fmul_0 Hp) in Z as [Z|Z]; [easy|]. exfalso.
      pose proof (quarter_sq HP Hf) as Q. apply (two_neq0 HP).
      replace (fadd f1 f1 : F) with (fsub f1 (fneg f1) : F) by ring. rewrite <- Q.
      replace (fsub f1 (fmul i i)) with (fmul (fadd f1 i) (fsub f1 i) : F) by ring. rewrite Z. ring.
    + apply (fmul_0 Hp) in Z as [Z|Z]; [|easy].
      replace t with (fadd (fsub t i) i) by ring. rewrite Z. ring.
  - intros ->. ring.
Qed.
End Alg.

Section Honest.
Context {P : NttFieldClass} (HP : NttOk P) (Hf : fits P Mul 1).
Context (X : XofClass) (ID : Z) (vks n : nat) (Hn : 1 <= n) (HnM : (Z.of_nat n < MODULUS P)%Z).
Notation F := (F P).
Notation p := {| p3_field := P; p3_flp := FlpBBCGGI19 (Count P); p3_xof := X; p3_ID := ID;
                 p3_VERIFY_KEY_SIZE := vks; p3_SHARES := n; p3_PROOFS := 1 |}.
Add Ring FringCH : (@F_ring P).

(** The proof of an honest report: it begins with the prove randomness and is accepted. *)
Lemma honest_proof (x : F) (pr proof : list F) : (x = f0 \/ x = f1) -> length pr = 2 ->
  bbcggi19_prove (Count P) [x] pr [] = Ok proof ->
  exists g0 g1 g2, proof = pr ++ [g0; g1; g2] /\ forall t, fmul t t <> f1 -> count_accepts x proof t = true.
Proof.
  intros Hx Hl E. pose proof (Count_ok Hf) as HV.
  destruct (prove_ok HP (Count P) HV [x] pr [] eq_refl Hl eq_refl) as (out & log & Ev & Lo & Tr & Ex & Epr).
  rewrite E in Epr. injection Epr as Epr.
  assert (Lp : length proof = 5).
  { destruct (prove_total HP (Count P) HV [x] pr [] eq_refl Hl eq_refl) as (pf & Ep & L). rewrite E in Ep.
    apply (f_equal (fun r => match r with Ok v => v | Raise _ => [] end)) in Ep. now subst. }
  destruct pr as [|s0 [|s1 [|? ?]]]; try discriminate Hl.
  destruct (len5 proof Lp) as (a & b & c & d & e & ->).
  assert (Eab : [a; b] = [s0; s1]).
  { apply (f_equal (firstn 2)) in Epr. exact Epr. }
  exists c, d, e. split. { cbn [app]. apply (f_equal (fun l => l ++ [c; d; e])) in Eab. exact Eab. }
  intros t Ht. destruct (count_flp HP Hf x a b c d e t Ht) as (ver & Q & D).
  assert (CZ : circuit_zero (Count P) [x] []).
  { exists [fsub (fmul x x) x]. split; [reflexivity|]. constructor; [|constructor].
    destruct Hx as [-> | ->]; ring. }
  pose proof (complete_decide HP (Count P) HV [x] [s0; s1] [] [t] _ ver eq_refl Hl eq_refl eq_refl CZ E Q) as C.
  rewrite D in C. now injection C.
Qed.

Lemma prove_len (x : F) (pr proof : list F) : bbcggi19_prove (Count P) [x] pr [] = Ok proof -> length pr = 2.
Proof.
  unfold bbcggi19_prove. cbn [length vMEAS_LEN Count Nat.eqb check bind]. change (prove_rand_len (Count P)) with 2.
  destruct (Nat.eqb_spec (length pr) 2) as [E|N]; [easy|]. discriminate.
Qed.

(** The Leader's input share is altered. *)
Theorem count_tampered key ctx nonce rand public iss (ms prs : list (list F)) bls prove_seed (pr jr : list F)
  (proofs : list (list F)) (x t : F) (m0 p0 : list F) b0 hs (dx dp : list F) :
  (x = f0 \/ x = f1) ->
  Report p ctx [x] nonce rand public iss ms prs bls prove_seed pr jr proofs ->
  iss = Leader m0 p0 b0 :: hs -> length dx = 1 -> length dp = 5 ->
  query_rands p key ctx nonce = Ok [t] -> fmul t t <> f1 ->
  exists g0 g1 (vs : list (list F)),
    let proof := [nth 0 pr f0; nth 1 pr f0; g0; g1; x] in
    length vs = n /\ count_accepts x proof t = true /\
    (forall j d, j < n -> exists out,
      p3_verify_init p key ctx j tt nonce public
        (nth j (Leader (zip_with fadd m0 dx) (zip_with fadd p0 dp) b0 :: hs) d)
      = Ok ((out, None), (nth j vs [], None))) /\
    p3_verifier_shares_to_message p ctx tt (map (fun v => (v, None)) vs)
    = if count_accepts (fadd x (nth 0 dx f0)) (zip_with fadd proof dp) t then Ok None
      else Raise (ValueError "proof verifier check failed").
Proof.
  intros Hx R Ei Ldx Ldp Hq Ht.
  pose proof (rp_meas_vecs _ _ _ _ _ _ _ _ _ _ _ _ _ _ R : vecs n 1 ms) as Vm.
  pose proof (rp_proof_vecs _ _ _ _ _ _ _ _ _ _ _ _ _ _ R : vecs n 5 prs) as Vp.
  pose proof (rp_meas _ _ _ _ _ _ _ _ _ _ _ _ _ _ R : vsum 1 ms = [x]) as Em.
  pose proof (rp_proof _ _ _ _ _ _ _ _ _ _ _ _ _ _ R : vsum 5 prs = concat proofs) as Ep.
  pose proof (rp_proofs _ _ _ _ _ _ _ _ _ _ _ _ _ _ R : length proofs = 1) as Lpr.
  pose proof (rp_prove _ _ _ _ _ _ _ _ _ _ _ _ _ _ R 0 ltac:(cbn; lia)) as Pv.
  pose proof (rp_expand _ _ _ _ _ _ _ _ _ _ _ _ _ _ R) as Ex.
  pose proof (rp_joint _ _ _ _ _ _ _ _ _ _ _ _ _ _ R) as (_ & -> & _).
  pose proof (rp_len _ _ _ _ _ _ _ _ _ _ _ _ _ _ R) as Li. change (length iss = n) in Li.
  destruct (len1 proofs Lpr) as (proof & ->). cbn [concat] in Ep. rewrite app_nil_r in Ep.
  change (bbcggi19_prove (Count P) [x] (firstn 2 pr) [] = Ok proof) in Pv.
  pose proof (prove_len x (firstn 2 pr) proof Pv) as L2.
  destruct (honest_proof x (firstn 2 pr) proof Hx L2 Pv) as (g0 & g1 & g2 & Epf & Ac).
  assert (Ef : firstn 2 pr = [nth 0 pr f0; nth 1 pr f0]).
  { destruct pr as [|a [|b r]]; try discriminate L2. reflexivity. }
  rewrite Ef in Epf. cbn [app] in Epf. rewrite Epf in Ep, Ac. clear Pv Epf R.
  pose proof (Ac t Ht) as A. assert (g2 = x) as ->.
  { unfold count_accepts in A. apply andb_prop in A as [A _]. apply feqb_eq in A. exact A. }
  destruct ms as [|m0' ms]; [destruct Vm as [L _]; cbn in L; lia|].
  destruct prs as [|p0' prs]; [destruct Vp as [L _]; cbn in L; lia|].
  assert (E0 : Ok (m0, p0, b0) = Ok (m0', p0', nth 0 bls None)).
  { refine (eq_trans _ (Ex 0 _ (Leader [] [] None))); [|exact Hn]. rewrite Ei. reflexivity. }
  assert (m0 = m0') as <- by (apply (f_equal (fun r => match r with Ok (v, _, _) => v | Raise _ => [] end)) in E0; exact E0).
  assert (p0 = p0') as <- by (apply (f_equal (fun r => match r with Ok (_, v, _) => v | Raise _ => [] end)) in E0; exact E0).
  assert (b0 = nth 0 bls None) as Eb by (apply (f_equal (fun r => match r with Ok (_, _, v) => v | Raise _ => None end)) in E0; exact E0).
  assert (Lm0 : length m0 = 1) by (destruct Vm as [_ A0]; now inversion A0).
  assert (Lp0 : length p0 = 5) by (destruct Vp as [_ A0]; now inversion A0).
  pose proof (count_run HP Hf X ID vks n Hn HnM key ctx nonce public
    (fun j => nth j (Leader (zip_with fadd m0 dx) (zip_with fadd p0 dp) b0 :: hs) (Leader [] [] None))
    (zip_with fadd m0 dx :: ms) (zip_with fadd p0 dp :: prs) bls t) as CR.
  assert (V1 : vecs n 1 (zip_with fadd m0 dx :: ms)).
  { destruct Vm as [L A0]. split; [exact L|]. inversion A0; subst. constructor; [|easy]. apply zip_length_eq; easy. }
  assert (V2 : vecs n 5 (zip_with fadd p0 dp :: prs)).
  { destruct Vp as [L A0]. split; [exact L|]. inversion A0; subst. constructor; [|easy]. apply zip_length_eq; easy. }
  specialize (CR V1 V2).
  match type of CR with ?A -> _ => assert (V3 : A) end.
  { intros j Hj. destruct j as [|j]; [cbn; now rewrite Eb|].
    refine (eq_trans _ (Ex (S j) Hj (Leader [] [] None))). rewrite Ei. reflexivity. }
  specialize (CR V3 Hq).
  match type of CR with if ?b then _ else _ => assert (Et : b = false) by (apply feqb_neq; exact Ht) end.
  rewrite Et in CR. destruct CR as (vs & Lv & HI & HM).
  exists g0, g1, vs. cbv zeta. split; [exact Lv|]. split; [exact A|]. split.
  - intros j d Hj. eexists. refine (eq_trans _ (HI j Hj)). f_equal. apply nth_indep. subst iss. cbn in Li |- *. lia.
  - refine (eq_trans HM _).
      assert (EM : nth 0 (vsum 1 (zip_with fadd m0 dx :: ms)) f0 = fadd x (nth 0 dx f0)).
      { rewrite vsum_cons by (apply zip_length_eq; easy). rewrite vsum_cons in Em by easy.
        destruct (len1 m0 Lm0) as (a & ->). destruct (len1 dx Ldx) as (b & ->).
        destruct (len1 (vsum 1 ms) eq_refl) as (c & Ec). rewrite Ec in *. cbn in Em |- *.
        apply (f_equal (fun l => nth 0 l f0)) in Em. cbn in Em. rewrite <- Em. ring. }
      assert (EP : vsum 5 (zip_with fadd p0 dp :: prs) = zip_with fadd [nth 0 pr f0; nth 1 pr f0; g0; g1; x] dp).
      { rewrite <- Ep. rewrite !vsum_cons by (try apply zip_length_eq; easy).
        destruct (len5 p0 Lp0) as (a & b & c & d & e & ->). destruct (len5 dp Ldp) as (a' & b' & c' & d' & e' & ->).
        destruct (len5 (vsum 5 prs) eq_refl) as (a2 & b2 & c2 & d2 & e2 & Ec). rewrite Ec. cbn.
        f_equal; [ring|f_equal; [ring|f_equal; [ring|f_equal; [ring|f_equal; ring]]]]. }
      now rewrite EM, EP.
Qed.
End Honest.

Section Refuted.
Context {P : NttFieldClass}.
Add Ring FringCR : (@F_ring P).
Lemma seed_ignored (s0 t : F P) : count_accepts f0 [s0; f0; f0; f0; f0] t = true.
Proof.
  unfold count_accepts. cbn [nth]. rewrite feqb_refl. apply feqb_eq. unfold wire2, quad4. ring.
Qed.
End Refuted.
