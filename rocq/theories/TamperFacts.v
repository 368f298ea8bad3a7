(** What happens when a level of the public share of a Poplar1 report is changed. *)
From Verif Require Export TamperSpec TamperIdpf.
From Verif Require Import Poplar1CorrSpec Poplar1Corr Poplar1ViewFacts Poplar1Run Poplar1Facts Poplar1Inst Poplar1Props IdpfInst IdpfFacts PostFacts
  VecFacts FieldFacts BaseFacts CommonFacts SampleFacts.
Open Scope nat_scope.

Section H.
Context {P : FieldClass}.
Add Ring FringTF : (@F_ring P).

Lemma dot_scale (c : F P) d vr : dot (map (fmul c) d) vr = fmul c (dot d vr).
Proof. revert vr. induction d as [|x d IH]; intros [|y vr]; unfold dot in *; simpl; try ring. rewrite IH. ring. Qed.

Lemma hot_off prefixes level m (r : list (F P)) : ~ In (firstn (S level) m) prefixes -> dot (hot prefixes level m) r = f0.
Proof.
  revert r. induction prefixes as [|x l IH]; intros [|y r] N; unfold hot; cbn [map]; try (unfold dot; reflexivity).
  - rewrite dot_cons. destruct (list_eq_dec Bool.bool_dec x (firstn (S level) m)) as [E|E]; [exfalso; apply N; now left|].
    fold (@hot P l level m). rewrite IH by (intros H; apply N; now right). ring.
Qed.

Lemma hot_square prefixes level m (r : list (F P)) : NoDup prefixes ->
  dot (hot prefixes level m) (squares r) = fmul (dot (hot prefixes level m) r) (dot (hot prefixes level m) r).
Proof.
  intros N. revert r. induction N as [|x l Hx N IH]; intros [|y r]; try (unfold hot, dot; cbn; ring).
  change (squares (y :: r)) with (fmul y y :: squares r).
  change (hot (x :: l) level m) with ((if list_eq_dec Bool.bool_dec x (firstn (S level) m) then @f1 P else f0) :: hot l level m).
  rewrite !dot_cons. destruct (list_eq_dec Bool.bool_dec x (firstn (S level) m)) as [E|E].
  - rewrite !hot_off by (now rewrite <- E). ring.
  - rewrite IH. ring.
Qed.

Lemma fint_0 : (0 < MODULUS P)%Z -> fint (@f0 P) = 0%Z.
Proof. intros H. unfold fint, f0. rewrite val_fof. apply Z.mod_0_l. lia. Qed.

Lemma on_path_hot prefixes level m (r : list (F P)) : (0 < MODULUS P)%Z -> NoDup prefixes -> length r = length prefixes ->
  path_draw prefixes level m (map fint r) = fint (dot (hot prefixes level m) r).
Proof.
  intros HP N. revert r. induction N as [|x l Hx N IH]; intros [|y r] L; try discriminate L.
  - symmetry. exact (fint_0 HP).
  - cbn [map path_draw].
    change (hot (x :: l) level m) with ((if list_eq_dec Bool.bool_dec x (firstn (S level) m) then @f1 P else f0) :: hot l level m).
    rewrite dot_cons. destruct (list_eq_dec Bool.bool_dec x (firstn (S level) m)) as [E|E].
    + rewrite hot_off by (now rewrite <- E). f_equal. ring.
    + rewrite IH by (now injection L). f_equal. ring.
Qed.
End H.

Definition reject {A} : res A := Raise (ValueError "sketch verification failed").

Section C.
Context (p : Poplar1) (lim : Z) (HO : Poplar1Ok p lim).
Notation idpf := (p1_idpf p).
Notation Pi := (id_field_inner (p1_idpf p)).
Notation Pl := (id_field_leaf (p1_idpf p)).
Notation FVec := (FieldVec Pi Pl).
Notation BITS := (id_BITS (p1_idpf p)).

Definition tamper_error {P : FieldClass} (e kk x : F P) : F P := fmul (fmul (fsub e f1) x) (fadd (fmul e x) kk).
Definition tamper_outcome {P : FieldClass} (e kk x : F P) (r : res (FVec * FVec)) : Prop :=
  if feqb (tamper_error e kk x) f0 then exists o, r = Ok o else r = reject.

Section G.
Context (P : FieldClass) (inj : list (F P) -> FVec) (V : View p P inj).
Add Ring FringTG : (@F_ring P).

Lemma tamper_gen key ctx level lv prefixes m nonce ps is0 is1 (ev0 ev1 : res (list FVec))
  (abc0 abc1 AB0 AB1 : list (F P)) e kk :
  NoDup prefixes -> length AB0 = 2 -> length AB1 = 2 -> length abc0 = 3 -> length abc1 = 3 ->
  ctx_ok ctx -> length key = SEED_SIZE (p1_xof p) -> (0 <= lv < 65536)%Z ->
  p1_verify_init p key ctx 0 (lv, prefixes) nonce ps is0
  = (let* out := ev0 in
     let* vr := verify_rand_of p P key ctx nonce lv (length prefixes) in
     Ok ((EVALUATE_SKETCH, lv, inj (AB0 ++ [fof 0] ++ data_of (map (fv_as P) out))), inj (sk abc0 (map (fv_as P) out) vr))) ->
  p1_verify_init p key ctx 1 (lv, prefixes) nonce ps is1
  = (let* out := ev1 in
     let* vr := verify_rand_of p P key ctx nonce lv (length prefixes) in
     Ok ((EVALUATE_SKETCH, lv, inj (AB1 ++ [fof 1] ++ data_of (map (fv_as P) out))), inj (sk abc1 (map (fv_as P) out) vr))) ->
  zip_with fadd AB0 AB1 = corr_pair (zip_with fadd abc0 abc1) kk ->
  match ev0, ev1 with
  | Ok out0, Ok out1 => length out0 = length prefixes /\ length out1 = length prefixes /\
      forall k d, k < length prefixes -> zip_with fadd (fv_as P (nth k out0 d)) (fv_as P (nth k out1 d))
        = if list_eq_dec Bool.bool_dec (nth k prefixes []) (firstn (S level) m) then [e; kk] else [f0; f0]
  | Raise e, _ => e = OutOfFuel /\ p1_ran_out p (length prefixes)
  | Ok _, Raise e => e = OutOfFuel /\ p1_ran_out p (length prefixes)
  end ->
  (exists r, verify_rand_of p P key ctx nonce lv (length prefixes) = Ok r /\ length r = length prefixes /\
     tamper_outcome e kk (dot (hot prefixes level m) r) (p1_execute p key ctx (lv, prefixes) nonce ps is0 is1)) \/
  (p1_execute p key ctx (lv, prefixes) nonce ps is0 is1 = Raise OutOfFuel /\ p1_ran_out p (length prefixes)).
Proof.
  intros Hnd LA0 LA1 Lb0 Lb1 Hc Hk Hlv E1 E2 HAB Hev. unfold p1_execute. rewrite E1.
  pose proof (verify_rand_post p lim HO (length prefixes) P key ctx nonce lv (vw_P _ _ _ V) Hc Hk Hlv) as Hvr.
  destruct ev0 as [out0|e0]; [|right; destruct Hev as [-> HR]; now split]. cbn [bind].
  destruct (verify_rand_of p P key ctx nonce lv (length prefixes)) as [vr|e0] eqn:Evr; [|right; destruct Hvr as [-> HR]; now split]. cbn [bind]. rewrite E2.
  destruct ev1 as [out1|e1]; [|right; destruct Hev as [-> HR]; now split]. cbn [bind]. cbn [post] in Hvr.
  left. exists vr. split; [reflexivity|]. split; [exact Hvr|].
  destruct Hev as (L0 & L1 & Hsum). set (n := length prefixes) in *.
  set (v0 := map (fv_as P) out0). set (v1 := map (fv_as P) out1).
  assert (Lv0 : length v0 = n) by (unfold v0; now rewrite map_length).
  assert (Lv1 : length v1 = n) by (unfold v1; now rewrite map_length).
  assert (Hs : forall k, k < n -> zip_with fadd (nth k v0 []) (nth k v1 [])
     = if list_eq_dec Bool.bool_dec (nth k prefixes []) (firstn (S level) m) then [e; kk] else [f0; f0]).
  { intros k Hk'. unfold v0, v1. rewrite !(nth_map' _ _ _ (inj [])) by lia. now apply Hsum. }
  assert (LH : length (@hot P prefixes level m) = n) by (unfold hot; now rewrite map_length).
  assert (NH : forall i, i < n -> nth i (@hot P prefixes level m) f0 = if list_eq_dec Bool.bool_dec (nth i prefixes []) (firstn (S level) m) then f1 else f0).
  { intros i Hi. unfold hot. now rewrite (nth_map' _ _ _ []) by lia. }
  assert (Ld0 : length (data_of v0) = n) by (unfold data_of; now rewrite map_length).
  assert (Ld1 : length (data_of v1) = n) by (unfold data_of; now rewrite map_length).
  assert (Lk0 : length (auth_of v0) = n) by (unfold auth_of; now rewrite map_length).
  assert (Lk1 : length (auth_of v1) = n) by (unfold auth_of; now rewrite map_length).
  assert (ED : zip_with fadd (data_of v0) (data_of v1) = map (fmul e) (hot prefixes level m)).
  { apply (vec_eq n); [rewrite zip_with_length; lia | now rewrite map_length|].
    intros i Hi. rewrite (nth_zip_with _ _ _ _ f0 f0), (nth_map' _ _ _ f0), NH by lia.
    unfold data_of. rewrite !(nth_map' _ _ _ []) by lia. specialize (Hs i Hi).
    destruct (list_eq_dec Bool.bool_dec (nth i prefixes []) (firstn (S level) m));
    destruct (nth i v0 []) as [|x0 l0], (nth i v1 []) as [|y0 l1]; try discriminate; cbn [zip_with nth] in Hs |- *;
    apply (f_equal (fun l => nth 0 l f0)) in Hs; cbn [nth] in Hs; (etransitivity; [exact Hs | ring]). }
  assert (EK : zip_with fadd (auth_of v0) (auth_of v1) = map (fmul kk) (hot prefixes level m)).
  { apply (vec_eq n); [rewrite zip_with_length; lia | now rewrite map_length|].
    intros i Hi. rewrite (nth_zip_with _ _ _ _ f0 f0), (nth_map' _ _ _ f0), NH by lia.
    unfold auth_of. rewrite !(nth_map' _ _ _ []) by lia. specialize (Hs i Hi).
    destruct (list_eq_dec Bool.bool_dec (nth i prefixes []) (firstn (S level) m));
    destruct (nth i v0 []) as [|x0 [|x1 l0]], (nth i v1 []) as [|y0 [|y1 l1]]; try discriminate; cbn [zip_with nth] in Hs |- *;
    apply (f_equal (fun l => nth 1 l f0)) in Hs; cbn [nth] in Hs; (etransitivity; [exact Hs | ring]). }
  unfold p1_verifier_shares_to_message at 1. cbn [length Nat.eqb check bind].
  match goal with |- context [get [?x; ?y] 0] => change (get [x; y] 0) with (Ok x); change (get [x; y] 1) with (Ok y) end. cbn [bind].
  rewrite (vw_add _ _ _ V). rewrite vec_add_ok by easy. cbn [bind]. rewrite (vw_len _ _ _ V).
  assert (M1 : zip_with fadd (sk abc0 v0 vr) (sk abc1 v1 vr) = _) by (apply msg1_sum; try easy; congruence).
  cbv zeta in M1. rewrite M1, ED, EK.
  rewrite !dot_scale, hot_square by easy.
  set (x := dot (hot prefixes level m) vr) in *. set (abc := zip_with fadd abc0 abc1) in *.
  destruct AB0 as [|A0 [|B0 [|]]]; try (simpl in LA0; lia).
  destruct AB1 as [|A1 [|B1 [|]]]; try (simpl in LA1; lia). cbn [app].
  cbn [length Nat.eqb bind].
  set (z0 := fadd (nth 0 abc f0) (fmul e x)) in *.
  set (z1 := fadd (nth 1 abc f0) (fmul e (fmul x x))) in *.
  set (z2 := fadd (nth 2 abc f0) (fmul kk x)) in *.
  set (mv := fsub (fsub (fpow z0 2) z1) z2).
  assert (EN : forall j A B (d : list (F P)), p1_verify_next p ctx (EVALUATE_SKETCH, lv, inj (A :: B :: j :: d)) (Some (inj [z0; z1; z2]))
    = Ok (inl ((REVEAL_SKETCH, lv, inj d), inj [fadd (fadd (fmul j mv) (fmul A z0)) B]))).
  { intros j A B d. rewrite (vw_next _ _ _ V). cbn [length Nat.eqb check bind].
    unfold sketch_terms_in. cbn [get nth_error bind]. fold mv. unfold evaluate_in.
    cbn [get nth_error bind skipn]. now rewrite !fof_val. }
  rewrite !EN. cbn [bind].
  unfold p1_verifier_shares_to_message. cbn [length Nat.eqb check bind].
  match goal with |- context [get [?x; ?y] 0] => change (get [x; y] 0) with (Ok x); change (get [x; y] 1) with (Ok y) end. cbn [bind].
  rewrite (vw_add _ _ _ V). rewrite vec_add_ok by easy. cbn [bind zip_with]. rewrite (vw_len _ _ _ V). cbn [length Nat.eqb].
  rewrite (vw_vals _ _ _ V). cbn [map nth]. rewrite (fint_feqb p P inj V).
  match goal with |- context [feqb ?a f0] => assert (EZ : a = tamper_error e kk x) end.
  { cbn [zip_with] in HAB. unfold corr_pair in HAB.
    pose proof (f_equal (fun l => nth 0 l f0) HAB) as HA. pose proof (f_equal (fun l => nth 1 l f0) HAB) as HB. cbn [nth] in HA, HB. fold abc in HA, HB.
    unfold mv. rewrite fpow_2. change (fof 0) with (@f0 P). change (fof 1) with (@f1 P). unfold tamper_error.
    transitivity (fadd (fadd (fsub (fsub (fmul z0 z0) z1) z2) (fmul (fadd A0 A1) z0)) (fadd B0 B1)); [ring|].
    rewrite HA, HB. unfold z0, z1, z2. ring. }
  rewrite EZ. unfold tamper_outcome. destruct (feqb (tamper_error e kk x) f0).
  - cbn [bind]. rewrite !next_reveal. cbn [bind]. eauto.
  - reflexivity.
Qed.
End G.

Context (ctx : bytes) (m : list bool) (nonce rand : bytes) (ps0 ps : Poplar1PublicShare p) (iss : list (Poplar1InputShare p))
  (k0 k1 s0 s1 ss : bytes) (ks : list (F Pi)) (kl : F Pl) (ci0 ci1 : list (F Pi)) (cl0 cl1 : list (F Pl))
  (oi0 oi1 : list (F Pi)) (ol0 ol1 : list (F Pl)).
Context (R : P1Report p ctx m nonce rand ps0 iss k0 k1 s0 s1 ss ks kl ci0 ci1 cl0 cl1 oi0 oi1 ol0 ol1).
Context (Hc : ctx_ok ctx) (Hm : length m = BITS) (Hn : length nonce = p1_NONCE_SIZE).
Context (bi : list (list (F Pi))) (bl : list (F Pl)) (HG : gen_args_ok idpf m bi bl ctx nonce (k0 ++ k1)).
Context (Hgen : idpf_gen idpf m bi bl ctx nonce (k0 ++ k1) = Ok (ps, [k0; k1])).

Lemma tamper_inner key level prefixes e :
  level < BITS - 1 -> NoDup prefixes -> Forall (fun x => length x = S level) prefixes ->
  length key = SEED_SIZE (p1_xof p) -> (Z.of_nat level < 65536)%Z ->
  nth level bi [] = [e; nth level ks f0] ->
  (exists r, verify_rand_of p Pi key ctx nonce (Z.of_nat level) (length prefixes) = Ok r /\ length r = length prefixes /\
     tamper_outcome e (nth level ks f0) (dot (hot prefixes level m) r)
       (p1_execute p key ctx (Z.of_nat level, prefixes) nonce ps (k0, s0, ci0, cl0) (k1, s1, ci1, cl1))) \/
  (p1_execute p key ctx (Z.of_nat level, prefixes) nonce ps (k0, s0, ci0, cl0) (k1, s1, ci1, cl1) = Raise OutOfFuel /\ p1_ran_out p (length prefixes)).
Proof.
  intros Hlev Hnd Hpl Hk Hl16 Hb.
  destruct (r1_len_i _ _ _ _ _ _ _ _ _ _ _ _ _ _ _ _ _ _ _ _ _ _ R) as [Lc0 Lc1].
  destruct (r1_oi _ _ _ _ _ _ _ _ _ _ _ _ _ _ _ _ _ _ _ _ _ _ R) as (dst & Hd & Eo0 & Eo1).
  destruct (pk_idpf _ _ HO) as [lim' HI].
  pose proof (eval_sums idpf lim' HI _ _ _ _ _ _ ps k0 k1 level prefixes HG Hgen ltac:(lia) Hnd Hpl) as HE.
  pose proof (gen_total idpf lim' HI _ _ _ _ _ _ HG) as Hps. rewrite Hgen in Hps. destruct Hps as [Hps _].
  destruct (r1_keys _ _ _ _ _ _ _ _ _ _ _ _ _ _ _ _ _ _ _ _ _ _ R) as [Lk0 Lk1].
  rewrite (pk_value _ _ HO) in HE.
  assert (Lo0 : length oi0 = 3 * (BITS - 1)) by (eapply expand_len; eassumption).
  assert (Lo1 : length oi1 = 3 * (BITS - 1)) by (eapply expand_len; eassumption).
  apply (tamper_gen Pi Inner (view_inner p lim HO) key ctx level (Z.of_nat level) prefixes m nonce ps _ _
    (idpf_eval idpf 0 ps k0 (Z.of_nat level) prefixes ctx nonce) (idpf_eval idpf 1 ps k1 (Z.of_nat level) prefixes ctx nonce)
    (piece 3 level oi0) (piece 3 level oi1) (piece 2 level ci0) (piece 2 level ci1));
    try easy; try (apply piece_length with (BITS - 1); [easy | lia]).
  - lia.
  - apply (init_inner p lim HO (length prefixes)) with (dst := dst); try easy. lia.
  - apply (init_inner p lim HO (length prefixes)) with (dst := dst); try easy. lia.
  - now apply (r1_inner _ _ _ _ _ _ _ _ _ _ _ _ _ _ _ _ _ _ _ _ _ _ R).
  - destruct (idpf_eval idpf 0 ps k0 (Z.of_nat level) prefixes ctx nonce) as [out0|e0]; [|now destruct HE; split; [|left]].
    destruct (idpf_eval idpf 1 ps k1 (Z.of_nat level) prefixes ctx nonce) as [out1|e0]; [|now destruct HE; split; [|left]].
    destruct HE as (L0 & L1 & F0 & F1 & Hsum). split; [congruence|]. split; [congruence|].
    intros k d Hk'. specialize (Hsum k d ltac:(lia)).
    destruct (of_level_as_inner p level (nth k out0 d) Hlev) as (l0 & El0 & Ll0).
    { apply (Forall_nth_len (of_level idpf level 2)); [exact F0 | lia]. }
    destruct (of_level_as_inner p level (nth k out1 d) Hlev) as (l1 & El1 & Ll1).
    { apply (Forall_nth_len (of_level idpf level 2)); [exact F1 | lia]. }
    rewrite El0, El1 in Hsum |- *. cbn [fv_add fv_as] in Hsum |- *. rewrite !map_fcast_id in *.
    rewrite vec_add_ok in Hsum by congruence. cbn [bind] in Hsum.
    unfold point_value, beta_at, zero_at in Hsum. rewrite (proj2 (Nat.ltb_lt _ _) Hlev) in Hsum. rewrite (pk_value _ _ HO) in Hsum.
    destruct (list_eq_dec Bool.bool_dec (nth k prefixes []) (firstn (S level) m)).
    + rewrite Hb in Hsum. now injection Hsum as ->.
    + now injection Hsum as ->.
Qed.

Lemma tamper_leaf key level prefixes e :
  BITS - 1 <= level < BITS -> NoDup prefixes -> Forall (fun x => length x = S level) prefixes ->
  length key = SEED_SIZE (p1_xof p) -> (Z.of_nat level < 65536)%Z ->
  bl = [e; kl] ->
  (exists r, verify_rand_of p Pl key ctx nonce (Z.of_nat level) (length prefixes) = Ok r /\ length r = length prefixes /\
     tamper_outcome e kl (dot (hot prefixes level m) r)
       (p1_execute p key ctx (Z.of_nat level, prefixes) nonce ps (k0, s0, ci0, cl0) (k1, s1, ci1, cl1))) \/
  (p1_execute p key ctx (Z.of_nat level, prefixes) nonce ps (k0, s0, ci0, cl0) (k1, s1, ci1, cl1) = Raise OutOfFuel /\ p1_ran_out p (length prefixes)).
Proof.
  intros Hlev Hnd Hpl Hk Hl16 Hb.
  destruct (r1_len_l _ _ _ _ _ _ _ _ _ _ _ _ _ _ _ _ _ _ _ _ _ _ R) as [Lc0 Lc1].
  destruct (r1_ol _ _ _ _ _ _ _ _ _ _ _ _ _ _ _ _ _ _ _ _ _ _ R) as (dst & Hd & Eo0 & Eo1).
  destruct (pk_idpf _ _ HO) as [lim' HI].
  pose proof (eval_sums idpf lim' HI _ _ _ _ _ _ ps k0 k1 level prefixes HG Hgen ltac:(lia) Hnd Hpl) as HE.
  pose proof (gen_total idpf lim' HI _ _ _ _ _ _ HG) as Hps. rewrite Hgen in Hps. destruct Hps as [Hps _].
  destruct (r1_keys _ _ _ _ _ _ _ _ _ _ _ _ _ _ _ _ _ _ _ _ _ _ R) as [Lk0 Lk1].
  rewrite (pk_value _ _ HO) in HE.
  assert (Lo0 : length ol0 = 3) by (eapply expand_len; eassumption).
  assert (Lo1 : length ol1 = 3) by (eapply expand_len; eassumption).
  apply (tamper_gen Pl Leaf (view_leaf p lim HO) key ctx level (Z.of_nat level) prefixes m nonce ps _ _
    (idpf_eval idpf 0 ps k0 (Z.of_nat level) prefixes ctx nonce) (idpf_eval idpf 1 ps k1 (Z.of_nat level) prefixes ctx nonce)
    ol0 ol1 cl0 cl1); try easy.
  - lia.
  - apply (init_leaf p lim HO (length prefixes)) with (dst := dst); try easy. lia.
  - apply (init_leaf p lim HO (length prefixes)) with (dst := dst); try easy. lia.
  - apply (r1_leaf _ _ _ _ _ _ _ _ _ _ _ _ _ _ _ _ _ _ _ _ _ _ R).
  - destruct (idpf_eval idpf 0 ps k0 (Z.of_nat level) prefixes ctx nonce) as [out0|e0]; [|now destruct HE; split; [|left]].
    destruct (idpf_eval idpf 1 ps k1 (Z.of_nat level) prefixes ctx nonce) as [out1|e0]; [|now destruct HE; split; [|left]].
    destruct HE as (L0 & L1 & F0 & F1 & Hsum). split; [congruence|]. split; [congruence|].
    intros k d Hk'. specialize (Hsum k d ltac:(lia)).
    destruct (of_level_as_leaf p level (nth k out0 d) (proj1 Hlev)) as (l0 & El0 & Ll0).
    { apply (Forall_nth_len (of_level idpf level 2)); [exact F0 | lia]. }
    destruct (of_level_as_leaf p level (nth k out1 d) (proj1 Hlev)) as (l1 & El1 & Ll1).
    { apply (Forall_nth_len (of_level idpf level 2)); [exact F1 | lia]. }
    rewrite El0, El1 in Hsum |- *. cbn [fv_add fv_as] in Hsum |- *. rewrite !map_fcast_id in *.
    rewrite vec_add_ok in Hsum by congruence. cbn [bind] in Hsum.
    unfold point_value, beta_at, zero_at in Hsum. rewrite (proj2 (Nat.ltb_ge _ _) (proj1 Hlev)) in Hsum. rewrite (pk_value _ _ HO) in Hsum.
    destruct (list_eq_dec Bool.bool_dec (nth k prefixes []) (firstn (S level) m)).
    + rewrite Hb in Hsum. now injection Hsum as ->.
    + now injection Hsum as ->.
Qed.
End C.

Section I.
Context {P : FieldClass} (Hp : prime (MODULUS P)).
Add Ring FringTI2 : (@F_ring P).

Lemma mod_pos : (1 < MODULUS P)%Z.
Proof. apply Hp. Qed.
Lemma fint_0_iff (x : F P) : fint x = 0%Z <-> x = f0.
Proof.
  pose proof mod_pos. split; [|intros ->; apply fint_0; lia].
  intros E. apply F_eq. change (fint x = fint (@f0 P)). rewrite fint_0 by lia. exact E.
Qed.
Lemma fint_line (e x k : F P) : fint (fadd (fmul e x) k) = ((fint e * fint x + fint k) mod MODULUS P)%Z.
Proof.
  unfold fadd, fmul, fint. rewrite !val_fof. rewrite Z.add_mod_idemp_l by (pose proof mod_pos; lia). reflexivity.
Qed.

Lemma outcome_int (p : Poplar1) (e kk x : F P) r : e <> f1 -> tamper_outcome p e kk x r ->
  (fint x = 0 \/ (fint e * fint x + fint kk) mod MODULUS P = 0 -> exists o, r = Ok o)%Z /\
  (fint x <> 0 -> (fint e * fint x + fint kk) mod MODULUS P <> 0 -> r = reject)%Z.
Proof.
  intros He H. rewrite <- fint_line. rewrite !fint_0_iff. unfold tamper_outcome in H.
  destruct (feqb (tamper_error e kk x) f0) eqn:E.
  - apply feqb_eq in E. split; [easy|]. intros N1 N2. exfalso. unfold tamper_error in E.
    destruct (fmul_0 Hp _ _ E) as [E'|E']; [|easy]. destruct (fmul_0 Hp _ _ E') as [E2|E2]; [|easy].
    apply He. replace e with (fadd (fsub e f1) f1) by ring. rewrite E2. ring.
  - split; [|easy]. intros C. exfalso. assert (tamper_error e kk x = f0); [|apply feqb_eq in H0; congruence].
    unfold tamper_error. destruct C as [-> | ->]; ring.
Qed.

End I.

Section PM.
Context {P : FieldClass}.
Add Ring FringTM : (@F_ring P).
Lemma plus_pair d (k : F P) : [fadd (fof 1) (fof d); fadd k f0] = [fof (1 + 1 * d); k].
Proof. rewrite fof_add, Z.mul_1_l. f_equal. f_equal. ring. Qed.
Lemma minus_pair d (k : F P) : [fadd (fof 1) (fneg (fof d)); fadd k (fneg f0)] = [fof (1 + -1 * d); k].
Proof. rewrite fof_add, <- fof_opp. replace (- d)%Z with (-1 * d)%Z by ring. f_equal. f_equal. ring. Qed.
End PM.

Section M.
Context (p : Poplar1) (lim : Z) (HO : Poplar1Ok p lim) (level : nat) (d : Z).
Context (HL : level < id_BITS (p1_idpf p)) (H16 : (Z.of_nat level < 65536)%Z) (Hp : prime (level_modulus p level)).
Context (Hd : (d mod level_modulus p level <> 0)%Z).
Notation idpf := (p1_idpf p).
Notation q := (level_modulus p level).

Lemma delta_level : of_level idpf level (id_VALUE_LEN idpf) (delta_at p level d).
Proof.
  rewrite (pk_value _ _ HO). unfold delta_at. destruct (level <? id_BITS idpf - 1) eqn:E; cbn.
  - apply Nat.ltb_lt in E. auto. - apply Nat.ltb_ge in E. auto.
Qed.

Lemma shift_ne {P : FieldClass} (e : F P) (sgn : Z) : (1 < MODULUS P)%Z -> (d mod MODULUS P <> 0)%Z -> sgn = 1%Z \/ sgn = (-1)%Z -> e = fof (1 + sgn * d) ->
  e <> f1 /\ ((fint e - 1 - d) mod MODULUS P = 0 \/ (fint e - 1 + d) mod MODULUS P = 0)%Z.
Proof.
  intros HP Hd' Hs ->. unfold fint. rewrite val_fof. split.
  - intros E. apply (f_equal val) in E. unfold f1 in E. rewrite !val_fof in E.
    assert (E' : ((sgn * d) mod MODULUS P = 0)%Z).
    { replace (sgn * d)%Z with ((1 + sgn * d) - 1)%Z by ring. rewrite Zminus_mod, E, Z.sub_diag. apply Z.mod_0_l. lia. }
    destruct Hs as [-> | ->].
    + now rewrite Z.mul_1_l in E'.
    + apply Hd'. replace d with (- (-1 * d))%Z by ring. apply Z_mod_zero_opp_full. exact E'.
  - destruct Hs as [-> | ->]; [left|right].
    + rewrite <- Z.sub_add_distr, Zminus_mod_idemp_l. replace (1 + 1 * d - (1 + d))%Z with 0%Z by ring. apply Z.mod_0_l. lia.
    + replace ((1 + -1 * d) mod MODULUS P - 1 + d)%Z with ((1 + -1 * d) mod MODULUS P - (1 - d))%Z by ring.
      rewrite Zminus_mod_idemp_l. replace (1 + -1 * d - (1 - d))%Z with 0%Z by ring. apply Z.mod_0_l. lia.
Qed.

Theorem tampered_report ctx m nonce rand ps is0 is1 :
  ctx_ok ctx -> length m = id_BITS idpf -> length nonce = p1_NONCE_SIZE -> length rand = p1_RAND_SIZE p ->
  p1_shard p ctx m nonce rand = Ok (ps, [is0; is1]) ->
  exists e k, ((e - 1 - d) mod q = 0 \/ (e - 1 + d) mod q = 0)%Z /\
    forall key prefixes, NoDup prefixes -> Forall (fun x => length x = S level) prefixes -> length key = SEED_SIZE (p1_xof p) ->
    let run := p1_execute p key ctx (Z.of_nat level, prefixes) nonce (tampered level (delta_at p level d) ps) is0 is1 in
    (exists v, rand_at p key ctx nonce level (length prefixes) = Ok v /\
       length (fv_vals v) = length prefixes /\ Forall (fun x => 0 <= x < q)%Z (fv_vals v) /\
       let x := path_draw prefixes level m (fv_vals v) in
       (x = 0 \/ (e * x + k) mod q = 0 -> exists out, run = Ok out)%Z /\
       (x <> 0 -> (e * x + k) mod q <> 0 -> run = Raise (ValueError "sketch verification failed"))%Z) \/
    (run = Raise OutOfFuel /\ p1_ran_out p (length prefixes)).
Proof.
  intros Hc Hm Hn Hr ES. destruct (pk_idpf _ _ HO) as [lim' HI].
  pose proof (shard_post1 p lim HO 0 ctx m nonce rand Hc Hm Hn Hr) as HS. rewrite ES in HS.
  destruct HS as (k0 & k1 & s0 & s1 & ss & ks & kl & ci0 & ci1 & cl0 & cl1 & oi0 & oi1 & ol0 & ol1 & R).
  pose proof (r1_iss _ _ _ _ _ _ _ _ _ _ _ _ _ _ _ _ _ _ _ _ _ _ R) as EI. injection EI as -> ->.
  pose proof (r1_ks _ _ _ _ _ _ _ _ _ _ _ _ _ _ _ _ _ _ _ _ _ _ R) as Lks.
  pose proof (report_args p lim HO _ _ _ _ _ _ _ _ _ _ _ _ _ _ _ _ _ _ _ _ _ R Hc Hm Hn) as HG0.
  destruct (tampered_gen idpf _ _ _ _ _ _ level _ _ _ HL delta_level (r1_gen _ _ _ _ _ _ _ _ _ _ _ _ _ _ _ _ _ _ _ _ _ _ R)) as (dl & Hdl & HGen).
  set (bi := plus_inner level dl (map (fun k => [fof 1; k]) ks)) in *. set (bl := plus_leaf dl [fof 1; kl]) in *.
  assert (Hol : of_level idpf level 2 dl).
  { pose proof delta_level as H. rewrite (pk_value _ _ HO) in H. destruct Hdl as [-> | ->]; [exact H|].
    destruct (delta_at p level d); cbn in *; unfold vec_neg; now rewrite map_length. }
  assert (HG : gen_args_ok idpf m bi bl ctx nonce (k0 ++ k1)).
  { destruct HG0 as [G1 G2 G3 G4 G5 G6 G7]. constructor; try easy.
    - unfold bi, plus_inner. destruct dl; now rewrite ?length_upd.
    - rewrite (pk_value _ _ HO) in *. unfold bi, plus_inner. destruct dl as [v|v]; [|easy]. cbn in Hol.
      apply Forall_forall. intros x Hx. apply (In_nth _ _ []) in Hx. destruct Hx as (i & Hi & <-). rewrite length_upd in Hi.
      rewrite nth_upd by (rewrite map_length; lia). destruct (level =? i).
      + rewrite zip_with_length. rewrite (proj2 Hol). rewrite map_length in G2. rewrite (nth_map' _ _ _ f0) by lia. reflexivity.
      + rewrite Forall_forall in G3. apply G3. now apply nth_In.
    - rewrite (pk_value _ _ HO) in *. unfold bl, plus_leaf. destruct dl as [v|v]; [easy|]. cbn in Hol. rewrite zip_with_length, (proj2 Hol). reflexivity. }
  unfold level_modulus, delta_at, rand_at in *.
  destruct (level <? id_BITS idpf - 1) eqn:El.
  - apply Nat.ltb_lt in El.
    assert (EB : exists sgn, (sgn = 1 \/ sgn = -1)%Z /\ nth level bi [] = [fof (1 + sgn * d); nth level ks f0]).
    { destruct Hdl as [-> | ->]; [exists 1%Z | exists (-1)%Z]; (split; [auto|]); unfold bi; cbn [plus_inner fv_neg vec_neg map];
        rewrite nth_upd_same by (rewrite map_length; lia); rewrite (nth_map' _ _ _ f0) by lia; cbn [zip_with].
      - exact (plus_pair d _).
      - exact (minus_pair d _). }
    destruct EB as (sgn & Hs & EB).
    destruct (shift_ne _ sgn (proj1 (match Hp with prime_intro _ a b => conj a b end)) Hd Hs eq_refl) as [He He'].
    exists (fint (@fof (id_field_inner idpf) (1 + sgn * d))), (fint (nth level ks f0)). split; [exact He'|].
    intros key prefixes ND FL Hk.
    destruct (tamper_inner p lim HO ctx m nonce rand ps (tampered level (Inner [fof d; f0]) ps) _ k0 k1 s0 s1 ss ks kl ci0 ci1 cl0 cl1 oi0 oi1 ol0 ol1 R Hc Hm Hn bi bl HG HGen
      key level prefixes _ El ND FL Hk H16 EB) as [(r & Er & Lr & HT)|HF]; [left|right; exact HF].
    exists (Inner r). rewrite Er. split; [reflexivity|]. cbn [fv_vals]. rewrite map_length. split; [exact Lr|].
    split; [apply Forall_forall; intros x Hx; apply in_map_iff in Hx; destruct Hx as (y & <- & _); apply val_range|].
    rewrite on_path_hot by (try easy; destruct Hp; lia). exact (outcome_int Hp p _ _ _ _ He HT).
  - apply Nat.ltb_ge in El.
    assert (EB : exists sgn, (sgn = 1 \/ sgn = -1)%Z /\ bl = [fof (1 + sgn * d); kl]).
    { destruct Hdl as [-> | ->]; [exists 1%Z | exists (-1)%Z]; (split; [auto|]); unfold bl; cbn [plus_leaf fv_neg vec_neg map zip_with].
      - exact (plus_pair d _).
      - exact (minus_pair d _). }
    destruct EB as (sgn & Hs & EB).
    destruct (shift_ne _ sgn (proj1 (match Hp with prime_intro _ a b => conj a b end)) Hd Hs eq_refl) as [He He'].
    exists (fint (@fof (id_field_leaf idpf) (1 + sgn * d))), (fint kl). split; [exact He'|].
    intros key prefixes ND FL Hk.
    destruct (tamper_leaf p lim HO ctx m nonce rand ps (tampered level (Leaf [fof d; f0]) ps) _ k0 k1 s0 s1 ss ks kl ci0 ci1 cl0 cl1 oi0 oi1 ol0 ol1 R Hc Hm Hn bi bl HG HGen
      key level prefixes _ (conj El HL) ND FL Hk H16 EB) as [(r & Er & Lr & HT)|HF]; [left|right; exact HF].
    exists (Leaf r). rewrite Er. split; [reflexivity|]. cbn [fv_vals]. rewrite map_length. split; [exact Lr|].
    split; [apply Forall_forall; intros x Hx; apply in_map_iff in Hx; destruct Hx as (y & <- & _); apply val_range|].
    rewrite on_path_hot by (try easy; destruct Hp; lia). exact (outcome_int Hp p _ _ _ _ He HT).
Qed.
End M.

Section Z.
Open Scope Z_scope.
Lemma line_root q e k : prime q -> e mod q <> 0 -> exists r0, 0 <= r0 < q /\
  forall x, 0 <= x < q -> ((e * x + k) mod q = 0 <-> x = r0).
Proof.
  intros Hp He. pose proof (prime_ge_2 _ Hp) as Hq.
  assert (RP : rel_prime e q).
  { apply rel_prime_sym. apply prime_rel_prime; [easy|]. intros D. apply He. now apply Zdivide_mod. }
  destruct (rel_prime_bezout _ _ RP) as [u v Huv]. exists ((- k * u) mod q). split; [apply Z.mod_pos_bound; lia|].
  intros x Hx. split.
  - intros H. apply Zmod_divide in H; [|lia]. destruct H as [w Hw].
    rewrite <- (Z.mod_small x q) by lia.
    replace (- k * u) with (x + (- (w * u) - x * v) * q).
    + now rewrite Z_mod_plus_full.
    + replace k with (w * q - e * x) by lia. replace (x + (- (w * u) - x * v) * q) with (x * 1 - w * u * q - x * v * q) by ring.
      rewrite <- Huv. ring.
  - intros ->. rewrite <- Z.add_mod_idemp_l, Z.mul_mod_idemp_r, Z.add_mod_idemp_l by lia.
    replace (e * (- k * u) + k) with (0 + k * v * q).
    + rewrite Z_mod_plus_full. apply Z.mod_0_l. lia.
    + replace (0 + k * v * q) with (k * (v * q)) by ring. replace (v * q) with (1 - u * e) by lia. ring.
Qed.

Lemma shifts_nonzero q d e : prime q -> (d * d) mod q <> 1 -> (e - 1 - d) mod q = 0 \/ (e - 1 + d) mod q = 0 -> e mod q <> 0.
Proof.
  intros Hp Hd H E. pose proof (prime_ge_2 _ Hp) as Hq. apply Hd. apply Zmod_divide in E; [|lia]. destruct E as [a Ea].
  destruct H as [H|H]; apply Zmod_divide in H; try lia; destruct H as [b Hb].
  - replace (d * d) with (1 + (a - b) * ((a - b) * q - 2) * q).
    + rewrite Z_mod_plus_full. apply Z.mod_small. lia.
    + replace d with ((a - b) * q - 1) by lia. ring.
  - replace (d * d) with (1 + (a - b) * ((a - b) * q - 2) * q).
    + rewrite Z_mod_plus_full. apply Z.mod_small. lia.
    + replace d with (1 - (a - b) * q) by lia. ring.
Qed.
End Z.
