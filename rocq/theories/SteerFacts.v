(** Proofs for C97. *)
From Verif Require Export SteerSpec.
From Verif Require Import HeavyFacts HeavyRun Poplar1End Poplar1Props Poplar1Inst Props_Poplar1 FieldProofs.
Open Scope nat_scope.

Lemma map_zip {A B C D} (f : C -> D) (g : A -> B -> C) : forall l l', map f (zip_with g l l') = zip_with (fun a b => f (g a b)) l l'.
Proof. induction l as [|a l IH]; intros [|b l']; cbn; try reflexivity. now rewrite IH. Qed.

Section S.
Context (p : Poplar1) (lim : Z) (HO : Poplar1Ok p lim) (n : nat).
Notation Pi := (id_field_inner (p1_idpf p)).
Notation Pl := (id_field_leaf (p1_idpf p)).
Notation BITS := (id_BITS (p1_idpf p)).
Notation FVec := (FieldVec Pi Pl).
Notation E0 := (fun e => e = OutOfFuel /\ p1_ran_out p n).
Context (P : FieldClass) (inj : list (F P) -> FVec) (V : View p P inj).
Add Ring FringST : (@F_ring P).
Context (Hst : forall j delta ap b0 b1, j < 2 -> steering p j delta ap [inj b0; inj b1] =
  if j =? 0 then [inj (shifted delta (snd ap) b0); inj b1] else [inj b0; inj (shifted delta (snd ap) b1)]).
Context (key ctx : bytes) (level : nat) (prefixes : list (list bool)).
Context (Lp : length prefixes = n) (Hpl : Forall (fun x => length x = S level) prefixes).
Context (Hinit : p1_agg_init p (Z.of_nat level, prefixes) = Ok (inj (fzeros n))).

Lemma shifted_len delta (b : list (F P)) : length b = n -> length (shifted delta prefixes b) = n.
Proof. intros L. unfold shifted. rewrite zip_with_length. lia. Qed.
Lemma shifted_l delta (a b : list (F P)) : length a = n -> length b = n ->
  zip_with fadd (shifted delta prefixes a) b = shifted delta prefixes (zip_with fadd a b).
Proof.
  intros La Lb. apply (vec_eq n).
  - rewrite zip_with_length, shifted_len by easy. lia.
  - apply shifted_len. rewrite zip_with_length. lia.
  - intros i Hi. unfold shifted.
    rewrite (nth_zip_with fadd _ _ _ f0 f0) by (rewrite ?zip_with_length; lia).
    rewrite !(nth_zip_with (fun a x => fadd a (fof (delta x))) _ _ _ f0 []) by (rewrite ?zip_with_length; lia).
    rewrite (nth_zip_with fadd _ _ _ f0 f0) by lia. ring.
Qed.
Lemma shifted_r delta (a b : list (F P)) : length a = n -> length b = n ->
  zip_with fadd b (shifted delta prefixes a) = shifted delta prefixes (zip_with fadd b a).
Proof.
  intros La Lb. apply (vec_eq n).
  - rewrite zip_with_length, shifted_len by easy. lia.
  - apply shifted_len. rewrite zip_with_length. lia.
  - intros i Hi. unfold shifted.
    rewrite (nth_zip_with fadd _ _ _ f0 f0) by (rewrite ?zip_with_length; lia).
    rewrite !(nth_zip_with (fun a x => fadd a (fof (delta x))) _ _ _ f0 []) by (rewrite ?zip_with_length; lia).
    rewrite (nth_zip_with fadd _ _ _ f0 f0) by lia. ring.
Qed.

Theorem steered_gen j delta ms : j < 2 ->
  (forall m nonce rand a0 a1, length m = BITS -> length nonce = p1_NONCE_SIZE -> length rand = p1_RAND_SIZE p ->
   length a0 = n -> length a1 = n ->
   post (run_report (p1_vdaf p) key ctx (Z.of_nat level, prefixes) [inj a0; inj a1] (m, nonce, rand))
    (fun aggs => exists d0 d1, length d0 = n /\ length d1 = n /\ zip_with fadd d0 d1 = hot prefixes level m /\
       aggs = [inj (zip_with fadd a0 d0); inj (zip_with fadd a1 d1)]) E0) ->
  length key = p1_VERIFY_KEY_SIZE p -> p1_sizes_ok p ms -> Forall (fun r => length (fst (fst r)) = BITS) ms ->
  steered_query p key ctx ms j delta (Z.of_nat level, prefixes)
  = Ok (map (fun x => ((Z.of_nat (count_prefix x (map (fun r => fst (fst r)) ms)) + delta x) mod MODULUS P)%Z) prefixes) \/
  (steered_query p key ctx ms j delta (Z.of_nat level, prefixes) = Raise OutOfFuel /\ p1_ran_out p n).
Proof.
  intros Hj Hrep Hk Hs Hm. unfold steered_query, run_vdaf.
  set (W := corrupted (p1_vdaf p) (steering p j delta)).
  change (vd_VERIFY_KEY_SIZE W) with (p1_VERIFY_KEY_SIZE p).
  rewrite Hk, Nat.eqb_refl. cbn [check bind]. change (vd_SHARES W) with 2.
  change (range 0 2) with [0; 1]. cbn [mapM]. change (vd_agg_init W) with (p1_agg_init p). rewrite Hinit. cbn [bind].
  assert (Lz : length (@fzeros P n) = n) by (unfold fzeros; apply repeat_length).
  pose proof (batch_post p n P inj key ctx level prefixes Lp Hpl Hrep ms (fzeros n) (fzeros n) Lz Lz Hs Hm) as HB.
  change (run_report W) with (run_report (p1_vdaf p)).
  match type of HB with post ?X _ _ => destruct X as [aggs|e] eqn:Ef end.
  2:{ right. cbn [post] in HB. destruct HB as [-> HR]. split; [|exact HR]. exact (f_equal (fun r => bind r _) Ef). }
  left. destruct HB as (b0 & b1 & L0 & L1 & -> & Hb).
  refine (eq_trans (f_equal (fun r => bind r _) Ef) _). cbn [bind].
  change (p1_unshard p (Z.of_nat level, prefixes) (steering p j delta (Z.of_nat level, prefixes) [inj b0; inj b1]) (length ms) =
    Ok (map (fun x => ((Z.of_nat (count_prefix x (map (fun r => fst (fst r)) ms)) + delta x) mod MODULUS P)%Z) prefixes)).
  rewrite Hst by exact Hj. cbn [snd]. unfold p1_unshard, p1_merge. rewrite Hinit. cbn [bind].
  assert (G : forall c0 c1, length c0 = n -> length c1 = n -> zip_with fadd c0 c1 = shifted delta prefixes (zip_with fadd b0 b1) ->
    (let* agg := foldM (fun agg agg_share : FVec => fv_add agg agg_share) [inj c0; inj c1] (inj (fzeros n)) in Ok (fv_vals agg)) =
    Ok (map (fun x => ((Z.of_nat (count_prefix x (map (fun r => fst (fst r)) ms)) + delta x) mod MODULUS P)%Z) prefixes)).
  { intros c0 c1 M0 M1 E. cbn [foldM]. rewrite (vw_add _ _ _ V), vec_add_ok by congruence. cbn [bind].
    rewrite (vw_add _ _ _ V), vec_add_ok by (rewrite zip_with_length; lia). cbn [bind].
    rewrite (vw_vals _ _ _ V). f_equal. rewrite (zip_zero_l n) by easy. rewrite E, Hb.
    rewrite (zip_zero_l n) by easy.
    rewrite (zip_zero_l n) by (unfold counts; now rewrite map_length).
    unfold counts, shifted. rewrite map_zip. clear. induction prefixes as [|x l IH]; cbn [map zip_with]; [reflexivity|]. f_equal; [|exact IH].
    rewrite <- fof_add. apply fint_fof. }
  destruct j as [|[|j]]; cbn [Nat.eqb]; [apply G|apply G|lia]; try assumption; try (now apply shifted_len).
  - now apply shifted_l.
  - now apply shifted_r.
Qed.
End S.

Theorem steered_ok (p : Poplar1) (lim : Z) : Poplar1Ok p lim -> forall key ctx level prefixes ms j delta, j < 2 ->
  NoDup prefixes -> Forall (fun x => length x = S level) prefixes ->
  ctx_ok ctx -> length key = p1_VERIFY_KEY_SIZE p -> level < id_BITS (p1_idpf p) -> (Z.of_nat level < 65536)%Z ->
  p1_sizes_ok p ms -> Forall (fun r => length (fst (fst r)) = id_BITS (p1_idpf p)) ms ->
  steered_query p key ctx ms j delta (Z.of_nat level, prefixes)
  = Ok (map (fun x => ((Z.of_nat (count_prefix x (map (fun r => fst (fst r)) ms)) + delta x) mod level_modulus p level)%Z) prefixes) \/
  (steered_query p key ctx ms j delta (Z.of_nat level, prefixes) = Raise OutOfFuel /\ p1_ran_out p (length prefixes)).
Proof.
  intros HO key ctx level prefixes ms j delta Hj Hnd Hpl Hc Hk Hl Hl16 Hs Hm.
  unfold level_modulus. destruct (level <? id_BITS (p1_idpf p) - 1) eqn:E.
  - apply (steered_gen p (length prefixes) _ Inner (view_inner p lim HO)); try assumption; try reflexivity.
    + intros [|[|j']] d ap b0 b1 Hj'; [reflexivity|reflexivity|lia].
    + unfold p1_agg_init. rewrite level_is_inner_nat, E. reflexivity.
    + intros. apply (report_inner p lim HO); try assumption; try reflexivity. now apply Nat.ltb_lt.
  - apply (steered_gen p (length prefixes) _ Leaf (view_leaf p lim HO)); try assumption; try reflexivity.
    + intros [|[|j']] d ap b0 b1 Hj'; [reflexivity|reflexivity|lia].
    + unfold p1_agg_init. rewrite level_is_inner_nat, E. reflexivity.
    + apply Nat.ltb_ge in E. intros. apply (report_leaf p lim HO); try assumption; try reflexivity. lia.
Qed.

Lemma firstn_S_nth (l : list bool) : forall k, k < length l -> firstn (S k) l = firstn k l ++ [nth k l false].
Proof. induction l as [|a l IH]; intros k H; cbn [length] in H; [lia|]. destruct k as [|k]; [reflexivity|]. cbn [firstn nth app]. f_equal. apply (IH k). lia. Qed.

(** The loop, for any function that gives the counts. *)
Section L.
Context (q : Poplar1AggParam -> res (list Z)) (T : Z) (bits : nat) (c : list bool -> Z).
Context (q_exact : forall level prefixes counts, level < bits -> level_ok level prefixes ->
  q (Z.of_nat level, prefixes) = Ok counts -> counts = map c prefixes).

Lemma heavy_c prefixes x : In x (heavy_prefixes T prefixes (map c prefixes)) <-> In x prefixes /\ (T <= c x)%Z.
Proof.
  rewrite heavy_In by apply map_length. split.
  - intros (i & Hi & <- & H). rewrite (nth_indep _ 0%Z (c [])), map_nth in H by now rewrite map_length. split; [now apply nth_In|exact H].
  - intros [I H]. apply In_nth with (d := []) in I. destruct I as (i & Hi & <-). exists i. split; [exact Hi|]. split; [reflexivity|].
    rewrite (nth_indep _ 0%Z (c [])), map_nth by now rewrite map_length. exact H.
Qed.

Lemma steered_levels : forall remaining level history prefixes l h,
  heavy_levels q T remaining level history prefixes = Ok (l, h) -> 0 < remaining -> remaining + level = bits -> level_ok level prefixes ->
  forall y, In y l <-> length y = bits /\ In (firstn (S level) y) prefixes /\ forall k, level <= k < bits -> (T <= c (firstn (S k) y))%Z.
Proof.
  induction remaining as [|r IH]; intros level history prefixes l h E Hr Hb HL y; [lia|]. cbn [heavy_levels] in E.
  apply bind_Ok in E. destruct E as (ok & _ & E). apply bind_Ok in E. destruct E as (u & _ & E).
  apply bind_Ok in E. destruct E as (counts & Eq & E). apply q_exact in Eq; [|lia|exact HL]. subst counts.
  pose proof (proj1 (Forall_forall _ _) (proj2 HL)) as HF.
  destruct (r =? 0) eqn:E0; cbn [orb] in E.
  - apply Nat.eqb_eq in E0. subst r. injection E as <- _. rewrite heavy_c. assert (bits = S level) as -> by lia. split.
    + intros [I H]. specialize (HF y I). cbv beta in HF. rewrite (firstn_all2 (n := S level)) by lia. split; [exact HF|]. split; [exact I|].
      intros k Hk. assert (k = level) as -> by lia. rewrite firstn_all2 by lia. exact H.
    + intros (Ly & I & H). rewrite (firstn_all2 (n := S level)) in I by lia. split; [exact I|]. specialize (H level ltac:(lia)). rewrite firstn_all2 in H by lia. exact H.
  - apply Nat.eqb_neq in E0. destruct (length (heavy_prefixes T prefixes (map c prefixes)) =? 0) eqn:E1.
    + injection E as <- _. apply Nat.eqb_eq in E1. apply length_zero_iff_nil in E1. rewrite E1. split; [intros []|].
      intros (Ly & I & H). assert (X : In (firstn (S level) y) (heavy_prefixes T prefixes (map c prefixes))) by (apply heavy_c; split; [exact I | apply H; lia]).
      rewrite E1 in X. destruct X.
    + rewrite (IH (S level) _ _ l h E ltac:(lia) ltac:(lia)) by (apply (level_next T level prefixes); [exact HL | apply map_length]).
      rewrite next_In. split.
      * intros (Ly & (x & b & I & Ex) & H). apply heavy_c in I. destruct I as [I Hx]. split; [exact Ly|].
        assert (Ex' : firstn (S level) y = x).
        { apply (f_equal (firstn (S level))) in Ex. rewrite firstn_firstn, Nat.min_l in Ex by lia. rewrite Ex.
          specialize (HF x I). cbv beta in HF. rewrite <- HF, firstn_app, firstn_all, Nat.sub_diag. cbn [firstn]. apply app_nil_r. }
        rewrite Ex'. split; [exact I|]. intros k Hk. destruct (Nat.eq_dec k level) as [->|]; [now rewrite Ex' | apply H; lia].
      * intros (Ly & I & H). split; [exact Ly|]. split; [|intros k Hk; apply H; lia].
        exists (firstn (S level) y), (nth (S level) y false). split; [apply heavy_c; split; [exact I | apply H; lia]|].
        apply firstn_S_nth. lia.
Qed.
End L.

Section Run.
Context (ts : TurboShake) (aes : BlockCipher) (bound bits : nat).
Context (Ha : forall k b, length b = 16 -> length (aes k b) = 16) (Hb : (Z.of_nat bound < 2 ^ 120)%Z) (H0 : 0 < bits) (H1 : (Z.of_nat bits <= 65536)%Z).
Let p := p1_obj ts aes bound bits.
Context (key ctx : bytes) (Hk : length key = 32) (Hc : ctx_ok ctx).
Context (ms : list (list bool * bytes * bytes)) (Hs : p1_sizes_ok p ms) (Hm : Forall (fun r => length (fst (fst r)) = bits) ms).
Let M := map (fun r => fst (fst r)) ms.
Context (j : nat) (Hj : j < 2) (delta : list bool -> Z)
  (HD : forall x, (0 <= delta x)%Z /\ (Z.of_nat (length ms) + delta x < MODULUS Field64)%Z).
Let q := steered_query p key ctx ms j delta.
Let c x := (zcount M x + delta x)%Z.

Lemma count_le x S : count_prefix x S <= length S.
Proof. unfold count_prefix. induction S as [|s S IH]; [reflexivity|]. cbn [filter length]. destruct (list_eq_dec _ _ _); cbn [length]; lia. Qed.

Lemma steered_counts level prefixes : level < bits -> level_ok level prefixes ->
  q (Z.of_nat level, prefixes) = Ok (map c prefixes) \/ (q (Z.of_nat level, prefixes) = Raise OutOfFuel /\ p1_ran_out p (length prefixes)).
Proof.
  intros Hl HL. destruct (p1_obj_ok ts aes bound bits Ha Hb H0) as (lim & HO).
  destruct (steered_ok p lim HO key ctx level prefixes ms j delta Hj (sorted_NoDup _ (proj1 HL)) (proj2 HL) Hc Hk Hl ltac:(lia) Hs Hm) as [E|E]; [left|right; exact E].
  etransitivity; [exact E|]. f_equal. apply map_ext. intros x. unfold c, zcount. fold M.
  assert (HMod : (MODULUS Field64 <= level_modulus p level)%Z) by (unfold level_modulus; destruct (_ <? _); vm_compute; discriminate).
  pose proof (count_le x M) as HX. unfold M in HX at 2. rewrite map_length in HX. pose proof (HD x). apply Z.mod_small. lia.
Qed.

Theorem steered_result T :
  (exists l h, heavy_hitters q T bits = Ok (l, h) /\
     forall y, In y l <-> length y = bits /\ forall k, k < bits -> (T <= c (firstn (S k) y))%Z) \/
  (heavy_hitters q T bits = Raise OutOfFuel /\ exists n, p1_ran_out p n).
Proof.
  destruct (levels_total q T bits (fun _ => True) (fun e => e = OutOfFuel /\ exists n, p1_ran_out p n)) with (remaining := bits) (level := 0)
    (history := @nil Poplar1AggParam) (prefixes := [[false]; [true]]) as [(l & h & E)|(e & E & -> & R)]; [|lia|apply start_ok|apply start_history|easy| |].
  - intros level prefixes Hl HL _. destruct (steered_counts level prefixes Hl HL) as [X|[X R]]; rewrite X; [left|right].
    + eexists. split; [reflexivity|]. split; [apply map_length|easy].
    + exists OutOfFuel. eauto.
  - left. exists l, h. split; [exact E|]. intros y.
    assert (QE : forall level prefixes counts, level < bits -> level_ok level prefixes -> q (Z.of_nat level, prefixes) = Ok counts -> counts = map c prefixes).
    { intros level prefixes counts Hl HL Eq. destruct (steered_counts level prefixes Hl HL) as [X|[X _]]; rewrite X in Eq; [now injection Eq as <- | discriminate]. }
    rewrite (steered_levels q T bits c QE _ _ _ _ _ _ E); [|exact H0|lia|apply start_ok].
    split.
    + intros (Ly & _ & H). split; [exact Ly|]. intros k Hk'. apply H. lia.
    + intros (Ly & H). split; [exact Ly|]. split; [now apply (start_firstn bits)|]. intros k Hk'. apply H. lia.
  - right. split; [exact E | exact R].
Qed.
End Run.

Lemma levels_last q T : forall r level history prefixes l h, heavy_levels q T (S r) level history prefixes = Ok (l, h) -> l <> [] ->
  exists h' pf counts, h = h' ++ [(Z.of_nat (level + r), pf)] /\ q (Z.of_nat (level + r), pf) = Ok counts /\ l = heavy_prefixes T pf counts.
Proof.
  induction r as [|r IH]; intros level history prefixes l h E NE; cbn [heavy_levels] in E;
    apply bind_Ok in E; destruct E as (ok & _ & E); apply bind_Ok in E; destruct E as (u & _ & E);
    apply bind_Ok in E; destruct E as (counts & Eq & E).
  - cbn [Nat.eqb orb] in E. injection E as <- <-. rewrite Nat.add_0_r. eauto 6.
  - cbn [Nat.eqb orb] in E. destruct (length (heavy_prefixes T prefixes counts) =? 0) eqn:E1.
    + injection E as <- _. apply Nat.eqb_eq, length_zero_iff_nil in E1. contradiction.
    + change (heavy_levels q T (S r) (S level) (history ++ [(Z.of_nat level, prefixes)]) (next_candidates (heavy_prefixes T prefixes counts)) = Ok (l, h)) in E.
      destruct (IH _ _ _ _ _ E NE) as (h' & pf & cs & A & B & C). replace (level + S r) with (S level + r) by lia. eauto 6.
Qed.
