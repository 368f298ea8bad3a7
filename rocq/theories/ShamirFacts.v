(** Proofs about Shamir secret sharing. *)
From Coq Require Import Znumtheory.
From Verif Require Import Shamir ShamirSpec Spec BaseFacts FieldFacts PolyAlg PolyFacts VecFacts.
Open Scope nat_scope.

Section Sh.
Context {P : FieldClass} (Hp : prime (MODULUS P)).
Notation F := (F P).
Notation pt := (@pt P).
Add Ring FringSh : (@F_ring P).

Lemma pt_inj i j : (Z.of_nat (i + 1) < MODULUS P)%Z -> (Z.of_nat (j + 1) < MODULUS P)%Z -> pt i = pt j -> i = j.
Proof. intros A B E. apply fof_eq in E. rewrite !Z.mod_small in E by lia. lia. Qed.
Lemma pt_nz j : (Z.of_nat (j + 1) < MODULUS P)%Z -> pt j <> f0.
Proof. intros A E. apply fof_eq in E. rewrite !Z.mod_small in E by lia. lia. Qed.
Lemma pt_init j : (Z.of_nat (j + 1) < MODULUS P)%Z -> field_init (Z.of_nat (j + 1)) = Ok (pt j).
Proof. intro A. apply field_init_ok. lia. Qed.

Lemma pt_NoDup l : NoDup l -> Forall (fun j => Z.of_nat (j + 1) < MODULUS P)%Z l -> NoDup (map pt l).
Proof.
  induction 1 as [|a l Ha Hl IH]; intro HF; cbn [map]; [constructor|]. inversion HF as [|? ? HA HF']; subst.
  constructor; [|now apply IH]. intro Hin. apply in_map_iff in Hin. destruct Hin as (b & E & Hb).
  apply pt_inj in E; [|exact (proj1 (Forall_forall _ _) HF' b Hb)|exact HA]. now subst b.
Qed.

(** ** Interpolation *)
Lemma interp_one (x y : F) : poly_interp [x] [y] = Ok [y].
Proof. reflexivity. Qed.

Lemma interp_stripped (xs ys c : list F) : 2 <= length xs -> poly_interp xs ys = Ok c -> stripped c.
Proof.
  intros L. unfold poly_interp. destruct (length xs =? length ys); [|discriminate]. intro H. cbv zeta in H. apply bind_Ok in H.
  destruct H as (y0 & _ & H). apply bind_Ok in H. destruct H as ([[b d] o] & H & [= <-]).
  replace (length xs) with (S (length xs - 1)) in H by lia. rewrite for_range_S in H by lia. apply bind_Ok in H.
  destruct H as ([[b' d'] o'] & _ & H). unfold poly_interp_step in H.
  apply bind_Ok in H. destruct H as (x & _ & H). apply bind_Ok in H. destruct H as (nb & _ & H).
  apply bind_Ok in H. destruct H as (nd & _ & H). apply bind_Ok in H. destruct H as (d0 & _ & H).
  apply bind_Ok in H. destruct H as (term & _ & H). apply bind_Ok in H. destruct H as (out & A & [= <- <- <-]).
  destruct (poly_add_spec o' term) as (r & E & S & _). rewrite E in A. now injection A as <-.
Qed.

Lemma peval_f0 (c : list F) : peval c f0 = nth 0 c f0.
Proof. destruct c; cbn [peval nth]; [reflexivity|ring]. Qed.

(** First coefficient of the interpolation polynomial of the values of [q]. *)
Lemma interp_first (xs : list F) (q : list F) : xs <> [] -> NoDup xs -> length q <= length xs ->
  (let* c := poly_interp xs (map (peval q) xs) in get c 0) =
  (if (length xs =? 1) || existsb (fun a => negb (feqb a f0)) q then Ok (nth 0 q f0) else Raise IndexError).
Proof.
  intros Hne Hnd L.
  destruct (poly_interp_spec Hp xs (map (peval q) xs)) as (c & E & Lc & Hc); [now rewrite map_length|exact Hne|exact Hnd|].
  rewrite E. cbn [bind].
  assert (A : forall x, In x xs -> peval c x = peval q x).
  { intros x Hx. apply (In_nth _ _ f0) in Hx. destruct Hx as (i & Hi & <-). rewrite Hc by exact Hi.
    now rewrite (nth_map' _ _ _ f0) by exact Hi. }
  assert (A0 : nth 0 c f0 = nth 0 q f0).
  { rewrite <- !peval_f0. now apply (poly_agree Hp c q xs (length xs)). }
  assert (G : c <> [] -> get c 0 = Ok (nth 0 q f0)).
  { intro N. rewrite (get_nth c 0 f0) by (destruct c; [congruence|cbn; lia]). now rewrite A0. }
  destruct (length xs =? 1) eqn:E1; cbn [orb].
  - apply Nat.eqb_eq in E1. apply G. destruct xs as [|x [|? ?]]; try discriminate E1. cbn in E. injection E as <-. discriminate.
  - apply Nat.eqb_neq in E1. destruct (existsb _ q) eqn:Ex.
    + apply G. intros ->. apply existsb_exists in Ex. destruct Ex as (a & Ha & Hz).
      assert (Z : allzero q).
      { apply (poly_roots_zero Hp xs Hnd q L). intros x Hx. rewrite <- A by exact Hx. reflexivity. }
      apply (proj1 (Forall_forall _ _) Z) in Ha. subst a.
      apply negb_true_iff in Hz. unfold feqb in Hz. rewrite Z.eqb_refl in Hz. discriminate Hz.
    + assert (Z : allzero q).
      { apply Forall_forall. intros a Ha. destruct (feqb a f0) eqn:Ea; [now apply feqb_eq in Ea|].
        assert (existsb (fun a => negb (feqb a f0)) q = true) by (apply existsb_exists; exists a; rewrite Ea; now split). congruence. }
      assert (Zc : allzero c).
      { apply (poly_roots_zero Hp xs Hnd c Lc). intros x Hx. rewrite A by exact Hx. now apply peval_allzero. }
      assert (S : stripped c).
      { apply (interp_stripped xs (map (peval q) xs)); [|exact E]. destruct xs as [|? [|? ?]]; cbn in *; try lia; congruence. }
      now rewrite (stripped_allzero c S Zc).
Qed.

(** ** Loops *)
Lemma snoc_loop {A B} (f : A -> res B) : forall l acc,
  foldM (fun acc i => let* y := f i in Ok (acc ++ [y])) l acc = let* r := mapM f l in Ok (acc ++ r).
Proof.
  induction l as [|i l IH]; intro acc; cbn [foldM mapM bind]; [now rewrite app_nil_r|].
  rewrite !bind_assoc. apply bind_ext. intros y _. cbn [bind]. rewrite IH, !bind_assoc. apply bind_ext. intros r _. cbn [bind].
  now rewrite <- app_assoc.
Qed.

Lemma mapM_one_fails {A B} (f : A -> res B) e l : (forall x, In x l -> (exists y, f x = Ok y) \/ f x = Raise e) ->
  (exists x, In x l /\ f x = Raise e) -> mapM f l = Raise e.
Proof.
  induction l as [|a l IH]; intros H (x & Hx & E); [destruct Hx|]. cbn [mapM].
  destruct (H a (or_introl eq_refl)) as [(y & Ey)|Ea].
  - rewrite Ey. cbn [bind]. rewrite IH; [reflexivity|intros z Hz; apply H; now right|]. exists x. split; [|exact E].
    destruct Hx as [->|Hx]; [congruence|exact Hx].
  - now rewrite Ea.
Qed.

(** ** unshard *)
Lemma collected (polys : list (list F)) (index : list nat) i : forall xs fs,
  Forall (fun j => Z.of_nat (j + 1) < MODULUS P)%Z index -> i < length polys ->
  foldM (fun '(xs, fs) '(j, share) =>
      let* x := field_init (j + 1) in
      let* f := get share i in
      Ok (xs ++ [x], fs ++ [f])) (combine (map Z.of_nat index) (map (share_of polys) index)) (xs, fs) =
  Ok (xs ++ map pt index, fs ++ map (peval (nth i polys [])) (map pt index)).
Proof.
  induction index as [|j index IH]; intros xs fs HF Hi; cbn [map combine foldM]; [now rewrite !app_nil_r|].
  inversion HF as [|? ? HA HF']; subst. replace (Z.of_nat j + 1)%Z with (Z.of_nat (j + 1)) by lia.
  rewrite pt_init by exact HA. cbn [bind]. unfold share_of at 1. rewrite (get_nth _ i f0) by (now rewrite map_length).
  rewrite (nth_map' _ _ _ []) by exact Hi. cbn [bind]. rewrite IH by assumption. now rewrite <- !app_assoc.
Qed.

Theorem unshard_spec (polys : list (list F)) (index : list nat) :
  index <> [] -> NoDup index -> Forall (fun j => Z.of_nat (j + 1) < MODULUS P)%Z index ->
  Forall (fun c => length c <= length index) polys ->
  shamir_unshard (map Z.of_nat index) (map (share_of polys) index) =
  if forallb (unshard_ok index) polys then Ok (map (fun c => nth 0 c f0) polys) else Raise IndexError.
Proof.
  intros Hne Hnd HF HL. unfold shamir_unshard.
  rewrite (get_nth _ 0 (share_of polys 0)) by (rewrite map_length; destruct index; [congruence|cbn; lia]).
  cbn [bind]. rewrite map_nth. unfold share_of at 1. rewrite map_length.
  transitivity (for_range 0 (length polys) [] (fun meas i =>
    let* y := (if unshard_ok index (nth i polys []) then Ok (nth 0 (nth i polys []) f0) else Raise IndexError) in Ok (meas ++ [y]))).
  { apply foldM_ext. intros meas i Hi. apply in_range in Hi. rewrite collected by (assumption || lia). cbn [bind app].
    assert (Hl : length (nth i polys []) <= length (map pt index)).
    { rewrite map_length. apply (proj1 (Forall_forall _ _) HL). apply nth_In. lia. }
    pose proof (interp_first (map pt index) (nth i polys [])) as I.
    rewrite <- bind_assoc. rewrite I.
    - unfold unshard_ok. now rewrite map_length.
    - destruct index; [congruence|discriminate].
    - now apply pt_NoDup.
    - exact Hl. }
  unfold for_range. rewrite snoc_loop. cbn [app]. rewrite bind_ret.
  destruct (forallb (unshard_ok index) polys) eqn:E.
  - rewrite (mapM_map _ (fun i => nth 0 (nth i polys []) f0)).
    + f_equal. unfold range. rewrite Nat.sub_0_r. apply (nth_ext' f0); rewrite !map_length, seq_length; [reflexivity|]. intros i Hi.
      rewrite (nth_map' _ _ _ 0) by (now rewrite seq_length). rewrite seq_nth by exact Hi. now rewrite (nth_map' _ _ _ []) by exact Hi.
    + intros i Hi. apply in_range in Hi. rewrite forallb_forall in E. rewrite E; [reflexivity|]. apply nth_In. lia.
  - apply mapM_one_fails.
    + intros i _. destruct (unshard_ok index (nth i polys [])); [left; now eexists|now right].
    + assert (X : exists c, In c polys /\ unshard_ok index c = false).
      { clear -E. induction polys as [|c l IH]; [discriminate E|]. cbn [forallb] in E. apply andb_false_iff in E. destruct E as [E|E].
        - exists c. split; [now left|exact E].
        - destruct (IH E) as (d & Hd & Ed). exists d. split; [now right|exact Ed]. }
      destruct X as (c & Hc & Ec). apply (In_nth _ _ []) in Hc. destruct Hc as (i & Hi & <-). exists i.
      split; [apply in_range; lia|]. now rewrite Ec.
Qed.

(** ** shard *)
Lemma poly_loop x : forall (c : list F) (k : nat) acc,
  foldM (fun f '(k, c) => let* x := Ok x in Ok (fadd f (fmul c (fpow x (N.of_nat k))))) (combine (seq k (length c)) c) acc
  = Ok (fadd acc (fmul (npow x k) (peval c x))).
Proof.
  induction c as [|a c IH]; intros k acc; cbn [length seq combine foldM peval]; [f_equal; ring|].
  cbn [bind]. rewrite IH. f_equal. unfold npow. rewrite fpow_nat_S. ring.
Qed.

Lemma coeff_loop j (c : list F) : (Z.of_nat (j + 1) < MODULUS P)%Z ->
  foldM (fun f '(k, c) => let* x := field_init (Z.of_nat (j + 1)) in Ok (fadd f (fmul c (fpow x (N.of_nat k))))) (enumerate c) f0
  = Ok (peval c (pt j)).
Proof.
  intro H. rewrite pt_init by exact H. unfold enumerate. rewrite poly_loop. f_equal. unfold npow. cbn [N.of_nat fpow]. ring.
Qed.

Theorem shard_spec (meas : list F) (rand : list (list F)) n : (Z.of_nat n < MODULUS P)%Z -> length rand = length meas ->
  shamir_shard meas rand n = Ok (map (share_of (polys_of meas rand)) (range 0 n)).
Proof.
  intros Hn HL. unfold shamir_shard. cbv zeta. set (L := length meas).
  assert (Lp : length (polys_of meas rand) = L) by (unfold polys_of; rewrite map_length, combine_length, HL; apply Nat.min_id).
  set (val i j := peval (nth i (polys_of meas rand) []) (pt j)).
  set (row i j := map (fun k => if k <? i then val k j else f0) (range 0 L)).
  destruct (for_range_inv (fun i s => s = map (row i) (range 0 n)) 0 L (map (fun _ => fzeros L) (range 0 n))
    (fun meas_shares i =>
      let* m := get meas i in
      let* r := get rand i in
      for_range 0 n meas_shares (fun meas_shares j =>
        let* f := foldM (fun f '(k, c) =>
          let* x := field_init (Z.of_nat (j + 1)) in
          Ok (fadd f (fmul c (fpow x (N.of_nat k))))) (enumerate ([m] ++ r)) f0 in
        let* row := get meas_shares j in
        let* row := set row i f in
        set meas_shares j row))) as (s & E & ->); [lia| | |].
  - apply map_ext. intro j. unfold row, fzeros. apply (nth_ext' f0); [rewrite repeat_length, map_length, length_range; lia|].
    rewrite repeat_length. intros k Hk. rewrite nth_repeat'. rewrite (nth_map' _ _ _ 0) by (rewrite length_range; lia). now destruct (k <? L).
  - intros i s Hi ->. rewrite (get_nth meas i f0) by (fold L; lia). rewrite (get_nth rand i []) by (rewrite HL; fold L; lia). cbn [bind].
    destruct (for_range_inv (fun j s => s = map (fun k => if k <? j then row (S i) k else row i k) (range 0 n)) 0 n (map (row i) (range 0 n))
      (fun meas_shares j =>
        let* f := foldM (fun f '(k, c) =>
          let* x := field_init (Z.of_nat (j + 1)) in
          Ok (fadd f (fmul c (fpow x (N.of_nat k))))) (enumerate ([nth i meas f0] ++ nth i rand [])) f0 in
        let* row := get meas_shares j in
        let* row := set row i f in
        set meas_shares j row)) as (s & E & ->); [lia| | |].
    + apply map_ext. reflexivity.
    + intros j s Hj ->. rewrite coeff_loop by lia. cbn [bind].
      rewrite (get_nth _ j []) by (rewrite map_length, length_range; lia). rewrite (nth_map' _ _ _ 0) by (rewrite length_range; lia).
      rewrite nth_range by lia. rewrite Nat.add_0_l, Nat.ltb_irrefl. cbn [bind].
      assert (Lr : length (row i j) = L) by (unfold row; rewrite map_length, length_range; lia).
      rewrite set_lt by (rewrite Lr; lia). cbn [bind]. rewrite set_lt by (rewrite map_length, length_range; lia).
      eexists. split; [reflexivity|].
      assert (V : peval ([nth i meas f0] ++ nth i rand []) (pt j) = val i j).
      { unfold val, polys_of. rewrite (nth_map' _ _ _ (f0, [])) by (rewrite combine_length, HL, Nat.min_id; fold L; lia).
        rewrite combine_nth by (now symmetry). reflexivity. }
      assert (Er : upd (row i j) i (peval ([nth i meas f0] ++ nth i rand []) (pt j)) = row (S i) j).
      { apply (nth_ext' f0); [rewrite length_upd, Lr; unfold row; rewrite map_length, length_range; lia|].
        rewrite length_upd, Lr. intros k Hk. rewrite nth_upd by lia. rewrite V. unfold row.
        rewrite !(nth_map' _ _ _ 0) by (rewrite length_range; lia). rewrite nth_range by lia. rewrite Nat.add_0_l.
        destruct (Nat.eqb_spec i k) as [->|D].
        - replace (k <? S k) with true by (symmetry; apply Nat.ltb_lt; lia). reflexivity.
        - destruct (Nat.ltb_spec k i), (Nat.ltb_spec k (S i)); try lia; reflexivity. }
      rewrite Er. apply (nth_ext' []); [now rewrite length_upd, !map_length|]. rewrite length_upd, map_length, length_range. intros k Hk.
      rewrite nth_upd by (rewrite map_length, length_range; lia). rewrite !(nth_map' _ _ _ 0) by (rewrite length_range; lia).
      rewrite nth_range by lia. rewrite Nat.add_0_l.
      destruct (Nat.eqb_spec j k) as [->|D].
      * replace (k <? S k) with true by (symmetry; apply Nat.ltb_lt; lia). reflexivity.
      * destruct (Nat.ltb_spec k j), (Nat.ltb_spec k (S j)); try lia; reflexivity.
    + eexists. split; [exact E|]. apply map_ext_in. intros k Hk. apply in_range in Hk.
      now replace (k <? n) with true by (symmetry; apply Nat.ltb_lt; lia).
  - refine (eq_trans E _). f_equal. apply map_ext_in. intros j _. unfold row, share_of.
    apply (nth_ext' f0); [rewrite !map_length, length_range; lia|]. rewrite map_length, length_range. intros k Hk.
    rewrite (nth_map' _ _ _ 0) by (rewrite length_range; lia). rewrite (nth_map' _ _ _ []) by lia.
    rewrite nth_range by lia. rewrite Nat.add_0_l. replace (k <? L) with true by (symmetry; apply Nat.ltb_lt; lia). reflexivity.
Qed.

(** ** Reconstruction *)
Lemma polys_length (meas : list F) rand : length rand = length meas -> length (polys_of meas rand) = length meas.
Proof. intro H. unfold polys_of. rewrite map_length, combine_length, H. apply Nat.min_id. Qed.

Lemma polys_nth (meas : list F) rand i : length rand = length meas -> i < length meas ->
  nth i (polys_of meas rand) [] = nth i meas f0 :: nth i rand [].
Proof.
  intros H Hi. unfold polys_of. rewrite (nth_map' _ _ _ (f0, [])) by (rewrite combine_length, H, Nat.min_id; exact Hi).
  rewrite combine_nth by (now symmetry). reflexivity.
Qed.

Lemma polys_secret (meas : list F) rand : length rand = length meas -> map (fun c => nth 0 c f0) (polys_of meas rand) = meas.
Proof.
  intro H. apply (nth_ext' f0); [now rewrite map_length, polys_length|]. rewrite map_length, polys_length by exact H. intros i Hi.
  rewrite (nth_map' _ _ _ []) by (now rewrite polys_length). now rewrite polys_nth.
Qed.

Lemma polys_bound (meas : list F) rand t n : Forall (fun r => length r = t - 1) rand -> 1 <= n -> t <= n ->
  Forall (fun c => length c <= n) (polys_of meas rand).
Proof.
  intros HF H1 H2. apply Forall_forall. intros c Hc. unfold polys_of in Hc. apply in_map_iff in Hc. destruct Hc as ([m r] & <- & Hin).
  apply in_combine_r in Hin. cbn [fst snd length]. rewrite (proj1 (Forall_forall _ _) HF r Hin). lia.
Qed.

Lemma select_shares (polys : list (list F)) n index : Forall (fun j => j < n) index ->
  select (map (share_of polys) (range 0 n)) index = map (share_of polys) index.
Proof.
  intro HF. unfold select. apply map_ext_in. intros j Hj. apply (proj1 (Forall_forall _ _) HF) in Hj.
  rewrite (nth_map' _ _ _ 0) by (rewrite length_range; lia). now rewrite nth_range by lia.
Qed.

Lemma index_fits n index : (Z.of_nat n < MODULUS P)%Z -> Forall (fun j => j < n) index ->
  Forall (fun j => Z.of_nat (j + 1) < MODULUS P)%Z index.
Proof. intros H. apply Forall_impl. intros j Hj. lia. Qed.

Theorem reconstruct (meas : list F) rand t n index :
  (Z.of_nat n < MODULUS P)%Z -> length rand = length meas -> Forall (fun r => length r = t - 1) rand ->
  index <> [] -> NoDup index -> Forall (fun j => j < n) index -> t <= length index ->
  exists shares, shamir_shard meas rand n = Ok shares /\ length shares = n /\ Forall (fun s => length s = length meas) shares /\
    shamir_unshard (map Z.of_nat index) (select shares index) =
    if forallb (unshard_ok index) (polys_of meas rand) then Ok meas else Raise IndexError.
Proof.
  intros Hn HL HR Hne Hnd HI Ht. exists (map (share_of (polys_of meas rand)) (range 0 n)).
  split; [now apply shard_spec|]. split; [rewrite map_length, length_range; lia|]. split.
  { apply Forall_forall. intros s Hs. apply in_map_iff in Hs. destruct Hs as (j & <- & _). unfold share_of.
    now rewrite map_length, polys_length. }
  rewrite select_shares by exact HI. rewrite unshard_spec.
  - now rewrite polys_secret.
  - exact Hne.
  - exact Hnd.
  - now apply index_fits with n.
  - apply polys_bound with t; [exact HR| |exact Ht]. destruct index; [congruence|cbn; lia].
Qed.

(** ** Linearity *)
Lemma peval_vsum t x : forall (l : list (list F)), Forall (fun c => length c = t) l ->
  peval (vsum t l) x = fsuml (map (fun c => peval c x) l).
Proof.
  induction l as [|c l IH]; intro HF.
  - rewrite vsum_nil. apply peval_repeat0.
  - inversion HF as [|? ? Hc HF']; subst. rewrite vsum_cons by reflexivity.
    rewrite peval_zip_add by (now rewrite vsum_length). rewrite IH by exact HF'. reflexivity.
Qed.

Lemma share_sum L t j (l : list (list (list F))) :
  Forall (fun polys => length polys = L /\ Forall (fun c => length c = t) polys) l ->
  vsum L (map (fun polys => share_of polys j) l) = share_of (poly_sum L t l) j.
Proof.
  intro HF. unfold share_of, poly_sum. rewrite map_map. unfold vsum at 1. apply map_ext_in. intros i Hi. apply in_seq in Hi.
  rewrite map_map. rewrite peval_vsum.
  - rewrite map_map. f_equal. apply map_ext_in. intros polys Hp'. apply (proj1 (Forall_forall _ _) HF) in Hp'. destruct Hp' as [Lp _].
    now rewrite (nth_map' _ _ _ []) by lia.
  - apply Forall_forall. intros c Hc. apply in_map_iff in Hc. destruct Hc as (polys & <- & Hin).
    apply (proj1 (Forall_forall _ _) HF) in Hin. destruct Hin as [Lp Hc]. apply (proj1 (Forall_forall _ _) Hc). apply nth_In. lia.
Qed.

Theorem aggregate L t n index (reports : list (list F * list (list F))) : 1 <= t ->
  (Z.of_nat n < MODULUS P)%Z ->
  Forall (fun r => length (fst r) = L /\ length (snd r) = L /\ Forall (fun v => length v = t - 1) (snd r)) reports ->
  index <> [] -> NoDup index -> Forall (fun j => j < n) index -> t <= length index ->
  exists shares, mapM (fun r => shamir_shard (fst r) (snd r) n) reports = Ok shares /\
  exists aggs, mapM (fun j => foldM vec_add (map (fun s => nth j s []) shares) (fzeros L)) index = Ok aggs /\
    shamir_unshard (map Z.of_nat index) aggs =
    if forallb (unshard_ok index) (poly_sum L t (map (fun r => polys_of (fst r) (snd r)) reports))
    then Ok (vsum L (map fst reports)) else Raise IndexError.
Proof.
  intros H1 Hn HR Hne Hnd HI Ht.
  set (ps := map (fun r => polys_of (fst r) (snd r)) reports).
  assert (HP : Forall (fun polys => length polys = L /\ Forall (fun c => length c = t) polys) ps).
  { apply Forall_forall. intros p Hin. apply in_map_iff in Hin. destruct Hin as ([m rd] & <- & Hin).
    apply (proj1 (Forall_forall _ _) HR) in Hin. cbn [fst snd] in *. destruct Hin as (A & B & C).
    split; [rewrite polys_length; lia|]. apply Forall_forall. intros c Hc. apply (In_nth _ _ []) in Hc. destruct Hc as (i & Hi & <-).
    rewrite polys_length in Hi by lia. rewrite polys_nth by lia. cbn [length].
    assert (E : length (nth i rd []) = t - 1) by (apply (proj1 (Forall_forall _ _) C); apply nth_In; lia).
    change (length (nth i rd []) = t - 1) in E. rewrite E. lia. }
  exists (map (fun p => map (share_of p) (range 0 n)) ps). split.
  { unfold ps. rewrite map_map. apply mapM_map. intros [m rd] Hin. apply (proj1 (Forall_forall _ _) HR) in Hin.
    cbn [fst snd] in *. apply shard_spec; lia. }
  exists (map (share_of (poly_sum L t ps)) index). split.
  { apply mapM_map. intros j Hj. apply (proj1 (Forall_forall _ _) HI) in Hj. rewrite map_map.
    rewrite (map_ext_in _ (fun p => share_of p j)).
    - rewrite fold_vec_add_0; [f_equal; now apply share_sum|]. apply Forall_forall. intros v Hv. apply in_map_iff in Hv.
      destruct Hv as (p & <- & Hin). unfold share_of. rewrite map_length. now apply (proj1 (Forall_forall _ _) HP).
    - intros p _. rewrite (nth_map' _ _ _ 0) by (rewrite length_range; lia). now rewrite nth_range by lia. }
  rewrite unshard_spec.
  - assert (E : map (fun c => nth 0 c f0) (poly_sum L t ps) = vsum L (map fst reports)); [|now rewrite E].
    unfold poly_sum. rewrite map_map. unfold vsum at 2. apply map_ext_in. intros i Hi. apply in_seq in Hi.
    rewrite nth_vsum by lia. unfold ps. rewrite !map_map. f_equal. apply map_ext_in. intros [m rd] Hin.
    apply (proj1 (Forall_forall _ _) HR) in Hin. cbn [fst snd] in *. rewrite polys_nth by lia. reflexivity.
  - exact Hne.
  - exact Hnd.
  - now apply index_fits with n.
  - apply Forall_forall. intros c Hc. unfold poly_sum in Hc. apply in_map_iff in Hc. destruct Hc as (i & <- & _).
    rewrite vsum_length. exact Ht.
Qed.

(** ** Privacy *)
Lemma one_poly (s : F) (xs ys : list F) : NoDup (f0 :: xs) -> length ys = length xs ->
  exists r, length r = length xs /\ map (peval (s :: r)) xs = ys /\
    forall r', length r' = length xs -> map (peval (s :: r')) xs = ys -> r' = r.
Proof.
  intros Hnd L.
  destruct (poly_interp_spec Hp (f0 :: xs) (s :: ys)) as (c & _ & Lc & Hc); [cbn; lia|discriminate|exact Hnd|].
  set (c' := c ++ repeat f0 (S (length xs) - length c)).
  assert (Lc' : length c' = S (length xs)) by (unfold c'; rewrite app_length, repeat_length; cbn in Lc; lia).
  assert (Ec : forall x, peval c' x = peval c x) by (intro x; unfold c'; rewrite peval_app, peval_repeat0; ring).
  destruct c' as [|a r] eqn:E; [discriminate Lc'|].
  assert (a = s). { pose proof (Hc 0 ltac:(cbn; lia)) as H. cbn [nth] in H. rewrite <- Ec, peval_f0 in H. exact H. }
  subst a. exists r. split; [now injection Lc'|]. split.
  - apply (nth_ext' f0); [now rewrite map_length|]. rewrite map_length. intros i Hi. rewrite (nth_map' _ _ _ f0) by exact Hi. rewrite Ec.
    exact (Hc (S i) ltac:(cbn; lia)).
  - intros r' Lr' Er'. enough (s :: r' = s :: r) as H by (now injection H).
    apply (poly_agree_coeffs Hp (s :: r') (s :: r) (f0 :: xs) Hnd); [cbn in *; lia|cbn; lia|]. intros x Hx. rewrite Ec.
    destruct Hx as [<-|Hx].
    + rewrite <- Ec, !peval_f0. reflexivity.
    + apply (In_nth _ _ f0) in Hx. destruct Hx as (i & Hi & <-). pose proof (Hc (S i) ltac:(cbn; lia)) as H. cbn [nth] in H.
      rewrite H, <- Er'. now rewrite (nth_map' _ _ _ f0) by exact Hi.
Qed.

Lemma choice {A B} (d : A) (d' : B) (Q : A -> B -> Prop) (l : list A) : (forall a, In a l -> exists b, Q a b) ->
  exists l', length l' = length l /\ forall i, i < length l -> Q (nth i l d) (nth i l' d').
Proof.
  induction l as [|a l IH]; intro H.
  - exists []. split; [reflexivity|]. cbn; lia.
  - destruct (H a (or_introl eq_refl)) as (b & Hb). destruct IH as (l' & L & Hl); [intros; apply H; now right|].
    exists (b :: l'). split; [cbn; congruence|]. intros [|i] Hi; cbn [nth]; [exact Hb|]. apply Hl. cbn in Hi. lia.
Qed.

Theorem privacy (meas : list F) n index (view : list (list F)) :
  (Z.of_nat n < MODULUS P)%Z -> NoDup index -> Forall (fun j => j < n) index ->
  length view = length index -> Forall (fun v => length v = length meas) view ->
  exists rand, (length rand = length meas /\ Forall (fun r => length r = length index) rand /\
      exists shares, shamir_shard meas rand n = Ok shares /\ select shares index = view) /\
    forall rand', length rand' = length meas -> Forall (fun r => length r = length index) rand' ->
      (exists shares, shamir_shard meas rand' n = Ok shares /\ select shares index = view) -> rand' = rand.
Proof.
  intros Hn Hnd HI Lv Hv.
  set (xs := map pt index).
  assert (Hxs : NoDup (f0 :: xs)).
  { constructor; [|apply pt_NoDup; [exact Hnd|now apply index_fits with n]]. intro Hin. apply in_map_iff in Hin.
    destruct Hin as (j & E & Hj). apply (proj1 (Forall_forall _ _) HI) in Hj. apply (pt_nz j); [lia|exact E]. }
  assert (Lx : length xs = length index) by (apply map_length).
  set (ys i := map (fun v => nth i v f0) view).
  assert (Ly : forall i, length (ys i) = length xs) by (intro i; unfold ys; rewrite map_length; lia).
  assert (V : forall rand, length rand = length meas -> Forall (fun r => length r = length index) rand ->
    (exists shares, shamir_shard meas rand n = Ok shares /\ select shares index = view) <->
    forall i, i < length meas -> map (peval (nth i meas f0 :: nth i rand [])) xs = ys i).
  { intros rand Lr HR. assert (E : forall i j, i < length meas -> nth i (share_of (polys_of meas rand) j) f0 = peval (nth i meas f0 :: nth i rand []) (pt j)).
    { intros i j Hi. unfold share_of. rewrite (nth_map' _ _ _ []) by (now rewrite polys_length). now rewrite polys_nth. }
    assert (Ls : forall j, length (share_of (polys_of meas rand) j) = length meas) by (intro j; unfold share_of; now rewrite map_length, polys_length).
    split.
    - intros (shares & S & W) i Hi. rewrite shard_spec in S by assumption. injection S as <-. rewrite select_shares in W by exact HI.
      unfold ys, xs. rewrite <- W, !map_map. apply map_ext. intro j. now rewrite E.
    - intro H. eexists. split; [now apply shard_spec|]. rewrite select_shares by exact HI.
      apply (nth_ext' []); [now rewrite map_length|]. rewrite map_length. intros k Hk.
      rewrite (nth_map' _ _ _ 0) by exact Hk. apply (nth_ext' f0).
      + rewrite Ls. symmetry. apply (proj1 (Forall_forall _ _) Hv). apply nth_In. lia.
      + rewrite Ls. intros i Hi. rewrite E by exact Hi. specialize (H i Hi). apply (f_equal (fun l => nth k l f0)) in H.
        unfold xs, ys in H. rewrite map_map in H. rewrite (nth_map' _ _ _ 0) in H by exact Hk.
        rewrite (nth_map' _ _ _ []) in H by lia. exact H. }
  destruct (choice 0 [] (fun i r => length r = length xs /\ map (peval (nth i meas f0 :: r)) xs = ys i /\
      forall r', length r' = length xs -> map (peval (nth i meas f0 :: r')) xs = ys i -> r' = r) (seq 0 (length meas))) as (rand & Lr & HR).
  { intros i _. apply one_poly; [exact Hxs|apply Ly]. }
  rewrite seq_length in Lr, HR.
  assert (HF : Forall (fun r => length r = length index) rand).
  { apply Forall_forall. intros r Hr. apply (In_nth _ _ []) in Hr. destruct Hr as (i & Hi & <-). rewrite Lr in Hi.
    destruct (HR i Hi) as (A & _). now rewrite <- Lx. }
  exists rand. split.
  - split; [exact Lr|]. split; [exact HF|]. apply V; [exact Lr|exact HF|]. intros i Hi. destruct (HR i Hi) as (_ & A & _).
    rewrite seq_nth in A by exact Hi. exact A.
  - intros rand' Lr' HF' W. pose proof (proj1 (V rand' Lr' HF') W) as W'. apply (nth_ext' []); [congruence|]. intros i Hi. rewrite Lr' in Hi.
    destruct (HR i Hi) as (_ & _ & U). apply U.
    + rewrite Lx. apply (proj1 (Forall_forall _ _) HF'). apply nth_In. lia.
    + rewrite seq_nth by exact Hi. now apply W'.
Qed.
End Sh.
