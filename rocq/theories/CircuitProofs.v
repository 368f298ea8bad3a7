(** The five validity circuits satisfy [ValidOk]; what they compute. *)
From Verif Require Import Base Common Field Poly FlpBBCGGI19 Circuits Spec CircuitSpec BaseFacts CommonFacts
  FieldFacts PolyAlg Roots PolyFacts GadgetFacts CircuitFacts InterpFacts VecFacts Counting RangeInt.
Open Scope nat_scope.

Section Circuits.
Context {P : NttFieldClass} (HP : NttOk P).
Notation F := (F P).
Let Hp : prime (MODULUS P) := ntt_prime P HP.
Add Ring FringCP : (@F_ring P).

Lemma mod_gt_1 : (1 < MODULUS P)%Z.
Proof. pose proof (prime_ge_2 _ Hp). lia. Qed.

(** ** chunk_inputs *)
Definition mval (meas : list F) (idx : nat) : F := nth idx meas f0.

Definition chunk_spec (meas : list F) (sinv : F) (c i m : nat) (r : F) : list F :=
  concat (map (fun j => [fmul (npow r (S j)) (nth (i * c + j) meas f0); fsub (nth (i * c + j) meas f0) sinv]) (seq 0 m)).

Lemma chunk_inputs_eq (meas : list F) sinv c i r : chunk_inputs meas sinv c i r = chunk_spec meas sinv c i c r.
Proof.
  unfold chunk_inputs, chunk_spec, range. rewrite Nat.sub_0_r.
  assert (H : forall m, fold_left (fun '(r_power, inputs) j =>
     (fmul r_power r, inputs ++ [fmul r_power (if i * c + j <? length meas then nth (i * c + j) meas f0 else f0);
        fsub (if i * c + j <? length meas then nth (i * c + j) meas f0 else f0) sinv])) (seq 0 m) (r, [])
     = (npow r (S m), concat (map (fun j => [fmul (npow r (S j)) (nth (i * c + j) meas f0);
            fsub (nth (i * c + j) meas f0) sinv]) (seq 0 m)))).
  { induction m.
    - cbn [seq fold_left map concat]. now rewrite npow_1.
    - rewrite seq_S, fold_left_app, IHm. cbn [fold_left Nat.add]. rewrite map_app, concat_app.
      cbn [map concat]. rewrite app_nil_r. f_equal.
      + rewrite (npow_S r (S m)). ring.
      + replace (if i * c + m <? length meas then nth (i * c + m) meas f0 else f0) with (nth (i * c + m) meas f0);
          [easy|]. destruct (Nat.ltb_spec (i * c + m) (length meas)); [easy|]. now rewrite nth_overflow. }
  rewrite H. reflexivity.
Qed.

Lemma chunk_spec_length meas sinv c i m r : length (chunk_spec meas sinv c i m r) = 2 * m.
Proof.
  unfold chunk_spec. rewrite concat_seq_length. cbn [length]. induction m; cbn in *; lia.
Qed.
Lemma chunk_inputs_length (meas : list F) sinv c i r : length (chunk_inputs meas sinv c i r) = 2 * c.
Proof. rewrite chunk_inputs_eq. apply chunk_spec_length. Qed.

Lemma nth_chunk_spec meas sinv c i m r j : j < m ->
  nth (2 * j) (chunk_spec meas sinv c i m r) f0 = fmul (npow r (S j)) (nth (i * c + j) meas f0) /\
  nth (2 * j + 1) (chunk_spec meas sinv c i m r) f0 = fsub (nth (i * c + j) meas f0) sinv.
Proof.
  intros Hj. unfold chunk_spec.
  destruct (concat_block (fun j => [fmul (npow r (S j)) (nth (i * c + j) meas f0); fsub (nth (i * c + j) meas f0) sinv])
    m j Hj) as [rest ->].
  assert (Hl : length (concat (map (fun j => [fmul (npow r (S j)) (nth (i * c + j) meas f0);
     fsub (nth (i * c + j) meas f0) sinv]) (seq 0 j))) = 2 * j) by apply (chunk_spec_length meas sinv c i j r).
  rewrite !(app_nth2 (concat _)) by lia. rewrite Hl. rewrite Nat.sub_diag.
  replace (2 * j + 1 - 2 * j) with 1 by lia. split; reflexivity.
Qed.

Lemma lin_ext {A B} n (R : (nat -> A) -> B -> Prop) (m : prog P B) (ms ms' : nat -> prog P A) :
  (forall s, s < n -> ms' s = ms s) -> lin n R ms m -> lin n R ms' m.
Proof.
  destruct m as [b|e|i0 inp0 k0]; cbn; intros He H.
  - destruct H as (al & H1 & H2). exists al. split; [|easy]. intros s Hs. now rewrite He, H1.
  - exact H.
  - destruct H as (is & ks0 & H1 & H2 & H3). exists is, ks0. split; [|easy].
    intros s Hs. rewrite He by easy. now apply H1.
Qed.

(** ** Loops of calls to the only gadget *)
Section Loops.
Context {A B : Type} (d : A) (stp : B -> F -> B).

Lemma pok_loop {C} g c (body : B -> A -> prog P B) (inp : A -> list F) (l : list A) post (k : B -> prog P C) :
  (forall acc t, t < length l ->
     body acc (nth t l d) = Call 0 (inp (nth t l d)) (fun y => Ret (stp acc y)) /\
     length (inp (nth t l d)) = ARITY g) ->
  forall (Inv : nat -> B -> Prop) acc cnt, cnt + length l <= c -> Inv 0 acc ->
  (forall i acc y, Inv i acc -> Inv (S i) (stp acc y)) ->
  (forall acc' cnt', Inv (length l) acc' -> cnt' <= c -> pok [g] [c] [cnt'] post (k acc')) ->
  pok [g] [c] [cnt] post (pbind (pfold body l acc) k).
Proof.
  induction l as [|x l IH]; intros Hb Inv acc cnt Hc Hi0 Hi Hk.
  - cbn. apply Hk; [easy|]. cbn in Hc. lia.
  - cbn [pfold]. destruct (Hb acc 0 ltac:(cbn; lia)) as [E Ha]. cbn [nth] in E, Ha. rewrite E.
    cbn [pbind pok]. cbn [length] in Hc.
    split; [cbn; lia|]. split; [exact Ha|]. split; [cbn; lia|]. intros y. cbn [upd nth].
    apply IH with (Inv := fun i => Inv (S i)); try lia.
    + intros acc' t Ht. apply (Hb acc' (S t)). cbn. lia.
    + now apply Hi.
    + intros i acc' y' H. now apply Hi.
    + exact Hk.
Qed.

Lemma lin_loop {C D} n (R : (nat -> C) -> D -> Prop) 
  (bodys : nat -> B -> A -> prog P B) (body : B -> A -> prog P B) (inps : nat -> A -> list F) (inp : A -> list F)
  (ks : nat -> B -> prog P C) (k : B -> prog P D) :
  forall (l : list A) (ls : nat -> list A) (Racc : nat -> (nat -> B) -> B -> Prop),
  (forall i accs acc ys, Racc i accs acc -> Racc (S i) (fun s => stp (accs s) (ys s)) (stp acc (fsum n ys))) ->
  (forall accs acc, Racc (length l) accs acc -> lin n R (fun s => ks s (accs s)) (k acc)) ->
  (forall s, s < n -> length (ls s) = length l) ->
  (forall t acc, t < length l ->
     body acc (nth t l d) = Call 0 (inp (nth t l d)) (fun y => Ret (stp acc y)) /\
     (forall s, s < n -> bodys s acc (nth t (ls s) d) = Call 0 (inps s (nth t (ls s) d)) (fun y => Ret (stp acc y)) /\
        length (inps s (nth t (ls s) d)) = length (inp (nth t l d))) /\
     forall j, nth j (inp (nth t l d)) f0 = fsum n (fun s => nth j (inps s (nth t (ls s) d)) f0)) ->
  forall accs acc, Racc 0 accs acc ->
  lin n R (fun s => pbind (pfold (bodys s) (ls s) (accs s)) (ks s)) (pbind (pfold body l acc) k).
Proof.
  induction l as [|x l IH]; intros ls Racc Hstp Hk Hls Hb accs acc Hacc.
  - cbn [pfold pbind]. apply (lin_ext _ _ _ (fun s => ks s (accs s))); [|now apply Hk].
    intros s Hs. specialize (Hls s Hs). destruct (ls s); [easy|discriminate].
  - cbn [pfold]. destruct (Hb 0 acc ltac:(cbn; lia)) as (E & _ & Hsum). cbn [nth] in E. rewrite E. cbn [pbind lin].
    exists (fun s => inps s (nth 0 (ls s) d)),
           (fun s y => pbind (pfold (bodys s) (tl (ls s)) (stp (accs s) y)) (ks s)).
    split; [|split].
    + intros s Hs. destruct (Hb 0 (accs s) ltac:(cbn; lia)) as (_ & H & _). destruct (H s Hs) as [Es Hl].
      specialize (Hls s Hs). destruct (ls s) as [|xs lss] eqn:Els; [discriminate|].
      cbn [pfold nth tl] in *. rewrite Es. cbn [pbind]. split; [easy|exact Hl].
    + exact Hsum.
    + intros ys. apply IH with (Racc := fun i => Racc (S i)).
      * intros. now apply Hstp.
      * exact Hk.
      * intros s Hs. specialize (Hls s Hs). destruct (ls s); [discriminate|]. cbn in *. lia.
      * intros t acc' Ht. destruct (Hb (S t) acc' ltac:(cbn; lia)) as (H1 & H2 & H3). cbn [nth] in H1.
        assert (Etl : forall s, s < n -> nth t (tl (ls s)) d = nth (S t) (ls s) d).
        { intros s Hs. specialize (Hls s Hs). destruct (ls s); [discriminate|]. easy. }
        split; [exact H1|]. split.
        -- intros s Hs. rewrite Etl by easy. now apply H2.
        -- intros j. cbn [nth] in H3. rewrite H3. apply fsum_ext. intros s Hs. now rewrite Etl.
      * now apply Hstp.
Qed.

Lemma run_loop {C} L g (body : B -> A -> prog P B) (inp : A -> list F) (k : B -> prog P C) : gwf P L g ->
  forall (l : list A), (forall acc t, t < length l ->
     body acc (nth t l d) = Call 0 (inp (nth t l d)) (fun y => Ret (stp acc y)) /\
     length (inp (nth t l d)) = ARITY g) -> forall acc,
  run plain_handler (pbind (pfold body l acc) k) [g] =
  run plain_handler (k (fold_left (fun acc x => stp acc (gval g (inp x))) l acc)) [g].
Proof.
  intros Hg. induction l as [|x l IH]; intros Hb acc; [easy|].
  cbn [pfold]. destruct (Hb acc 0 ltac:(cbn; lia)) as [E Ha]. cbn [nth] in E, Ha. rewrite E.
  cbn [pbind run]. unfold plain_handler at 1. cbn [get nth_error bind].
  rewrite (gadget_eval_gval L) by easy. cbn [bind fold_left]. apply IH.
  intros acc' t Ht. apply (Hb acc' (S t)). cbn. lia.
Qed.
End Loops.

(** ** The range-check loop *)
Lemma range_body (meas jr : list F) sinv chunk c acc t : length jr = c -> t < length (range 0 c) ->
  pbind (plift (get jr (nth t (range 0 c) 0))) (fun r =>
    pbind (pcall 0 (chunk_inputs meas sinv chunk (nth t (range 0 c) 0) r)) (fun y => Ret (fadd acc y)))
  = Call 0 (chunk_inputs meas sinv chunk (nth t (range 0 c) 0) (nth (nth t (range 0 c) 0) jr f0))
      (fun y => Ret (fadd acc y)).
Proof.
  intros Hj Ht. rewrite length_range in Ht. rewrite nth_range by lia. rewrite (get_nth _ _ f0) by lia. reflexivity.
Qed.

Lemma range_loop_pok {C} g c (meas jr : list F) sinv chunk post (k : F -> prog P C) :
  length jr = c -> ARITY g = 2 * chunk ->
  (forall acc' cnt', cnt' <= c -> pok [g] [c] [cnt'] post (k acc')) ->
  pok [g] [c] [0] post (pbind (range_check_loop meas jr sinv chunk c) k).
Proof.
  intros Hj Ha Hk. unfold range_check_loop.
  apply (pok_loop 0 (fun acc y => fadd acc y) g c _ (fun i => chunk_inputs meas sinv chunk i (nth i jr f0)))
    with (Inv := fun _ _ => True); try easy.
  - intros acc t Ht. split; [now apply range_body|]. rewrite chunk_inputs_length. easy.
  - rewrite length_range. lia.
  - intros acc' cnt' _ H. now apply Hk.
Qed.

Lemma sinv_sum n : 1 <= n -> (Z.of_nat n < MODULUS P)%Z ->
  finv (fof (Z.of_nat 1)) = fsum n (fun _ => finv (fof (Z.of_nat n))) :> F.
Proof.
  intros Hn Hn'. rewrite fsum_const.
  assert (fof (Z.of_nat n) <> f0 :> F).
  { intros C. apply (fof_0_divide (P := P)) in C. apply Z.divide_pos_le in C; lia. }
  rewrite (finv_r Hp) by easy. symmetry. apply (finv_unique Hp). change (fof (Z.of_nat 1) : F) with (f1 : F). ring.
Qed.

Lemma shares_inv_ok n : 1 <= n -> (Z.of_nat n < MODULUS P)%Z ->
  shares_inv n = Ok (finv (fof (Z.of_nat n)) : F).
Proof. intros Hn Hn'. unfold shares_inv. rewrite field_init_ok by lia. reflexivity. Qed.

Lemma even_or_odd_lt j m : j < 2 * m -> exists i, i < m /\ (j = 2 * i \/ j = 2 * i + 1).
Proof.
  intros H. exists (j / 2). pose proof (Nat.div_mod_eq j 2). pose proof (Nat.mod_upper_bound j 2).
  split; [apply Nat.div_lt_upper_bound; lia|]. lia.
Qed.

Lemma chunk_sum n len (meass : nat -> list F) meas sinvs sinv chunk i r : 
  shares_of n len meass meas -> sinv = fsum n (fun _ => sinvs) ->
  forall j, nth j (chunk_inputs meas sinv chunk i r) f0 =
            fsum n (fun s => nth j (chunk_inputs (meass s) sinvs chunk i r) f0).
Proof.
  intros (H1 & H2 & H3) Hs j. destruct (le_lt_dec (2 * chunk) j) as [Hj|Hj].
  - rewrite nth_overflow by (rewrite chunk_inputs_length; lia). symmetry. apply fsum_zero. intros s _.
    apply nth_overflow. rewrite chunk_inputs_length. lia.
  - destruct (even_or_odd_lt j chunk Hj) as (m & Hm & [-> | ->]).
    + rewrite chunk_inputs_eq, (proj1 (nth_chunk_spec _ _ _ _ _ _ _ Hm)), H3, <- fsum_scale.
      apply fsum_ext. intros s _. now rewrite chunk_inputs_eq, (proj1 (nth_chunk_spec _ _ _ _ _ _ _ Hm)).
    + rewrite chunk_inputs_eq, (proj2 (nth_chunk_spec _ _ _ _ _ _ _ Hm)), H3, Hs, <- fsum_sub.
      apply fsum_ext. intros s _. now rewrite chunk_inputs_eq, (proj2 (nth_chunk_spec _ _ _ _ _ _ _ Hm)).
Qed.

Lemma range_loop_lin {C D} n (R : (nat -> C) -> D -> Prop) len (meass : nat -> list F) meas jr sinvs sinv chunk c
  (ks : nat -> F -> prog P C) (k : F -> prog P D) :
  length jr = c -> shares_of n len meass meas -> sinv = fsum n (fun _ => sinvs) ->
  (forall accs acc, acc = fsum n accs -> lin n R (fun s => ks s (accs s)) (k acc)) ->
  lin n R (fun s => pbind (range_check_loop (meass s) jr sinvs chunk c) (ks s))
          (pbind (range_check_loop meas jr sinv chunk c) k).
Proof.
  intros Hj Hsh Hs Hk. unfold range_check_loop.
  apply (lin_loop 0 (fun acc y => fadd acc y) n R
    (fun s acc i => pbind (plift (get jr i)) (fun r =>
       pbind (pcall 0 (chunk_inputs (meass s) sinvs chunk i r)) (fun y => Ret (fadd acc y))))
    _ (fun s i => chunk_inputs (meass s) sinvs chunk i (nth i jr f0)) (fun i => chunk_inputs meas sinv chunk i (nth i jr f0))
    ks k) with (accs := fun _ => f0) (ls := fun _ => range 0 c) (Racc := fun _ accs acc => acc = fsum n accs).
  - intros i accs acc ys ->. now rewrite fsum_add.
  - exact Hk.
  - easy.
  - intros t acc Ht. split; [now apply range_body|]. split.
    + intros s Hs'. split; [now apply range_body|]. now rewrite !chunk_inputs_length.
    + intros j. eapply chunk_sum; eassumption.
  - symmetry. now apply fsum_zero.
Qed.

(** What the range check computes: [sum_{i < c} sum_{j < chunk} r_i^(j+1) m (m - sinv)], with
    [m] the element at position [i * chunk + j], or zero. *)
Definition rterm (meas : list F) (sinv : F) (idx : nat) : F :=
  fmul (nth idx meas f0) (fsub (nth idx meas f0) sinv).
Definition range_spec (meas jr : list F) (sinv : F) (chunk c : nat) : F :=
  fsum c (fun i => fsum chunk (fun j =>
    fmul (npow (nth i jr f0) (S j)) (rterm meas sinv (i * chunk + j)))).

Lemma gval_chunk (meas : list F) sinv chunk i r :
  gval (ParallelSum Mul chunk) (chunk_inputs meas sinv chunk i r) =
  fsum chunk (fun j => fmul (npow r (S j)) (rterm meas sinv (i * chunk + j))).
Proof.
  cbn [gval ARITY]. apply fsum_ext. intros j Hj. rewrite chunk_inputs_eq.
  rewrite !nth_slice by lia.
  destruct (nth_chunk_spec meas sinv chunk i chunk r j Hj) as [E1 E2].
  replace (j * 2 + 0) with (2 * j) by lia. replace (j * 2 + 1) with (2 * j + 1) by lia.
  rewrite E1, E2. unfold rterm. ring.
Qed.

Lemma fold_left_fsum (f : nat -> F) c acc :
  fold_left (fun a i => fadd a (f i)) (range 0 c) acc = fadd acc (fsum c f).
Proof.
  unfold range. rewrite Nat.sub_0_r. induction c; [cbn; ring|].
  rewrite seq_S, fold_left_app, IHc. cbn. ring.
Qed.

Lemma gwf_psum L chunk : 1 <= chunk -> gwf P L (ParallelSum Mul chunk).
Proof. intros H. split; [exact I | exact H]. Qed.

Lemma range_loop_run {C} c (meas jr : list F) sinv chunk (k : F -> prog P C) : length jr = c -> 1 <= chunk ->
  run plain_handler (pbind (range_check_loop meas jr sinv chunk c) k) [ParallelSum Mul chunk] =
  run plain_handler (k (range_spec meas jr sinv chunk c)) [ParallelSum Mul chunk].
Proof.
  intros Hj Hc. unfold range_check_loop.
  rewrite (run_loop 0 (fun acc y => fadd acc y) 0 (ParallelSum Mul chunk) _
    (fun i => chunk_inputs meas sinv chunk i (nth i jr f0)) k (gwf_psum 0 chunk Hc)).
  - f_equal. f_equal. unfold range_spec.
    rewrite (fold_left_fsum (fun i => gval (ParallelSum Mul chunk) (chunk_inputs meas sinv chunk i (nth i jr f0)))).
    rewrite (fsum_ext c _ (fun i => fsum chunk (fun j =>
      fmul (npow (nth i jr f0) (S j)) (rterm meas sinv (i * chunk + j))))); [ring|].
    intros i Hi. apply gval_chunk.
  - intros acc t Ht. split; [now apply range_body|]. rewrite chunk_inputs_length. cbn. lia.
Qed.

(** ** Bits *)
Lemma bit_iff (x : F) : is_bit x <-> fmul x (fsub x f1) = f0.
Proof.
  split.
  - intros [-> | ->]; ring.
  - intros H. apply (fmul_0 Hp) in H as [H|H]; [now left|]. right. now apply fsub_eq_0.
Qed.

Lemma rterm_bit (meas : list F) idx : Forall is_bit meas -> rterm meas f1 idx = f0.
Proof.
  intros H. unfold rterm. apply bit_iff. destruct (le_lt_dec (length meas) idx).
  - left. now apply nth_overflow.
  - rewrite Forall_forall in H. apply H. now apply nth_In.
Qed.

Lemma range_spec_bits (meas jr : list F) chunk c : Forall is_bit meas -> range_spec meas jr f1 chunk c = f0.
Proof.
  intros H. apply fsum_zero. intros i _. apply fsum_zero. intros j _. rewrite rterm_bit by easy. ring.
Qed.

Lemma finv_1 : finv (fof (Z.of_nat 1)) = f1 :> F.
Proof. symmetry. apply (finv_unique Hp). change (fof (Z.of_nat 1) : F) with (f1 : F). ring. Qed.

Lemma not_bits_nth (meas : list F) : ~ Forall is_bit meas -> exists k, k < length meas /\ rterm meas f1 k <> f0.
Proof.
  intros H. assert (Hd : forall x : F, {is_bit x} + {~ is_bit x}).
  { intros x. destruct (feq_dec x f0); [left; now left|]. destruct (feq_dec x f1); [left; now right|].
    right. now intros [|]. }
  apply (Exists_Forall_neg is_bit) in H; [|intros x; destruct (Hd x); tauto].
  apply Exists_exists in H as (x & Hx & Hn). apply (In_nth _ _ f0) in Hx as (k & Hk & <-).
  exists k. split; [easy|]. unfold rterm. now rewrite <- bit_iff.
Qed.

(** Soundness of the range check: if some element is not a bit, few joint
    randomness vectors give zero. *)
Lemma range_spec_sound (meas : list F) chunk c (Q : list (list F)) :
  1 <= chunk -> length meas <= c * chunk -> ~ Forall is_bit meas -> NoDup Q ->
  (forall jr, In jr Q -> length jr = c /\ range_spec meas jr f1 chunk c = f0) ->
  (Z.of_nat (length Q) <= Z.of_nat chunk * MODULUS P ^ (Z.of_nat c - 1))%Z.
Proof.
  intros Hch Hlen Hnb HQ Hz. destruct (not_bits_nth meas Hnb) as (k & Hk & Hnz).
  set (i := k / chunk). set (j := k mod chunk).
  assert (Ek : k = i * chunk + j) by (unfold i, j; rewrite Nat.mul_comm; apply Nat.div_mod; lia).
  assert (Hj : j < chunk) by (apply Nat.mod_upper_bound; lia).
  assert (Hi : i < c) by (apply Nat.div_lt_upper_bound; lia).
  replace (Z.of_nat c - 1)%Z with (Z.of_nat (c - 1)) by lia.
  set (row := fun (jr : list F) a => fsum chunk (fun b => fmul (npow (nth a jr f0) (S b)) (rterm meas f1 (a * chunk + b)))).
  apply (count_poly Hp c chunk i Q (fun jr =>
     fsum c (fun a => if a =? i then f0 else row jr a) :: map (fun b => rterm meas f1 (i * chunk + b)) (seq 0 chunk))).
  - exact Hi.
  - exact HQ.
  - intros jr Hjr. split.
    + intros C. apply allzero_nth with (i := S j) in C. cbn [nth] in C. rewrite nth_map_seq in C by easy.
      rewrite <- Ek in C. contradiction.
    + cbn [length]. now rewrite map_length, seq_length.
  - intros jr x Hjr. f_equal. apply fsum_ext. intros a Ha. unfold row. destruct (Nat.eqb_spec a i); [easy|].
    rewrite nth_upd by lia. destruct (Nat.eqb_spec i a); [congruence|]. easy.
  - intros jr Hin. destruct (Hz jr Hin) as [Hl Hr]. split; [easy|].
    etransitivity; [|exact Hr]. cbn [peval]. unfold range_spec.
    rewrite peval_map_seq.
    rewrite (fsum_ext c (fun i0 => fsum chunk (fun j0 => fmul (npow (nth i0 jr f0) (S j0)) (rterm meas f1 (i0 * chunk + j0))))
      (fun a => fadd (if a =? i then f0 else row jr a) (if a =? i then row jr a else f0))).
    2: { intros a _. unfold row. destruct (a =? i); ring. }
    rewrite fsum_add. f_equal. rewrite (fsum_single c i); [|easy|].
    + rewrite Nat.eqb_refl. unfold row. rewrite <- fsum_scale. apply fsum_ext. intros b _. rewrite npow_S. ring.
    + intros a _ Hne. now rewrite (proj2 (Nat.eqb_neq a i) Hne).
Qed.

End Circuits.
