(** The heavy hitters protocol on Poplar1: proofs. *)
From Verif Require Import HeavyHitters HeavySpec HeavyFacts Poplar1Spec Poplar1Props Poplar1End Poplar1Inst BaseFacts Field FieldProofs Vdaf.
From Verif Require Import Poplar1 Xof XofSpec Idpf RobustSpec DeploySpec Props_Poplar1 Props_Robust1 Prio3Spec MeasFacts IdpfInst Roots.
From Coq Require Import Lia.
Open Scope nat_scope.

(** ** Counting *)
Lemma Ok_inj {A} (a b : A) : Ok a = Ok b -> a = b.
Proof. now intros [= ->]. Qed.
Definition zcount (M : list (list bool)) (y : list bool) : Z := Z.of_nat (count_prefix y M).

Lemma zcount_anti M y k : (zcount M y <= zcount M (firstn k y))%Z.
Proof.
  unfold zcount, count_prefix. apply inj_le. induction M as [|m M IH]; [easy|]. cbn [filter].
  destruct (list_eq_dec Bool.bool_dec y (firstn (length y) m)) as [E|N].
  - destruct (list_eq_dec Bool.bool_dec (firstn k y) (firstn (length (firstn k y)) m)) as [_|N]; [cbn [length]; lia|].
    destruct N. rewrite E at 1. rewrite firstn_firstn. now rewrite firstn_length.
  - destruct (list_eq_dec _ _ _); cbn [length]; lia.
Qed.
Lemma count_holders M y : Forall (fun m => length m = length y) M -> count_prefix y M = holders y M.
Proof.
  unfold count_prefix, holders. induction 1 as [|m M Hm _ IH]; [easy|]. cbn [filter count_occ].
  replace (firstn (length y) m) with m by (rewrite <- Hm; now rewrite firstn_all).
  destruct (list_eq_dec Bool.bool_dec y m) as [E0|N], (list_eq_dec Bool.bool_dec m y) as [E|N']; try congruence. cbn [length]. now f_equal.
Qed.
Lemma zsuml_cons a l : zsuml (a :: l) = (a + zsuml l)%Z.
Proof. reflexivity. Qed.
Lemma zsuml_add {A} (f g : A -> Z) l : zsuml (map (fun x => f x + g x)%Z l) = (zsuml (map f l) + zsuml (map g l))%Z.
Proof. induction l as [|x l IH]; [easy|]. cbn [map]. rewrite !zsuml_cons, IH. lia. Qed.
Lemma zsuml_0 {A} (l : list A) : zsuml (map (fun _ => 0%Z) l) = 0%Z.
Proof. induction l as [|x l IH]; [easy|]. cbn [map]. now rewrite zsuml_cons, IH. Qed.
Lemma zsuml_ext {A} (f g : A -> Z) l : (forall x, In x l -> f x = g x) -> map f l = map g l.
Proof. apply map_ext_in. Qed.
Lemma ind_sum n prefixes (m : list bool) : NoDup prefixes ->
  (0 <= zsuml (map (fun x => if list_eq_dec Bool.bool_dec x (firstn n m) then 1 else 0) prefixes) <= 1)%Z.
Proof.
  induction 1 as [|x l Hx _ IH]; [cbn; lia|]. cbn [map]. rewrite zsuml_cons.
  destruct (list_eq_dec Bool.bool_dec x (firstn n m)) as [E|]; [|lia].
  rewrite (zsuml_ext _ (fun _ => 0%Z)), zsuml_0; [lia|]. intros y Hy.
  destruct (list_eq_dec Bool.bool_dec y (firstn n m)) as [E'|]; [|easy]. subst. easy.
Qed.
Lemma count_sum level prefixes M : NoDup prefixes -> Forall (fun x => length x = S level) prefixes ->
  (zsuml (map (zcount M) prefixes) <= Z.of_nat (length M))%Z.
Proof.
  intros ND HL. rewrite Forall_forall in HL. induction M as [|m M IH].
  - unfold zcount. cbn. rewrite zsuml_0. lia.
  - rewrite (zsuml_ext (zcount (m :: M)) (fun x => (if list_eq_dec Bool.bool_dec x (firstn (S level) m) then 1 else 0) + zcount M x)%Z).
    + rewrite zsuml_add. pose proof (ind_sum (S level) prefixes m ND). cbn [length]. lia.
    + intros x Hx. unfold zcount. rewrite (count_prefix_cons level) by now apply HL. destruct (list_eq_dec _ _ _); lia.
Qed.
Lemma nth_seq_map (f : nat -> Z) n i : i < n -> nth i (map f (seq 0 n)) 0%Z = f i.
Proof. intros H. rewrite (nth_indep _ 0%Z (f 0)) by (now rewrite map_length, seq_length). rewrite map_nth, seq_nth; easy. Qed.

Lemma filter_le {A} f (l : list A) : length (filter f l) <= length l.
Proof. induction l as [|x l IH]; [easy|]. cbn. destruct (f x); cbn; lia. Qed.

(** The columns of vectors that are one-hot or zero. *)
Lemma col_bound n cs : Forall (unit_or_zero n) cs -> forall i, i < n ->
  (0 <= zsuml (map (fun v => nth i v 0) cs) <= Z.of_nat (length cs))%Z.
Proof.
  induction 1 as [|c cs (t & Hc) _ IH]; intros i Hi; [cbn; lia|]. cbn [map length]. rewrite zsuml_cons, (Hc i Hi).
  specialize (IH i Hi). destruct (i =? t); lia.
Qed.
Lemma unit_sum n : forall a t c, (forall i, a <= i < a + n -> nth i c 0%Z = if i =? t then 1%Z else 0%Z) ->
  (0 <= zsuml (map (fun i => nth i c 0) (seq a n)) <= if (a <=? t)%nat then 1 else 0)%Z.
Proof.
  induction n as [|n IH]; intros a t c H; [cbn [seq map zsuml fold_right]; destruct (a <=? t)%nat; lia|]. cbn [seq map]. rewrite zsuml_cons, (H a) by lia.
  specialize (IH (S a) t c (fun i Hi => H i ltac:(lia))).
  destruct (Nat.eqb_spec a t), (Nat.leb_spec a t), (Nat.leb_spec (S a) t); lia.
Qed.
Lemma cols_sum n cs : Forall (unit_or_zero n) cs ->
  (zsuml (map (fun i => zsuml (map (fun v => nth i v 0) cs)) (seq 0 n)) <= Z.of_nat (length cs))%Z.
Proof.
  induction 1 as [|c cs (t & Hc) _ IH]; [cbn [map zsuml fold_right length]; rewrite zsuml_0; lia|].
  cbn [map length]. rewrite (zsuml_ext _ (fun i => nth i c 0 + zsuml (map (fun v => nth i v 0) cs))%Z) by reflexivity.
  rewrite zsuml_add. pose proof (unit_sum n 0 t c (fun i Hi => Hc i ltac:(lia))). cbn in H. lia.
Qed.
Lemma map_seq_nth {A B} (f : A -> B) d (l : list A) : map (fun i => f (nth i l d)) (seq 0 (length l)) = map f l.
Proof.
  induction l as [|x l IH]; [easy|]. cbn [length seq map nth]. f_equal. rewrite <- seq_shift, map_map. exact IH.
Qed.

Lemma mixed_counts M level prefixes cs mod_ : NoDup prefixes -> Forall (fun x => length x = S level) prefixes ->
  Forall (unit_or_zero (length prefixes)) cs -> (Z.of_nat (length M + length cs) < mod_)%Z ->
  let counts := zvsum mod_ (length prefixes) (map (zcount M) prefixes :: cs) in
  counts_between (zcount M) (fun y => zcount M y + Z.of_nat (length cs))%Z (Z.of_nat level, prefixes) counts /\
  Forall (fun c => 0 <= c)%Z counts /\ (zsuml counts <= Z.of_nat (length M + length cs))%Z.
Proof.
  intros ND HL HU Hm counts. set (n := length prefixes) in *.
  assert (CL : forall y, (0 <= zcount M y <= Z.of_nat (length M))%Z).
  { intros y. unfold zcount, count_prefix. split; [lia|]. apply inj_le, filter_le. }
  assert (E : counts = map (fun i => zcount M (nth i prefixes []) + zsuml (map (fun v => nth i v 0) cs))%Z (seq 0 n)).
  { unfold counts, zvsum. apply map_ext_in. intros i Hi. apply in_seq in Hi. cbn [map]. rewrite zsuml_cons.
    rewrite (nth_indep _ 0%Z (zcount M [])) by (rewrite map_length; unfold n in Hi; lia). rewrite map_nth.
    pose proof (col_bound n cs HU i ltac:(lia)). specialize (CL (nth i prefixes [])). apply Z.mod_small. lia. }
  rewrite E. split; [|split].
  - split; [rewrite map_length, seq_length; easy|]. cbn [snd]. intros i Hi. rewrite nth_seq_map by easy.
    pose proof (col_bound n cs HU i ltac:(lia)). lia.
  - apply Forall_forall. intros c Hc. apply in_map_iff in Hc. destruct Hc as (i & <- & Hi). apply in_seq in Hi.
    pose proof (col_bound n cs HU i ltac:(lia)). specialize (CL (nth i prefixes [])). lia.
  - rewrite zsuml_add. pose proof (cols_sum n cs HU). pose proof (count_sum level prefixes M ND HL).
    unfold n in *. rewrite (map_seq_nth (zcount M) [] prefixes). lia.
Qed.

Lemma start_ok : level_ok 0 [[false]; [true]].
Proof.
  split; [|repeat constructor]. apply sorted_strong. repeat constructor. exists [], [false], [true]. split; [easy|]. split; [easy|]. right. eauto.
Qed.
Lemma start_history : history_at 0 [[false]; [true]] [].
Proof. split; [constructor|]. split; [easy|]. now left. Qed.
Lemma start_In y : In y [[false]; [true]] <-> length y = 1.
Proof.
  split; [intros [<-|[<-|[]]]; easy|]. destruct y as [|[|] [|]]; try discriminate; cbn; auto.
Qed.
Lemma start_firstn bits y : 0 < bits -> length y = bits -> In (firstn 1 y) [[false]; [true]].
Proof. intros H L. apply start_In. rewrite firstn_length. lia. Qed.

(** The aggregation parameters of a run. *)
Section Incl.
Context (q : Poplar1AggParam -> res (list Z)) (T : Z) (bits : nat).
Context (q_len : forall level prefixes counts, level < bits -> level_ok level prefixes ->
  q (Z.of_nat level, prefixes) = Ok counts -> length counts = length prefixes).
Lemma history_incl : forall remaining level history prefixes l h, heavy_levels q T remaining level history prefixes = Ok (l, h) ->
  remaining + level = bits -> level_ok level prefixes -> history_at level prefixes history ->
  forall ap, In ap h -> In ap history \/ exists k prefixes', ap = (Z.of_nat k, prefixes') /\ k < bits /\ level_ok k prefixes'.
Proof.
  induction remaining as [|remaining IH]; intros level history prefixes l h E HB HL HH ap Hap; revert E; cbn [heavy_levels].
  { intros [= _ <-]. now left. }
  rewrite (is_valid_ok _ _ _ HL HH). cbn [bind check].
  destruct (q (Z.of_nat level, prefixes)) as [counts|] eqn:EQ; [cbn [bind]|easy].
  destruct (_ || _) eqn:ED.
  - intros [= _ <-]. apply in_app_or in Hap. destruct Hap as [Hap|[<-|[]]]; [now left|]. right. exists level, prefixes. split; [easy|]. split; [lia|easy].
  - intros E. assert (Hlt : level < bits) by lia. pose proof (q_len _ _ _ Hlt HL EQ) as LC. assert (HB' : remaining + S level = bits) by lia.
    destruct (IH _ _ _ _ _ E HB' (level_next _ _ _ _ HL LC) (history_next _ _ _ _ _ HL HH LC) ap Hap) as [Hin|X]; [|now right].
    apply in_app_or in Hin. destruct Hin as [Hin|[<-|[]]]; [now left|]. right. exists level, prefixes. split; [easy|]. split; [lia|easy].
Qed.
Lemma heavy_incl l h : heavy_hitters q T bits = Ok (l, h) -> forall ap, In ap h ->
  exists k prefixes', ap = (Z.of_nat k, prefixes') /\ k < bits /\ level_ok k prefixes'.
Proof.
  intros E ap Hap. destruct (history_incl _ _ _ _ _ _ E (Nat.add_0_r bits) start_ok start_history ap Hap) as [[]|X]. exact X.
Qed.
End Incl.

(** ** Exact counts *)
Section Exact.
Context (q : Poplar1AggParam -> res (list Z)) (T : Z) (bits : nat) (M : list (list bool)).
Context (H0 : 0 < bits) (HM : Forall (fun m => length m = bits) M).
Context (q_exact : forall level prefixes counts, level < bits -> level_ok level prefixes ->
  q (Z.of_nat level, prefixes) = Ok counts -> counts = map (zcount M) prefixes).

Lemma exact_between l h : heavy_hitters q T bits = Ok (l, h) ->
  forall ap, In ap h -> forall counts, q ap = Ok counts -> counts_between (zcount M) (zcount M) ap counts.
Proof.
  intros E ap Hap counts EQ. destruct (heavy_incl q T bits) with (l := l) (h := h) (ap := ap) as (k & prefixes & -> & Hk & HL); try easy.
  { intros level prefixes c Hl HL E'. rewrite (q_exact _ _ _ Hl HL E'). apply map_length. }
  rewrite (q_exact _ _ _ Hk HL EQ). split; [apply map_length|]. cbn [snd]. intros i Hi.
  rewrite (nth_indep _ 0%Z (zcount M [])) by now rewrite map_length. rewrite map_nth. lia.
Qed.

Theorem exact_result l h : heavy_hitters q T bits = Ok (l, h) ->
  sorted_prefixes l /\ (forall y, In y l <-> length y = bits /\ (T <= Z.of_nat (holders y M))%Z) /\ valid_history h.
Proof.
  intros E. destruct (levels_sound q T bits (zcount M) (zcount M) (zcount_anti M) _ _ _ _ _ _ E H0 (Nat.add_0_r bits) start_ok start_history
    (fun y Ly _ => start_firstn bits y H0 Ly) (exact_between l h E)) as (A & B & C & D).
  assert (X : forall y, length y = bits -> zcount M y = Z.of_nat (holders y M)).
  { intros y Ly. unfold zcount. rewrite count_holders; [easy|]. now rewrite Ly. }
  split; [easy|]. split; [|easy]. intros y. split.
  - intros Hy. destruct (B y Hy) as [Ly Hh]. split; [easy|]. now rewrite <- X.
  - intros [Ly Hh]. apply C; [easy|]. now rewrite X.
Qed.

Theorem exact_tree l h : heavy_hitters q T bits = Ok (l, h) ->
  0 < length h <= bits /\
  (forall k, k < length h -> fst (nth k h (0%Z, [])) = Z.of_nat k /\
     forall y, In y (snd (nth k h (0%Z, []))) <-> length y = S k /\ (k = 0 \/ (T <= Z.of_nat (count_prefix (firstn k y) M))%Z)) /\
  (length h = bits \/ forall y, length y = length h -> (Z.of_nat (count_prefix y M) < T)%Z).
Proof.
  intros E. pose proof (exact_between l h E) as HQ.
  destruct (levels_history q T bits (zcount M) (zcount M) _ _ _ _ _ _ E H0 (Nat.add_0_r bits) start_ok start_history eq_refl HQ) as (A & B & C & D & F).
  split; [easy|].
  assert (K : forall k, k < length h -> forall y, In y (snd (nth k h (0%Z, []))) <-> length y = S k /\ (k = 0 \/ (T <= zcount M (firstn k y))%Z)).
  { induction k as [|k IH]; intros Hk y.
    - rewrite B. cbn [snd]. rewrite start_In. split; [auto|tauto].
    - rewrite D by lia. specialize (IH ltac:(lia)). split.
      + intros (x & b & counts & i & -> & Eq & Hi & Ex & Ht).
        assert (Hx : In x (snd (nth k h (0%Z, [])))) by (rewrite <- Ex; now apply nth_In). apply IH in Hx. destruct Hx as [Lx _].
        rewrite app_length, Lx. cbn [length]. split; [lia|right]. rewrite firstn_app, Lx, Nat.sub_diag, firstn_all2, app_nil_r by lia.
        assert (HI : In (nth k h (0%Z, [])) h) by (apply nth_In; lia). destruct (HQ _ HI _ Eq) as [_ HC].
        specialize (HC i Hi). rewrite Ex in HC. lia.
      + intros [Ly [?|Ht]]; [easy|].
        assert (Hx : In (firstn (S k) y) (snd (nth k h (0%Z, [])))).
        { apply IH. split; [rewrite firstn_length; lia|right]. pose proof (zcount_anti M (firstn (S k) y) k). lia. }
        destruct (In_nth _ _ [] Hx) as (i & Hi & Ei).
        assert (HI : In (nth k h (0%Z, [])) h) by (apply nth_In; lia).
        assert (exists counts, q (nth k h (0%Z, [])) = Ok counts) as (counts & Eq).
        { destruct (levels_queried q T _ _ _ _ _ _ E _ HI) as [[]|X]. exact X. }
        exists (firstn (S k) y), (nth (S k) y false), counts, i. split; [|split; [easy|split; [easy|split; [easy|]]]].
        * rewrite <- (firstn_skipn (S k) y) at 1. f_equal. pose proof (skipn_length (S k) y) as LS.
          destruct (skipn (S k) y) as [|b [|]] eqn:ES; cbn in LS; try lia. f_equal.
          rewrite <- (firstn_skipn (S k) y), ES, app_nth2; rewrite firstn_length; [|lia]. now replace (S k - Init.Nat.min (S k) (length y)) with 0 by lia.
        * destruct (HQ _ HI _ Eq) as [_ HC]. specialize (HC i Hi). rewrite Ei in HC. lia. }
  split; [intros k Hk; split; [apply C; lia|now apply K]|].
  destruct F as [F|(counts & Eq & Eh)]; [now left|right]. intros y Ly.
  assert (HLast : last h (0%Z, []) = nth (length h - 1) h (0%Z, [])).
  { clear - A. destruct (exists_last (l := h)) as (h' & a & ->); [destruct h; cbn in A; [lia|easy]|].
    rewrite last_last, app_length. cbn [length]. replace (length h' + 1 - 1) with (length h') by lia. now rewrite app_nth2, Nat.sub_diag by lia. }
  rewrite HLast in *. assert (HI : In (nth (length h - 1) h (0%Z, [])) h) by (apply nth_In; lia).
  destruct (HQ _ HI _ Eq) as [LC HC].
  destruct (Z.lt_ge_cases (Z.of_nat (count_prefix y M)) T) as [|Hge]; [easy|exfalso].
  assert (Hy : In y (snd (nth (length h - 1) h (0%Z, [])))).
  { apply K; [lia|]. split; [lia|right]. pose proof (zcount_anti M y (length h - 1)). unfold zcount at 1 in H. lia. }
  destruct (In_nth _ _ [] Hy) as (i & Hi & Ei).
  assert (Hin : In y (heavy_prefixes T (snd (nth (length h - 1) h (0%Z, []))) counts)).
  { apply heavy_In; [easy|]. exists i. split; [easy|]. split; [easy|]. specialize (HC i Hi). rewrite Ei in HC. unfold zcount at 1 in HC. lia. }
  rewrite Eh in Hin. easy.
Qed.

Theorem exact_cost l h : (0 < T)%Z -> heavy_hitters q T bits = Ok (l, h) ->
  let N := Z.of_nat (length M) in
  (forall ap, In ap h -> (Z.of_nat (length (snd ap)) <= Z.max 2 (2 * (N / T)))%Z) /\ (Z.of_nat (length l) <= N / T)%Z.
Proof.
  intros HT E N. apply (levels_size q T N HT ltac:(unfold N; lia) _ _ _ _ _ _ E); [|cbn; lia|easy].
  intros ap Hap counts EQ. destruct (heavy_incl q T bits) with (l := l) (h := h) (ap := ap) as (k & prefixes & -> & Hk & HL); try easy.
  { intros level prefixes c Hl HL E'. rewrite (q_exact _ _ _ Hl HL E'). apply map_length. }
  rewrite (q_exact _ _ _ Hk HL EQ). split.
  - apply Forall_forall. intros c Hc. apply in_map_iff in Hc. destruct Hc as (x & <- & _). unfold zcount. lia.
  - apply (count_sum k); [apply sorted_NoDup, HL|apply HL].
Qed.
End Exact.

(** ** A deployment in which anybody may upload anything *)
Lemma some_or_all {A} (X Y : A -> Prop) h : (forall a, In a h -> X a \/ Y a) -> (exists a, X a) \/ forall a, In a h -> Y a.
Proof.
  induction h as [|a h IH]; intros H; [right; easy|].
  destruct (H a (or_introl eq_refl)) as [Ha|Ha]; [left; eauto|].
  destruct IH as [|IH]; [intros b Hb; apply H; now right|now left|]. right. intros b [<-|Hb]; auto.
Qed.

Section Deployed.
Context (ts : TurboShake) (aes : BlockCipher) (bound bits : nat).
Context (Ha : forall k b, length b = 16 -> length (aes k b) = 16) (Hb : (Z.of_nat bound < 2 ^ 120)%Z) (H0 : 0 < bits) (H1 : (Z.of_nat bits <= 65536)%Z).
Let p := p1_obj ts aes bound bits.

Lemma encode_level level prefixes : level < bits -> level_ok level prefixes ->
  (forall agg_param, p1_encode_agg_param (Z.of_nat level, prefixes) = Ok agg_param -> p1_decode_agg_param agg_param = Ok (Z.of_nat level, prefixes)) /\
  ((Z.of_nat (length prefixes) < 2 ^ 32)%Z -> exists agg_param, p1_encode_agg_param (Z.of_nat level, prefixes) = Ok agg_param).
Proof.
  intros Hl [_ HL].
  assert (W : (Z.of_nat (length prefixes) < 2 ^ 32)%Z -> exists b, p1_encode_agg_param (Z.of_nat level, prefixes) = Ok b /\ p1_decode_agg_param b = Ok (Z.of_nat level, prefixes)).
  { intros HS. apply (proj1 C40_codec). split; [cbn [fst]; lia|]. split; [easy|]. cbn [fst snd].
    apply Forall_forall. intros x Hx. rewrite Forall_forall in HL. rewrite (HL x Hx). lia. }
  split; [|intros HS; destruct (W HS) as (b & E & _); eauto].
  intros agg_param E. destruct (Z.lt_ge_cases (Z.of_nat (length prefixes)) (2 ^ 32)) as [HS|HS].
  - destruct (W HS) as (b & E' & D). congruence.
  - exfalso. pose proof (C40_encode (Z.of_nat level) prefixes) as X. cbv zeta in X. rewrite E in X.
    destruct (_ || _); [discriminate|]. rewrite (proj2 (Z.leb_le _ _) HS) in X. discriminate.
Qed.

Context (key ctx : bytes) (Hk : length key = 32) (Hc : ctx_ok ctx).
Context (ms : list (list bool * bytes * bytes)) (us : list (bytes * bytes * bytes * bytes)).
Context (Hs : p1_sizes_ok p ms) (Hm : Forall (fun r => length (fst (fst r)) = bits) ms).
Let M := map (fun r => fst (fst r)) ms.
Let q := deployed_query p ctx key (uploaded (p1_vdaf p) ctx ms ++ us).
Context (HN : (Z.of_nat (length ms + length us) < MODULUS Field64)%Z).

Lemma deployed_Ok level prefixes counts : level < bits -> level_ok level prefixes -> q (Z.of_nat level, prefixes) = Ok counts ->
  length counts = length prefixes /\
  (one_hot_uploads p ctx key us (Z.of_nat level, prefixes) ->
   p1_ran_out p (length prefixes) \/
   (counts_between (zcount M) (fun y => zcount M y + Z.of_nat (length us))%Z (Z.of_nat level, prefixes) counts /\
    Forall (fun c => 0 <= c)%Z counts /\ (zsuml counts <= Z.of_nat (length ms + length us))%Z)).
Proof.
  intros Hl HL. unfold q, deployed_query. destruct (p1_encode_agg_param _) as [agg_param|] eqn:EE; [cbn [bind]|easy]. intros E.
  pose proof (proj1 (encode_level level prefixes Hl HL) _ EE) as DA. split.
  - unfold p in E. rewrite (C68_aggregate ts aes bound bits Ha Hb H0 key ctx agg_param level prefixes _ DA Hc) in E.
    apply Ok_inj in E. rewrite <- E. unfold zvsum. now rewrite map_length, seq_length.
  - intros HU. assert (ND : NoDup prefixes) by apply sorted_NoDup, HL.
    destruct (C68_mixed ts aes bound bits Ha Hb H0 key ctx agg_param level prefixes ms us DA Hc ND Hk Hl Hs Hm) as [R|E']; [now left|right].
    fold p in E'. rewrite E in E'. apply Ok_inj in E'. rewrite E'. clear E E' counts.
    set (cs := map (p1_contribution p ctx key agg_param level) (filter (counted (p1_vdaf p) ctx key agg_param) us)).
    assert (LCs : length cs <= length us) by (unfold cs; rewrite map_length; apply filter_le).
    assert (LM : length M = length ms) by apply map_length.
    assert (UC : Forall (unit_or_zero (length prefixes)) cs).
    { apply Forall_forall. intros c Hcc. apply in_map_iff in Hcc. destruct Hcc as (u & <- & Hu). apply filter_In in Hu.
      specialize (HU agg_param u EE (proj1 Hu) (proj2 Hu)). cbn [fst snd] in HU. now rewrite Nat2Z.id in HU. }
    assert (HMod : (MODULUS Field64 <= level_modulus p level)%Z).
    { unfold level_modulus. destruct (_ <? _); vm_compute; discriminate. }
    destruct (mixed_counts M level prefixes cs (level_modulus p level) ND (proj2 HL) UC ltac:(lia)) as ([X1 X2] & X3 & X4).
    split; [|split; [exact X3|]].
    + split; [exact X1|]. intros i Hi. specialize (X2 i Hi). cbv beta in X2. unfold zcount in *. fold M. lia.
    + eapply Z.le_trans; [exact X4|lia].
Qed.

Theorem deployed_robust T l h : heavy_hitters q T bits = Ok (l, h) -> (forall ap, In ap h -> one_hot_uploads p ctx key us ap) ->
  (exists n, p1_ran_out p n) \/
  (sorted_prefixes l /\
   (forall y, In y l -> length y = bits /\ (T <= Z.of_nat (holders y M + length us))%Z) /\
   (forall y, length y = bits -> (T <= Z.of_nat (holders y M))%Z -> In y l) /\ valid_history h /\
   ((0 < T)%Z -> let B := Z.of_nat (length ms + length us) in
    (forall ap, In ap h -> (Z.of_nat (length (snd ap)) <= Z.max 2 (2 * (B / T)))%Z) /\ (Z.of_nat (length l) <= B / T)%Z)).
Proof.
  intros E HU.
  assert (HI : forall ap, In ap h -> exists k prefixes, ap = (Z.of_nat k, prefixes) /\ k < bits /\ level_ok k prefixes).
  { apply (heavy_incl q T bits) with (l := l); [|easy]. intros level prefixes counts Hl HL EQ. now apply (deployed_Ok level prefixes counts Hl HL EQ). }
  destruct (some_or_all (fun ap : Poplar1AggParam => p1_ran_out p (length (snd ap)))
    (fun ap => forall counts, q ap = Ok counts -> counts_between (zcount M) (fun y => zcount M y + Z.of_nat (length us))%Z ap counts /\
      Forall (fun c => 0 <= c)%Z counts /\ (zsuml counts <= Z.of_nat (length ms + length us))%Z) h) as [(ap & R)|HQ].
  { intros ap Hap. destruct (HI ap Hap) as (k & prefixes & -> & Hl & HL). destruct (q (Z.of_nat k, prefixes)) as [counts|] eqn:EQ.
    - destruct (deployed_Ok k prefixes counts Hl HL EQ) as [_ X]. destruct (X (HU _ Hap)) as [R|X']; [now left|right]. intros c Ec. apply Ok_inj in Ec. now rewrite <- Ec.
    - right. easy. }
  { left. eauto. }
  right. destruct (levels_sound q T bits (zcount M) (fun y => zcount M y + Z.of_nat (length us))%Z (zcount_anti M) _ _ _ _ _ _ E H0 (Nat.add_0_r bits) start_ok start_history
    (fun y Ly _ => start_firstn bits y H0 Ly) (fun ap Hap counts EQ => proj1 (HQ ap Hap counts EQ))) as (A & B & C & D).
  assert (X : forall y, length y = bits -> zcount M y = Z.of_nat (holders y M)).
  { intros y Ly. unfold zcount. rewrite count_holders; [easy|]. rewrite Ly. unfold M. apply Forall_map. exact Hm. }
  split; [easy|]. split; [|split; [|split; [easy|]]].
  - intros y Hy. destruct (B y Hy) as [Ly Hh]. split; [easy|]. rewrite (X y Ly) in Hh. lia.
  - intros y Ly Hh. apply C; [easy|]. now rewrite X.
  - intros HT B0. apply (levels_size q T B0 HT ltac:(unfold B0; lia) _ _ _ _ _ _ E); [|cbn; lia|easy].
    intros ap Hap counts EQ. exact (proj2 (HQ ap Hap counts EQ)).
Qed.

Theorem deployed_total T : (0 < T)%Z -> (Z.of_nat (length ms + length us) < 2 ^ 31)%Z -> (forall ap, agg_param_wf ap -> one_hot_uploads p ctx key us ap) ->
  (exists n, p1_ran_out p n) \/ exists l h, heavy_hitters q T bits = Ok (l, h).
Proof.
  intros HT HS HU. set (B := Z.of_nat (length ms + length us)) in *.
  assert (HBT : (B / T <= B)%Z) by (apply Z.div_le_upper_bound; [easy|unfold B; nia]).
  destruct (levels_total q T bits (fun ap => (exists n, p1_ran_out p n) \/ (Z.of_nat (length (snd ap)) <= Z.max 2 (2 * (B / T)))%Z)
    (fun _ => exists n, p1_ran_out p n)) with (remaining := bits) (level := 0) (history := @nil Poplar1AggParam) (prefixes := [[false]; [true]]) as [X|(e & _ & X)].
  - intros level prefixes Hl HL HW. destruct (q (Z.of_nat level, prefixes)) as [counts|e] eqn:EQ.
    + left. exists counts. split; [easy|]. destruct (deployed_Ok level prefixes counts Hl HL EQ) as [LC X]. split; [easy|].
      destruct HW as [R|HW]; [now left|]. cbn [snd] in *.
      destruct X as [R|(_ & X1 & X2)]; [| left; eauto |].
      * apply HU. split; [cbn [fst]; lia|]. cbn [fst snd]. split; [lia|]. apply Forall_forall. intros x Hx. destruct HL as [_ HL]. rewrite Forall_forall in HL. rewrite (HL x Hx). lia.
      * right. rewrite next_length. assert (Z.of_nat (length (heavy_prefixes T prefixes counts)) <= B / T)%Z; [|lia].
        apply Z.div_le_lower_bound; [easy|]. pose proof (hits_weight T prefixes counts X1). unfold B. lia.
    + right. exists e. split; [easy|]. destruct HW as [R|HW]; [easy|]. exfalso. cbn [snd] in HW. revert EQ. unfold q, deployed_query.
      destruct (proj2 (encode_level level prefixes Hl HL)) as (agg_param & EE); [lia|]. rewrite EE. cbn [bind].
      pose proof (proj1 (encode_level level prefixes Hl HL) _ EE) as DA.
      unfold p. now rewrite (C68_aggregate ts aes bound bits Ha Hb H0 key ctx agg_param level prefixes _ DA Hc).
  - lia.
  - apply start_ok.
  - apply start_history.
  - right. cbn. lia.
  - right. exact X.
  - now left.
Qed.
End Deployed.

(** ** Honest clients *)
Section Honest.
Context (ts : TurboShake) (aes : BlockCipher) (bound bits : nat).
Context (Ha : forall k b, length b = 16 -> length (aes k b) = 16) (Hb : (Z.of_nat bound < 2 ^ 120)%Z) (H0 : 0 < bits) (H1 : (Z.of_nat bits <= 65536)%Z).
Let p := p1_obj ts aes bound bits.
Context (key ctx : bytes) (Hk : length key = 32) (Hc : ctx_ok ctx).
Context (ms : list (list bool * bytes * bytes)) (Hs : p1_sizes_ok p ms) (Hm : Forall (fun r => length (fst (fst r)) = bits) ms).
Context (HN : (Z.of_nat (length ms) < MODULUS Field64)%Z).
Let q ap := run_vdaf (p1_vdaf p) key ap ctx ms.

Lemma honest_query level prefixes : level < bits -> level_ok level prefixes ->
  q (Z.of_nat level, prefixes) = Ok (map (zcount (map (fun r => fst (fst r)) ms)) prefixes) \/
  (q (Z.of_nat level, prefixes) = Raise OutOfFuel /\ p1_ran_out p (length prefixes)).
Proof.
  intros Hl HL. destruct (p1_obj_ok ts aes bound bits Ha Hb H0) as (lim & HO).
  apply (C37_exact p lim HO key ctx level prefixes ms (sorted_NoDup _ (proj1 HL)) (proj2 HL) Hc Hk Hl); [lia|exact Hs|exact Hm|].
  assert (HMod : (MODULUS Field64 <= level_modulus p level)%Z) by (unfold level_modulus; destruct (_ <? _); vm_compute; discriminate).
  lia.
Qed.
Lemma honest_exact level prefixes counts : level < bits -> level_ok level prefixes -> q (Z.of_nat level, prefixes) = Ok counts ->
  counts = map (zcount (map (fun r => fst (fst r)) ms)) prefixes.
Proof. intros Hl HL E. destruct (honest_query level prefixes Hl HL) as [X|[X _]]; rewrite X in E; [now apply Ok_inj in E|discriminate]. Qed.
Lemma honest_total T :
  (exists l h, heavy_hitters q T bits = Ok (l, h)) \/ exists e, heavy_hitters q T bits = Raise e /\ e = OutOfFuel /\ exists n, p1_ran_out p n.
Proof.
  apply (levels_total q T bits (fun _ => True) (fun e => e = OutOfFuel /\ exists n, p1_ran_out p n)); [|lia|apply start_ok|apply start_history|easy].
  intros level prefixes Hl HL _. destruct (honest_query level prefixes Hl HL) as [X|[X R]]; rewrite X; [left|right].
  - eexists. split; [reflexivity|]. split; [apply map_length|easy].
  - exists OutOfFuel. eauto.
Qed.
End Honest.
