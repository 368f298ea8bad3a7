(** The heavy hitters protocol: proofs. *)
From Verif Require Import HeavyHitters HeavySpec Poplar1Props BaseFacts.
From Coq Require Import Lia Sorting.Sorted.
Open Scope nat_scope.

(** ** Sorted lists of bit strings *)
Lemma lex_app x y u v : lex_lt x y -> length x = length y -> lex_lt (x ++ u) (y ++ v).
Proof.
  intros (c & a & b & -> & -> & H) L. rewrite !app_length in L.
  destruct H as [[-> Hb]|(a1 & b1 & -> & ->)]; [destruct b; [easy|cbn in L; lia]|].
  rewrite <- !app_assoc. exists c, (false :: a1 ++ u), (true :: b1 ++ v). split; [easy|]. split; [easy|]. right. eauto.
Qed.
Lemma lex_child x : lex_lt (x ++ [false]) (x ++ [true]).
Proof. exists x, [false], [true]. split; [easy|]. split; [easy|]. right. eauto. Qed.

(** The positional definition and the one of the library. *)
Lemma sorted_strong l : sorted_prefixes l <-> StronglySorted lex_lt l.
Proof.
  induction l as [|x l IH].
  - split; [constructor|]. intros _ i j Hi. cbn in Hi. lia.
  - split.
    + intros H. constructor.
      * apply IH. intros i j Hij. apply (H (S i) (S j)). cbn. lia.
      * apply Forall_forall. intros y Hy. destruct (In_nth _ _ [] Hy) as (j & Hj & <-). apply (H 0 (S j)). cbn. lia.
    + intros H. inversion H as [|? ? HS HF]; subst. intros i j Hij. cbn in Hij.
      destruct i as [|i], j as [|j]; try lia; cbn [nth].
      * rewrite Forall_forall in HF. apply HF, nth_In. lia.
      * apply (proj2 IH HS). lia.
Qed.
Lemma strong_filter {A} (R : A -> A -> Prop) f l : StronglySorted R l -> StronglySorted R (filter f l).
Proof.
  induction 1 as [|x l HS IH HF]; cbn; [constructor|]. destruct (f x); [|easy]. constructor; [easy|].
  apply Forall_forall. intros y Hy. apply filter_In in Hy. rewrite Forall_forall in HF. now apply HF.
Qed.

Lemma heavy_filter T prefixes counts :
  heavy_prefixes T prefixes counts = map fst (filter (fun x => T <=? snd x)%Z (combine prefixes counts)).
Proof. reflexivity. Qed.
Lemma heavy_sub T prefixes : forall counts, StronglySorted lex_lt prefixes -> StronglySorted lex_lt (heavy_prefixes T prefixes counts).
Proof.
  unfold heavy_prefixes. induction prefixes as [|x prefixes IH]; intros counts H; [constructor|].
  destruct counts as [|c counts]; [constructor|]. inversion H as [|? ? HS HF]; subst. cbn [combine filter snd].
  destruct (T <=? c)%Z; [|now apply IH]. cbn [map fst]. constructor; [now apply IH|].
  apply Forall_forall. intros y Hy. apply in_map_iff in Hy. destruct Hy as ([y' c'] & <- & Hy). apply filter_In in Hy.
  rewrite Forall_forall in HF. apply HF. apply (in_combine_l _ _ _ _ (proj1 Hy)).
Qed.
Lemma heavy_In T prefixes : forall counts, length counts = length prefixes -> forall y,
  In y (heavy_prefixes T prefixes counts) <-> exists i, i < length prefixes /\ nth i prefixes [] = y /\ (T <= nth i counts 0)%Z.
Proof.
  unfold heavy_prefixes. induction prefixes as [|x prefixes IH]; intros [|c counts] L y; try discriminate L.
  - cbn. split; [easy|]. intros (i & Hi & _). lia.
  - injection L as L. cbn [combine filter snd].
    assert (X : (exists i, i < length (x :: prefixes) /\ nth i (x :: prefixes) [] = y /\ (T <= nth i (c :: counts) 0)%Z) <->
      (x = y /\ (T <= c)%Z) \/ (exists i, i < length prefixes /\ nth i prefixes [] = y /\ (T <= nth i counts 0)%Z)).
    { split.
      - intros ([|i] & Hi & E & H); [now left|right]. exists i. cbn in Hi. split; [lia|]. easy.
      - intros [[E H]|(i & Hi & E & H)]; [exists 0|exists (S i)]; cbn; (split; [lia|]); easy. }
    rewrite X, <- (IH counts L y). destruct (Z.leb_spec T c).
    + cbn [map In fst]. tauto.
    + split; [now right|]. intros [[_ Hc]|Hc]; [lia|easy].
Qed.

Lemma next_In hits y : In y (next_candidates hits) <-> exists x b, In x hits /\ y = x ++ [b].
Proof.
  unfold next_candidates. rewrite in_flat_map. split.
  - intros (x & Hx & [<-|[<-|[]]]); eauto.
  - intros (x & [|] & Hx & ->); exists x; cbn; auto.
Qed.
Lemma next_length hits : length (next_candidates hits) = 2 * length hits.
Proof. unfold next_candidates. induction hits as [|x hits IH]; [easy|]. cbn in *. lia. Qed.
Lemma next_sorted n hits : Forall (fun x => length x = n) hits -> StronglySorted lex_lt hits -> StronglySorted lex_lt (next_candidates hits).
Proof.
  induction hits as [|x hits IH]; intros HL HS; [constructor|]. inversion HL as [|? ? Hx HL']; subst. inversion HS as [|? ? HS' HF]; subst.
  change (next_candidates (x :: hits)) with ((x ++ [false]) :: (x ++ [true]) :: next_candidates hits).
  assert (X : forall b, Forall (lex_lt (x ++ [b])) (next_candidates hits)).
  { intros b. apply Forall_forall. intros y Hy. apply next_In in Hy. destruct Hy as (z & b' & Hz & ->).
    rewrite Forall_forall in HF, HL'. apply lex_app; [now apply HF|]. symmetry. now apply HL'. }
  constructor; [constructor; [now apply IH|apply X]|]. constructor; [apply lex_child|apply X].
Qed.

Lemma hits_weight T prefixes : forall counts, Forall (fun c => 0 <= c)%Z counts ->
  (T * Z.of_nat (length (heavy_prefixes T prefixes counts)) <= zsuml counts)%Z.
Proof.
  unfold heavy_prefixes. intros counts. rewrite map_length. revert counts.
  assert (P : forall counts, Forall (fun c => 0 <= c)%Z counts -> (0 <= zsuml counts)%Z).
  { induction 1 as [|c l Hc _ IH]; [cbn; lia|]. cbn [zsuml fold_right] in *. fold (zsuml l) in *. lia. }
  induction prefixes as [|x prefixes IH]; intros counts HC; cbn [combine filter length]; [specialize (P counts HC); lia|].
  destruct HC as [|c counts Hc HC]; [cbn; lia|]. cbn [combine filter snd].
  specialize (IH counts HC). change (zsuml (c :: counts)) with (c + zsuml counts)%Z.
  destruct (Z.leb_spec T c); cbn [length]; lia.
Qed.

(** ** The loop *)
Section Loop.
Context (query : Poplar1AggParam -> res (list Z)) (T : Z) (bits : nat).

(** What holds of the parameters of a query. *)
Definition level_ok (level : nat) (prefixes : list (list bool)) : Prop :=
  sorted_prefixes prefixes /\ Forall (fun x => length x = S level) prefixes.
Definition history_at (level : nat) (prefixes : list (list bool)) (history : list Poplar1AggParam) : Prop :=
  valid_history history /\ (forall q, In q history -> (0 <= fst q)%Z) /\
  (history = [] \/ may_follow (last history (Z.of_nat level, prefixes)) (Z.of_nat level, prefixes)).

Lemma level_next level prefixes counts :
  level_ok level prefixes -> length counts = length prefixes ->
  level_ok (S level) (next_candidates (heavy_prefixes T prefixes counts)).
Proof.
  intros [HS HL] L. assert (X : Forall (fun x => length x = S level) (heavy_prefixes T prefixes counts)).
  { apply Forall_forall. intros y Hy. apply heavy_In in Hy; [|easy]. destruct Hy as (i & Hi & <- & _).
    rewrite Forall_forall in HL. now apply HL, nth_In. }
  split.
  - apply sorted_strong. apply (next_sorted (S level)); [easy|]. apply heavy_sub. now apply sorted_strong.
  - apply Forall_forall. intros y Hy. apply next_In in Hy. destruct Hy as (x & b & Hx & ->).
    rewrite Forall_forall in X. rewrite app_length, (X x Hx). cbn. lia.
Qed.
Lemma is_valid_ok level prefixes history : level_ok level prefixes -> history_at level prefixes history ->
  p1_is_valid (Z.of_nat level, prefixes) history = Ok true.
Proof.
  intros [HS _] (_ & Hp & Hf). destruct (is_valid_spec (Z.of_nat level, prefixes) history) as (b & -> & Hb). f_equal. apply Hb; auto.
Qed.
Lemma history_next level prefixes counts history :
  level_ok level prefixes -> history_at level prefixes history -> length counts = length prefixes ->
  history_at (S level) (next_candidates (heavy_prefixes T prefixes counts)) (history ++ [(Z.of_nat level, prefixes)]).
Proof.
  intros HL HH L. pose proof (is_valid_ok _ _ _ HL HH) as HV. destruct HH as (H1 & H2 & H3).
  split; [now constructor|]. split.
  - intros q Hq. apply in_app_or in Hq. destruct Hq as [Hq|[<-|[]]]; [now apply H2|cbn; lia].
  - right. rewrite last_last. split; [cbn; lia|]. cbn [fst snd]. intros y Hy. apply next_In in Hy. destruct Hy as (x & b & Hx & ->).
    apply heavy_In in Hx; [|easy]. destruct Hx as (i & Hi & <- & _).
    assert (Hin : In (nth i prefixes []) prefixes) by now apply nth_In.
    replace (Z.to_nat (Z.of_nat level + 1)) with (S level) by lia.
    destruct HL as [_ HL]. rewrite Forall_forall in HL. rewrite firstn_app, (HL _ Hin), Nat.sub_diag, firstn_all2, app_nil_r; [easy|].
    now rewrite (HL _ Hin).
Qed.

Lemma levels_prefix : forall remaining level history prefixes l h,
  heavy_levels query T remaining level history prefixes = Ok (l, h) -> exists more, h = history ++ more.
Proof.
  induction remaining as [|remaining IH]; intros level history prefixes l h; cbn [heavy_levels].
  - intros [= <- <-]. exists []. now rewrite app_nil_r.
  - destruct (p1_is_valid _ _) as [ok|]; [cbn [bind]|easy]. destruct ok; [cbn [bind check]|easy].
    destruct (query _) as [counts|]; [cbn [bind]|easy]. destruct (_ || _).
    + intros [= <- <-]. eexists. reflexivity.
    + intros E. apply IH in E. destruct E as (more & ->). rewrite <- app_assoc. eexists. reflexivity.
Qed.

Lemma levels_queried : forall remaining level history prefixes l h,
  heavy_levels query T remaining level history prefixes = Ok (l, h) -> forall ap, In ap h -> In ap history \/ exists counts, query ap = Ok counts.
Proof.
  induction remaining as [|remaining IH]; intros level history prefixes l h E ap Hap; revert E; cbn [heavy_levels].
  { intros [= _ <-]. now left. }
  destruct (p1_is_valid _ _) as [ok|]; [cbn [bind]|easy]. destruct ok; [cbn [bind check]|easy].
  destruct (query _) as [counts|] eqn:EQ; [cbn [bind]|easy]. destruct (_ || _).
  - intros [= _ <-]. apply in_app_or in Hap. destruct Hap as [Hap|[<-|[]]]; [now left|right; eauto].
  - intros E. destruct (IH _ _ _ _ _ E ap Hap) as [Hin|X]; [|now right].
    apply in_app_or in Hin. destruct Hin as [Hin|[<-|[]]]; [now left|right; eauto].
Qed.

Context (lo hi : list bool -> Z).
Context (lo_anti : forall y k, (lo y <= lo (firstn k y))%Z).

Lemma levels_sound : forall remaining level history prefixes l h,
  heavy_levels query T remaining level history prefixes = Ok (l, h) ->
  0 < remaining -> remaining + level = bits -> level_ok level prefixes -> history_at level prefixes history ->
  (forall y, length y = bits -> (T <= lo y)%Z -> In (firstn (S level) y) prefixes) ->
  (forall ap, In ap h -> forall counts, query ap = Ok counts -> counts_between lo hi ap counts) ->
  sorted_prefixes l /\ (forall y, In y l -> length y = bits /\ (T <= hi y)%Z) /\
  (forall y, length y = bits -> (T <= lo y)%Z -> In y l) /\ valid_history h.
Proof.
  induction remaining as [|remaining IH]; intros level history prefixes l h E H0 HB HL HH HI HQ; [lia|]. revert E. cbn [heavy_levels].
  rewrite (is_valid_ok _ _ _ HL HH). cbn [bind check].
  destruct (query (Z.of_nat level, prefixes)) as [counts|] eqn:EQ; [cbn [bind]|easy].
  set (hits := heavy_prefixes T prefixes counts).
  assert (ISV : valid_history (history ++ [(Z.of_nat level, prefixes)])).
  { constructor; [apply HH|]. now apply is_valid_ok. }
  destruct ((remaining =? 0) || (length hits =? 0)) eqn:ED.
  - intros [= El Eh]. subst h. assert (EL : hits = l) by exact El. clear El.
    assert (HM : In (Z.of_nat level, prefixes) (history ++ [(Z.of_nat level, prefixes)])) by (apply in_or_app; right; now left).
    destruct (HQ _ HM _ EQ) as [LC HC]. cbn [snd] in LC, HC.
    assert (X : forall y, length y = bits -> (T <= lo y)%Z -> In (firstn (S level) y) hits).
    { intros y Ly Hy. specialize (HI y Ly Hy). destruct (In_nth _ _ [] HI) as (i & Hi & Ei).
      apply heavy_In; [easy|]. exists i. split; [easy|]. split; [easy|]. specialize (HC i Hi). rewrite Ei in HC.
      pose proof (lo_anti y (S level)). lia. }
    split; [rewrite <- EL; apply sorted_strong, heavy_sub, sorted_strong, HL|]. split; [|split; [|easy]].
    + intros y Hy. rewrite <- EL in Hy. apply orb_prop in ED. destruct ED as [E0|E0]; apply Nat.eqb_eq in E0.
      * apply heavy_In in Hy; [|easy]. destruct Hy as (i & Hi & <- & Ht). specialize (HC i Hi). split; [|lia].
        destruct HL as [_ HL]. rewrite Forall_forall in HL. rewrite HL by now apply nth_In. lia.
      * destruct hits; [easy|discriminate].
    + intros y Ly Hy. rewrite <- EL. specialize (X y Ly Hy). apply orb_prop in ED. destruct ED as [E0|E0]; apply Nat.eqb_eq in E0.
      * rewrite firstn_all2 in X by lia. easy.
      * destruct hits; [easy|discriminate].
  - intros E. apply orb_false_elim in ED. destruct ED as [E0 _]. apply Nat.eqb_neq in E0.
    assert (HQ0 : counts_between lo hi (Z.of_nat level, prefixes) counts).
    { apply HQ; [|easy]. destruct (levels_prefix _ _ _ _ _ _ E) as (more & ->). apply in_or_app. left. apply in_or_app. right. now left. }
    destruct HQ0 as [LC HC]. cbn [snd] in LC, HC.
    apply (IH _ _ _ _ _ E); [lia|lia|now apply level_next|now apply history_next| |easy].
    intros y Ly Hy. specialize (HI y Ly Hy). destruct (In_nth _ _ [] HI) as (i & Hi & Ei).
    apply next_In. exists (firstn (S level) y), (nth (S level) y false). split.
    + apply heavy_In; [easy|]. exists i. split; [easy|]. split; [easy|]. specialize (HC i Hi). rewrite Ei in HC.
      pose proof (lo_anti y (S level)). lia.
    + rewrite <- (firstn_skipn (S level) y) at 1. rewrite firstn_app, firstn_firstn, firstn_length.
      replace (Init.Nat.min (S (S level)) (S level)) with (S level) by lia. replace (S (S level) - Init.Nat.min (S level) (length y)) with 1 by lia.
      f_equal. destruct (skipn (S level) y) as [|b t] eqn:ES.
      * apply (f_equal (@length _)) in ES. rewrite skipn_length in ES. cbn in ES. lia.
      * cbn. f_equal. rewrite <- (firstn_skipn (S level) y), ES, app_nth2; rewrite firstn_length; [|lia].
        now replace (S level - Init.Nat.min (S level) (length y)) with 0 by lia.
Qed.

(** The protocol finishes if all queries do. *)
Lemma levels_total (W : Poplar1AggParam -> Prop) (E : exn -> Prop) :
  (forall level prefixes, level < bits -> level_ok level prefixes -> W (Z.of_nat level, prefixes) ->
     (exists counts, query (Z.of_nat level, prefixes) = Ok counts /\ length counts = length prefixes /\
        W (Z.of_nat (S level), next_candidates (heavy_prefixes T prefixes counts))) \/
     exists e, query (Z.of_nat level, prefixes) = Raise e /\ E e) ->
  forall remaining level history prefixes, remaining + level = bits -> level_ok level prefixes -> history_at level prefixes history ->
  W (Z.of_nat level, prefixes) ->
  (exists l h, heavy_levels query T remaining level history prefixes = Ok (l, h)) \/
  exists e, heavy_levels query T remaining level history prefixes = Raise e /\ E e.
Proof.
  intros HQ. induction remaining as [|remaining IH]; intros level history prefixes HB HL HH HW; cbn [heavy_levels].
  - left. eauto.
  - rewrite (is_valid_ok _ _ _ HL HH). cbn [bind check].
    destruct (HQ level prefixes ltac:(lia) HL HW) as [(counts & -> & LC & HW')|(e & -> & He)]; cbn [bind]; [|right; eauto].
    destruct (_ || _); [left; eauto|]. apply IH; [lia|now apply level_next|now apply history_next|easy].
Qed.

(** The history: one parameter per level, and the candidates are the children of the
    prefixes found heavy at the level above. *)
Lemma levels_history : forall remaining level history prefixes l h,
  heavy_levels query T remaining level history prefixes = Ok (l, h) ->
  0 < remaining -> remaining + level = bits -> level_ok level prefixes -> history_at level prefixes history -> length history = level ->
  (forall ap, In ap h -> forall counts, query ap = Ok counts -> counts_between lo hi ap counts) ->
  level < length h <= bits /\ nth level h (0%Z, []) = (Z.of_nat level, prefixes) /\
  (forall k, level <= k < length h -> fst (nth k h (0%Z, [])) = Z.of_nat k) /\
  (forall k, level <= k -> S k < length h -> forall y, In y (snd (nth (S k) h (0%Z, []))) <->
     exists x b counts i, y = x ++ [b] /\ query (nth k h (0%Z, [])) = Ok counts /\
       i < length (snd (nth k h (0%Z, []))) /\ nth i (snd (nth k h (0%Z, []))) [] = x /\ (T <= nth i counts 0)%Z) /\
  (length h = bits \/ exists counts, query (last h (0%Z, [])) = Ok counts /\ heavy_prefixes T (snd (last h (0%Z, []))) counts = []).
Proof.
  induction remaining as [|remaining IH]; intros level history prefixes l h E H0 HB HL HH HLen HQ; [lia|]. revert E. cbn [heavy_levels].
  rewrite (is_valid_ok _ _ _ HL HH). cbn [bind check].
  destruct (query (Z.of_nat level, prefixes)) as [counts|] eqn:EQ; [cbn [bind]|easy].
  destruct (_ || _) eqn:ED.
  - intros [= _ <-]. rewrite app_length. cbn [length]. split; [lia|].
    assert (X : nth level (history ++ [(Z.of_nat level, prefixes)]) (0%Z, []) = (Z.of_nat level, prefixes)).
    { now rewrite app_nth2, HLen, Nat.sub_diag by lia. }
    split; [easy|]. split; [intros k Hk; replace k with level by lia; now rewrite X|]. split; [intros; lia|].
    apply orb_prop in ED. destruct ED as [E0|E0]; apply Nat.eqb_eq in E0; [left; lia|right].
    exists counts. rewrite last_last. split; [easy|]. now apply length_zero_iff_nil.
  - intros E. apply orb_false_elim in ED. destruct ED as [E0 _]. apply Nat.eqb_neq in E0.
    destruct (levels_prefix _ _ _ _ _ _ E) as (more & Eh).
    assert (XE : nth level h (0%Z, []) = (Z.of_nat level, prefixes)).
    { rewrite Eh, app_nth1 by (rewrite app_length; cbn; lia). now rewrite app_nth2, HLen, Nat.sub_diag by lia. }
    assert (HQ0 : counts_between lo hi (Z.of_nat level, prefixes) counts).
    { apply HQ; [|easy]. rewrite Eh. apply in_or_app. left. apply in_or_app. right. now left. }
    destruct HQ0 as [LC HC]. cbn [snd] in LC, HC.
    destruct (IH _ _ _ _ _ E ltac:(lia) ltac:(lia) (level_next _ _ _ HL LC) (history_next _ _ _ _ HL HH LC)
      ltac:(rewrite app_length; cbn; lia) HQ) as (I1 & I2 & I3 & I4 & I5).
    split; [lia|]. split; [easy|]. split; [|split; [|exact I5]].
    + intros k Hk. destruct (Nat.eq_dec k level) as [->|]; [now rewrite XE|apply I3; lia].
    + intros k Hk Hk' y. destruct (Nat.eq_dec k level) as [->|]; [|apply I4; lia].
      rewrite I2, XE. cbn [snd]. rewrite next_In. split.
      * intros (x & b & Hx & ->). apply heavy_In in Hx; [|easy]. destruct Hx as (i & Hi & Ei & Ht). exists x, b, counts, i. auto.
      * intros (x & b & counts' & i & -> & Ec & Hi & Ei & Ht). rewrite EQ in Ec. injection Ec as <-.
        exists x, b. split; [|easy]. apply heavy_In; [easy|]. eauto.
Qed.

(** Few prefixes are heavy. *)
Lemma levels_size (B : Z) : (0 < T)%Z -> (0 <= B)%Z -> forall remaining level history prefixes l h,
  heavy_levels query T remaining level history prefixes = Ok (l, h) ->
  (forall ap, In ap h -> forall counts, query ap = Ok counts -> Forall (fun c => 0 <= c)%Z counts /\ (zsuml counts <= B)%Z) ->
  let small ap := (Z.of_nat (length (snd ap)) <= Z.max 2 (2 * (B / T)))%Z in
  small (Z.of_nat level, prefixes) -> (forall ap, In ap history -> small ap) ->
  (forall ap, In ap h -> small ap) /\ (Z.of_nat (length l) <= B / T)%Z.
Proof.
  intros HT HB remaining. induction remaining as [|remaining IH]; intros level history prefixes l h E HQ small HS HH; revert E; cbn [heavy_levels].
  - intros [= <- <-]. split; [easy|]. cbn. apply Z.div_pos; lia.
  - destruct (p1_is_valid _ _) as [ok|]; [cbn [bind]|easy]. destruct ok; [cbn [bind check]|easy].
    destruct (query _) as [counts|] eqn:EQ; [cbn [bind]|easy].
    assert (HH' : forall ap, In ap (history ++ [(Z.of_nat level, prefixes)]) -> small ap).
    { intros ap Hap. apply in_app_or in Hap. destruct Hap as [Hap|[<-|[]]]; [now apply HH|easy]. }
    set (hits := heavy_prefixes T prefixes counts). assert (X : forall h', In (Z.of_nat level, prefixes) h' ->
      (forall ap, In ap h' -> forall counts, query ap = Ok counts -> Forall (fun c => 0 <= c)%Z counts /\ (zsuml counts <= B)%Z) ->
      (Z.of_nat (length hits) <= B / T)%Z).
    { intros h' Hin HQ'. destruct (HQ' _ Hin _ EQ) as [HP HS']. apply Z.div_le_lower_bound; [easy|].
      pose proof (hits_weight T prefixes counts HP). unfold hits. lia. }
    assert (HM : In (Z.of_nat level, prefixes) (history ++ [(Z.of_nat level, prefixes)])) by (apply in_or_app; right; now left).
    destruct (_ || _) eqn:ED.
    + intros [= El Eh]. subst h. split; [easy|]. rewrite <- El. now apply (X (history ++ [(Z.of_nat level, prefixes)])).
    + intros E. apply (IH _ _ _ _ _ E); [easy| |easy].
      destruct (levels_prefix _ _ _ _ _ _ E) as (more & Eh).
      unfold small. cbn [snd]. rewrite next_length. assert (Y : (Z.of_nat (length hits) <= B / T)%Z); [|fold hits; lia].
      apply (X h); [|easy]. rewrite Eh. apply in_or_app. now left.
Qed.
End Loop.
