(** Proofs about run_daf and run_vdaf. *)
From Verif Require Import RunSpec PingPongSpec BaseFacts.
Open Scope nat_scope.

Lemma mapM_cons_Ok {A B} (f : A -> res B) x l r : mapM f (x :: l) = Ok r <->
  exists y ys, f x = Ok y /\ mapM f l = Ok ys /\ r = y :: ys.
Proof.
  cbn [mapM]. rewrite bind_Ok. split.
  - intros (y & E & H). apply bind_Ok in H. destruct H as (ys & E2 & [= <-]). now exists y, ys.
  - intros (y & ys & E & E2 & ->). exists y. split; [exact E|]. now rewrite E2.
Qed.

Lemma mapM_nth_Ok {A B} (f : A -> res B) : forall l r, mapM f l = Ok r <->
  length r = length l /\ forall j x y, nth_error l j = Some x -> nth_error r j = Some y -> f x = Ok y.
Proof.
  induction l as [|a l IH]; intros r.
  - cbn [mapM]. split.
    + intros [= <-]. split; [reflexivity|]. intros [|j] x y E; discriminate E.
    + intros [L _]. destruct r; [reflexivity|discriminate L].
  - rewrite mapM_cons_Ok. split.
    + intros (y & ys & E & E2 & ->). apply IH in E2. destruct E2 as [L N]. split; [cbn; congruence|].
      intros [|j] u v; cbn [nth_error].
      * intros [= <-] [= <-]. exact E.
      * apply N.
    + intros [L N]. destruct r as [|y ys]; [discriminate L|]. exists y, ys.
      split; [exact (N 0 a y eq_refl eq_refl)|]. split; [|reflexivity]. apply IH. split; [now injection L|].
      intros j u v E1 E2. exact (N (S j) u v E1 E2).
Qed.

Lemma nth_error_range n j : j < n -> nth_error (range 0 n) j = Some j.
Proof.
  intro H. unfold range. rewrite Nat.sub_0_r.
  rewrite (nth_error_nth' _ 0) by (rewrite seq_length; exact H). now rewrite seq_nth.
Qed.

Lemma mapM_range_Ok {B} (f : nat -> res B) n r : mapM f (range 0 n) = Ok r <->
  length r = n /\ forall j y, nth_error r j = Some y -> f j = Ok y.
Proof.
  rewrite mapM_nth_Ok, length_range, Nat.sub_0_r. split; intros [L N]; split; try exact L; intros j.
  - intros y E. assert (j < n) by (rewrite <- L; apply nth_error_Some; congruence).
    exact (N j j y (nth_error_range n j H) E).
  - intros x y E1 E2. assert (j < n) by (rewrite <- L; apply nth_error_Some; congruence).
    rewrite (nth_error_range n j H) in E1. injection E1 as <-. now apply N.
Qed.

(** Accumulating one output share per Aggregator. *)
Definition zipM {A O} (u : A -> O -> res A) (aggs : list A) (outs : list O) : res (list A) :=
  mapM (fun x => u (fst x) (snd x)) (combine aggs outs).

Lemma nth_error_combine {A B} : forall (l : list A) (l' : list B) j x y,
  nth_error (combine l l') j = Some (x, y) <-> nth_error l j = Some x /\ nth_error l' j = Some y.
Proof.
  induction l as [|a l IH]; intros l' j x y.
  - destruct j; cbn; (split; [easy|]); intros [E _]; discriminate E.
  - destruct l' as [|b l'].
    + destruct j; cbn; (split; [easy|]); intros [_ E]; discriminate E.
    + destruct j; cbn [combine nth_error].
      * split; [intros [= <- <-]; now split|intros [[= <-] [= <-]]; reflexivity].
      * apply IH.
Qed.

Lemma zipM_Ok {A O} (u : A -> O -> res A) aggs outs r : length aggs = length outs -> zipM u aggs outs = Ok r <->
  length r = length aggs /\ forall j a o y, nth_error aggs j = Some a -> nth_error outs j = Some o -> nth_error r j = Some y -> u a o = Ok y.
Proof.
  intro L. unfold zipM. rewrite mapM_nth_Ok, combine_length, <- L, Nat.min_id.
  split; intros [L' N]; split; try exact L'; intros j.
  - intros a o y E1 E2 E3. apply (N j (a, o) y); [|exact E3]. now apply nth_error_combine.
  - intros [a o] y E1 E2. apply nth_error_combine in E1. destruct E1 as [E1 E3]. exact (N j a o y E1 E3 E2).
Qed.

Lemma get_mid {A} (d : list A) x l : get (d ++ x :: l) (length d) = Ok x.
Proof. unfold get. rewrite nth_error_app2 by lia. now rewrite Nat.sub_diag. Qed.
Lemma set_mid {A} (d : list A) x y l : set (d ++ x :: l) (length d) y = Ok (d ++ y :: l).
Proof.
  unfold set. rewrite app_length. cbn [length].
  replace (length d <? length d + S (length l)) with true by (symmetry; apply Nat.ltb_lt; lia). f_equal.
  induction d as [|a d IH]; [reflexivity|]. cbn. now rewrite IH.
Qed.

(** A loop over the Aggregators that updates the aggregate shares in place. *)
Lemma column_Ok {A O} (f : nat -> res O) (u : A -> O -> res A) : forall rest don k aggs',
  length don = k ->
  foldM (fun aggs j => let* o := f j in let* a := get aggs j in let* a := u a o in set aggs j a) (seq k (length rest)) (don ++ rest)
  = Ok aggs' <->
  exists outs rest', mapM f (seq k (length rest)) = Ok outs /\ zipM u rest outs = Ok rest' /\ aggs' = don ++ rest'.
Proof.
  induction rest as [|a rest IH]; intros don k aggs' L; cbn [length seq foldM].
  - split.
    + intros [= <-]. now exists [], [].
    + intros (outs & rest' & [= <-] & E2 & ->). injection E2 as <-. reflexivity.
  - rewrite bind_Ok. subst k. split.
    + intros (aggs1 & E & H). apply bind_Ok in E. destruct E as (o & Eo & E). rewrite get_mid in E. cbn [bind] in E.
      apply bind_Ok in E. destruct E as (a' & Eu & E). rewrite set_mid in E. injection E as <-.
      change (don ++ a' :: rest) with (don ++ [a'] ++ rest) in H. rewrite app_assoc in H.
      apply (IH (don ++ [a'])) in H; [|rewrite app_length; cbn; lia].
      destruct H as (outs & rest' & M & Z & ->). exists (o :: outs), (a' :: rest').
      split; [apply mapM_cons_Ok; now exists o, outs|]. split; [|now rewrite <- app_assoc].
      unfold zipM. cbn [combine]. apply mapM_cons_Ok. now exists a', rest'.
    + intros (outs & rest' & M & Z & ->). apply mapM_cons_Ok in M. destruct M as (o & outs' & Eo & M & ->).
      unfold zipM in Z. cbn [combine] in Z. apply mapM_cons_Ok in Z. destruct Z as (a' & rest'' & Eu & Z & ->). cbn [fst snd] in Eu.
      exists (don ++ a' :: rest). rewrite Eo. cbn [bind]. rewrite get_mid. cbn [bind]. rewrite Eu. cbn [bind]. rewrite set_mid.
      split; [reflexivity|]. change (don ++ a' :: rest) with (don ++ [a'] ++ rest). rewrite app_assoc.
      apply (IH (don ++ [a'])); [rewrite app_length; cbn; lia|]. exists outs', rest''.
      split; [exact M|]. split; [exact Z|]. now rewrite <- app_assoc.
Qed.

Lemma column_range {A O} (f : nat -> res O) (u : A -> O -> res A) n aggs aggs' : length aggs = n ->
  for_range 0 n aggs (fun aggs j => let* o := f j in let* a := get aggs j in let* a := u a o in set aggs j a) = Ok aggs' <->
  exists outs, mapM f (range 0 n) = Ok outs /\ zipM u aggs outs = Ok aggs'.
Proof.
  intros <-. unfold for_range, range. rewrite Nat.sub_0_r. rewrite (column_Ok f u aggs [] 0 aggs' eq_refl). split.
  - intros (outs & rest' & M & Z & ->). now exists outs.
  - intros (outs & M & Z). now exists outs, aggs'.
Qed.

Lemma zipM_length {A O} (u : A -> O -> res A) aggs outs r : length outs = length aggs -> zipM u aggs outs = Ok r -> length r = length aggs.
Proof. intros L H. apply zipM_Ok in H; [apply H|now symmetry]. Qed.

(** A loop over the reports. *)
Lemma reports_Ok {R A O} n (F : list A -> R -> res (list A)) (g : R -> res (list O)) (u : A -> O -> res A) :
  (forall rep outs, g rep = Ok outs -> length outs = n) ->
  (forall aggs rep aggs', length aggs = n -> F aggs rep = Ok aggs' <-> exists outs, g rep = Ok outs /\ zipM u aggs outs = Ok aggs') ->
  forall ms aggs aggs', length aggs = n ->
  foldM F ms aggs = Ok aggs' <-> exists outss, mapM g ms = Ok outss /\ foldM (zipM u) outss aggs = Ok aggs'.
Proof.
  intros HL HF. induction ms as [|m ms IH]; intros aggs aggs' L; cbn [foldM].
  - split.
    + intros [= <-]. now exists [].
    + intros (outss & [= <-] & H). exact H.
  - rewrite bind_Ok. split.
    + intros (a1 & E & H). apply HF in E; [|exact L]. destruct E as (outs & G & Z).
      apply IH in H; [|rewrite (zipM_length _ _ _ _ (eq_trans (HL _ _ G) (eq_sym L)) Z); exact L].
      destruct H as (outss & M & H). exists (outs :: outss).
      split; [apply mapM_cons_Ok; now exists outs, outss|]. cbn [foldM]. now rewrite Z.
    + intros (outss & M & H). apply mapM_cons_Ok in M. destruct M as (outs & outss' & G & M & ->). cbn [foldM] in H.
      apply bind_Ok in H. destruct H as (a1 & Z & H). exists a1. split; [apply HF; [exact L|]; now exists outs|].
      apply IH; [rewrite (zipM_length _ _ _ _ (eq_trans (HL _ _ G) (eq_sym L)) Z); exact L|]. now exists outss'.
Qed.

Lemma nth_error_eq {A} : forall (l l' : list A), (forall j, nth_error l j = nth_error l' j) -> l = l'.
Proof.
  induction l as [|a l IH]; intros [|b l'] H; try reflexivity; try (specialize (H 0); discriminate H).
  pose proof (H 0) as E. injection E as ->. f_equal. apply IH. intro j. exact (H (S j)).
Qed.

(** Aggregator by Aggregator instead of report by report. *)
Lemma transpose {A O} (u : A -> O -> res A) n : forall outss aggs aggs',
  Forall (fun outs => length outs = n) outss -> length aggs = n ->
  foldM (zipM u) outss aggs = Ok aggs' <->
  length aggs' = n /\ forall j a y, nth_error aggs j = Some a -> nth_error aggs' j = Some y ->
    foldM (fun a outs => let* o := get outs j in u a o) outss a = Ok y.
Proof.
  induction outss as [|outs outss IH]; intros aggs aggs' HF L; cbn [foldM].
  - split.
    + intros [= <-]. split; [exact L|]. intros j a y -> [= ->]. reflexivity.
    + intros [L' H]. f_equal. apply nth_error_eq. intro j.
      destruct (nth_error aggs j) as [a|] eqn:E1, (nth_error aggs' j) as [y|] eqn:E2; try reflexivity.
      * specialize (H j a y E1 E2). now injection H as ->.
      * apply nth_error_None in E2. assert (j < length aggs) by (apply nth_error_Some; congruence). lia.
      * apply nth_error_None in E1. assert (j < length aggs') by (apply nth_error_Some; congruence). lia.
  - inversion HF as [|? ? Lo HF']; subst. rewrite bind_Ok. split.
    + intros (a1 & Z & H). pose proof Z as Z0. apply zipM_Ok in Z; [|congruence]. destruct Z as [L1 Z].
      apply IH in H; [|exact HF'|congruence]. destruct H as [L' H]. split; [exact L'|].
      intros j a y E1 E2. assert (j < length aggs) by (apply nth_error_Some; congruence).
      destruct (nth_error outs j) as [o|] eqn:Eo; [|apply nth_error_None in Eo; lia].
      destruct (nth_error a1 j) as [x|] eqn:Ex; [|apply nth_error_None in Ex; lia].
      unfold get. rewrite Eo. cbn [bind]. rewrite (Z j a o x E1 Eo Ex). cbn [bind]. exact (H j x y Ex E2).
    + intros [L' H].
      assert (T : exists a1, zipM u aggs outs = Ok a1).
      { apply mapM_total. intros [a o] Hin. apply In_nth_error in Hin. destruct Hin as (j & E).
        apply nth_error_combine in E. destruct E as [E1 E2].
        assert (j < length aggs) by (apply nth_error_Some; congruence).
        destruct (nth_error aggs' j) as [y|] eqn:Ey; [|apply nth_error_None in Ey; lia].
        specialize (H j a y E1 Ey). unfold get in H. rewrite E2 in H. cbn [bind] in H. apply bind_Ok in H.
        destruct H as (x & Hx & _). now exists x. }
      destruct T as (a1 & Z). exists a1. split; [exact Z|]. apply zipM_Ok in Z; [|congruence]. destruct Z as [L1 Z].
      apply IH; [exact HF'|congruence|]. split; [exact L'|]. intros j x y Ex Ey.
      assert (j < length aggs) by (rewrite <- L1; apply nth_error_Some; congruence).
      destruct (nth_error outs j) as [o|] eqn:Eo; [|apply nth_error_None in Eo; lia].
      destruct (nth_error aggs j) as [a|] eqn:Ea; [|apply nth_error_None in Ea; lia].
      specialize (H j a y Ea Ey). unfold get in H. rewrite Eo in H. cbn [bind] in H. rewrite (Z j a o x Ea Eo Ex) in H. exact H.
Qed.

Lemma nth_error_repeat' {A} (a : A) n j x : nth_error (repeat a n) j = Some x -> x = a.
Proof. intro E. apply nth_error_In in E. now apply repeat_spec in E. Qed.

Lemma fold_all_Ok {A O} (u : A -> O -> res A) (init : res A) n outss aggs' :
  Forall (fun outs => length outs = n) outss ->
  (let* aggs := mapM (fun _ => init) (range 0 n) in foldM (zipM u) outss aggs) = Ok aggs' <->
  fold_all n init u outss = Ok aggs'.
Proof.
  intro HF. unfold fold_all. rewrite bind_Ok, mapM_range_Ok. split.
  - intros (aggs & M & H). apply mapM_range_Ok in M. destruct M as [L M]. apply (transpose u n) in H; [|exact HF|exact L].
    destruct H as [L' H]. split; [exact L'|]. intros j y E. assert (j < n) by (rewrite <- L'; apply nth_error_Some; congruence).
    destruct (nth_error aggs j) as [a|] eqn:Ea; [|apply nth_error_None in Ea; lia].
    unfold fold_outputs. rewrite (M j a Ea). cbn [bind]. exact (H j a y Ea E).
  - intros [L' H]. destruct n as [|n].
    + exists []. split; [reflexivity|]. apply (transpose u 0); [exact HF|reflexivity|]. split; [exact L'|]. intros [|j] a y E; discriminate E.
    + assert (I : exists a, init = Ok a).
      { destruct aggs' as [|y l]; [discriminate L'|]. specialize (H 0 y eq_refl). apply bind_Ok in H. destruct H as (a & E & _). now exists a. }
      destruct I as (a & ->). exists (repeat a (S n)). split.
      * apply mapM_range_Ok. split; [apply repeat_length|]. intros j y E. apply nth_error_repeat' in E. now subst.
      * apply (transpose u (S n)); [exact HF|apply repeat_length|]. split; [exact L'|].
        intros j x y Ex Ey. apply nth_error_repeat' in Ex. subst x. exact (H j y Ey).
Qed.

(** * run_daf *)
Lemma run_daf_Ok (daf : Daf) ctx ap ms r : run_daf daf ctx ap ms = Ok r <->
  exists outs aggs, mapM (daf_outputs daf ctx ap) ms = Ok outs /\
    fold_all (df_SHARES daf) (df_agg_init daf ap) (df_agg_update daf ap) outs = Ok aggs /\
    df_unshard daf ap aggs (length ms) = Ok r.
Proof.
  assert (HL : forall rep outs, daf_outputs daf ctx ap rep = Ok outs -> length outs = df_SHARES daf).
  { intros [[m n] rd] outs H. cbn in H. apply bind_Ok in H. destruct H as ([ps iss] & _ & H).
    apply mapM_Ok_length in H. now rewrite length_range, Nat.sub_0_r in H. }
  assert (HF : forall aggs rep aggs', length aggs = df_SHARES daf ->
    run_daf_report daf ctx ap aggs rep = Ok aggs' <-> exists outs, daf_outputs daf ctx ap rep = Ok outs /\ zipM (df_agg_update daf ap) aggs outs = Ok aggs').
  { intros aggs [[m n] rd] aggs' L. unfold run_daf_report, daf_outputs. rewrite bind_Ok. split.
    - intros ([ps iss] & E & H). rewrite E. cbn [bind]. apply column_range; [exact L|]. rewrite <- H. apply foldM_ext. intros b j _.
      now rewrite bind_assoc.
    - intros (outs & H & Z). apply bind_Ok in H. destruct H as ([ps iss] & E & M). exists (ps, iss). split; [exact E|].
      transitivity (for_range 0 (df_SHARES daf) aggs (fun aggs j =>
        let* o := (let* is := get iss j in df_prep daf ctx j ap n ps is) in
        let* a := get aggs j in let* a := df_agg_update daf ap a o in set aggs j a)).
      + apply foldM_ext. intros b j _. now rewrite bind_assoc.
      + apply column_range; [exact L|]. now exists outs. }
  assert (HA : forall outs, mapM (daf_outputs daf ctx ap) ms = Ok outs -> Forall (fun o => length o = df_SHARES daf) outs).
  { intros outs M. apply Forall_forall. intros o Ho. apply In_nth_error in Ho. destruct Ho as (j & E).
    pose proof (mapM_Ok_length _ _ _ M) as L. apply mapM_nth_Ok in M. destruct M as [_ M].
    destruct (nth_error ms j) as [rep|] eqn:Er; [exact (HL rep o (M j rep o Er E))|].
    apply nth_error_None in Er. assert (j < length outs) by (apply nth_error_Some; congruence). lia. }
  unfold run_daf. rewrite bind_Ok. split.
  - intros (a0 & E0 & H). apply bind_Ok in H. destruct H as (aggs & E & U).
    pose proof (mapM_Ok_length _ _ _ E0) as L0. rewrite length_range, Nat.sub_0_r in L0.
    apply (reports_Ok (df_SHARES daf) _ _ _ HL HF) in E; [|exact L0]. destruct E as (outs & M & E).
    exists outs, aggs. split; [exact M|]. split; [|exact U]. apply fold_all_Ok; [exact (HA outs M)|]. now rewrite E0.
  - intros (outs & aggs & M & E & U). apply fold_all_Ok in E; [|exact (HA outs M)]. apply bind_Ok in E. destruct E as (a0 & E0 & E).
    exists a0. split; [exact E0|]. rewrite bind_Ok. exists aggs. split; [|exact U].
    pose proof (mapM_Ok_length _ _ _ E0) as L0. rewrite length_range, Nat.sub_0_r in L0.
    apply (reports_Ok (df_SHARES daf) _ _ _ HL HF); [exact L0|]. now exists outs.
Qed.

(** * run_vdaf *)
Section RV.
Context (vdaf : Vdaf) (ctx : bytes) (ap : vd_AggParam vdaf).
Notation State := (vd_VerifyState vdaf).
Notation VShare := (vd_VerifierShare vdaf).
Notation Out := (vd_OutShare vdaf).
Notation N := (vd_SHARES vdaf).
Notation u := (vd_agg_update vdaf ap).

Lemma append_loop {A B} (f : nat -> res (A * B)) : forall l xs ys,
  foldM (fun '(xs, ys) j => let* (x, y) := f j in Ok (xs ++ [x], ys ++ [y])) l (xs, ys) =
  let* r := mapM f l in Ok (xs ++ map fst r, ys ++ map snd r).
Proof.
  induction l as [|j l IH]; intros xs ys; cbn [foldM mapM].
  - cbn [bind map]. now rewrite !app_nil_r.
  - rewrite !bind_assoc. apply bind_ext. intros [x y] _. cbn [bind]. rewrite IH, bind_assoc. apply bind_ext. intros r _.
    cbn [bind map fst snd]. now rewrite <- !app_assoc.
Qed.

Lemma run_verify_init_eq key nonce ps iss : run_verify_init vdaf key ctx ap nonce ps iss =
  let* r := mapM (fun j => let* is := get iss j in vd_verify_init vdaf key ctx j ap nonce ps is) (range 0 N) in
  Ok (map fst r, map snd r).
Proof.
  unfold run_verify_init, for_range.
  refine (eq_trans _ (append_loop (fun j => let* is := get iss j in vd_verify_init vdaf key ctx j ap nonce ps is) (range 0 N) [] [])).
  apply foldM_ext. intros [xs ys] j _. now rewrite bind_assoc.
Qed.

Definition next_state msg (st : State) : res (State * VShare) :=
  let* r := vd_verify_next vdaf ctx st msg in match r with inl x => Ok x | inr _ => Raise AssertionError end.
Definition last_state msg (st : State) : res Out :=
  let* r := vd_verify_next vdaf ctx st msg in match r with inr o => Ok o | inl _ => Raise AssertionError end.

Lemma round_loop msg : forall rest don outs k, length don = k ->
  foldM (fun '(sts, outs) j =>
      let* state := get sts j in
      let* out := vd_verify_next vdaf ctx state msg in
      match out with
      | inl (state, sh) => let* sts := set sts j state in Ok (sts, outs ++ [sh])
      | inr _ => Raise AssertionError
      end) (seq k (length rest)) (don ++ rest, outs) =
  let* r := mapM (next_state msg) rest in Ok (don ++ map fst r, outs ++ map snd r).
Proof.
  induction rest as [|st rest IH]; intros don outs k L; cbn [length seq foldM mapM].
  - cbn [bind map]. now rewrite !app_nil_r.
  - subst k. rewrite get_mid. cbn [bind]. unfold next_state at 1. rewrite !bind_assoc. apply bind_ext. intros [[st' sh]|o] _; [|reflexivity].
    cbn [bind]. rewrite set_mid. cbn [bind].
    change (don ++ st' :: rest) with (don ++ [st'] ++ rest). rewrite app_assoc.
    rewrite (IH (don ++ [st']) (outs ++ [sh]) (S (length don))) by (rewrite app_length; cbn; lia).
    rewrite bind_assoc. apply bind_ext. intros r _. cbn [bind map fst snd]. now rewrite <- !app_assoc.
Qed.

Lemma finish_Ok sts shs aggs aggs' : length sts = N -> length aggs = N ->
  run_finish vdaf ctx ap sts shs aggs = Ok aggs' <->
  exists outs, verify_rounds vdaf ctx ap 0 sts shs = Ok outs /\ zipM u aggs outs = Ok aggs'.
Proof.
  intros Ls La. unfold run_finish. cbn [verify_rounds].
  assert (E : forall msg, for_range 0 N aggs (fun aggs j =>
      let* state := get sts j in
      let* out := vd_verify_next vdaf ctx state msg in
      match out with
      | inl _ => Raise AssertionError
      | inr o => let* a := get aggs j in let* a := u a o in set aggs j a
      end) =
    for_range 0 N aggs (fun aggs j => let* o := (let* st := get sts j in last_state msg st) in
      let* a := get aggs j in let* a := u a o in set aggs j a)).
  { intro msg. apply foldM_ext. intros b j _. rewrite bind_assoc. apply bind_ext. intros st _. unfold last_state.
    rewrite bind_assoc. apply bind_ext. intros [x|o] _; reflexivity. }
  assert (M : forall msg, mapM (fun j => let* st := get sts j in last_state msg st) (range 0 N) = mapM (last_state msg) sts).
  { intro msg. rewrite <- Ls. unfold range. rewrite Nat.sub_0_r. clear.
    assert (G : forall rest don, mapM (fun j => let* st := get (don ++ rest) j in last_state msg st) (seq (length don) (length rest)) = mapM (last_state msg) rest).
    { induction rest as [|st rest IH]; intro don; [reflexivity|]. cbn [length seq mapM]. rewrite get_mid. cbn [bind].
      apply bind_ext. intros o _. change (don ++ st :: rest) with (don ++ [st] ++ rest). rewrite app_assoc.
      replace (S (length don)) with (length (don ++ [st])) by (rewrite app_length; cbn; lia). now rewrite IH. }
    exact (G sts []). }
  rewrite bind_Ok. split.
  - intros (msg & Em & H). rewrite Em. cbn [bind]. rewrite E in H. apply column_range in H; [|exact La].
    destruct H as (outs & H & Z). rewrite M in H. now exists outs.
  - intros (outs & H & Z). apply bind_Ok in H. destruct H as (msg & Em & H). exists msg. split; [exact Em|].
    rewrite E. apply column_range; [exact La|]. exists outs. split; [|exact Z]. rewrite M. exact H.
Qed.

Lemma rounds_Ok : forall k a sts shs aggs aggs', length sts = N -> length aggs = N ->
  (let* (sts, shs) := foldM (fun '(sts, shs) _ =>
      let* msg := vd_verifier_shares_to_message vdaf ctx ap shs in
      for_range 0 N (sts, []) (fun '(sts, outs) j =>
        let* state := get sts j in
        let* out := vd_verify_next vdaf ctx state msg in
        match out with
        | inl (state, sh) => let* sts := set sts j state in Ok (sts, outs ++ [sh])
        | inr _ => Raise AssertionError
        end)) (seq a k) (sts, shs) in
   run_finish vdaf ctx ap sts shs aggs) = Ok aggs' <->
  exists outs, verify_rounds vdaf ctx ap k sts shs = Ok outs /\ zipM u aggs outs = Ok aggs'.
Proof.
  induction k as [|k IH]; intros a sts shs aggs aggs' Ls La.
  - cbn [seq foldM bind]. now apply finish_Ok.
  - cbn [seq foldM verify_rounds]. rewrite !bind_assoc.
    destruct (vd_verifier_shares_to_message vdaf ctx ap shs) as [msg|e]; cbn [bind]; [|split; [easy|]; intros (o & E & _); discriminate E].
    unfold for_range, range. rewrite Nat.sub_0_r.
    pose proof (round_loop msg sts [] [] 0 eq_refl) as RL. rewrite Ls in RL. cbn [app] in RL. rewrite RL. clear RL.
    change (mapM (fun st => let* r := vd_verify_next vdaf ctx st msg in match r with inl x => Ok x | inr _ => Raise AssertionError end) sts)
      with (mapM (next_state msg) sts).
    destruct (mapM (next_state msg) sts) as [nx|e] eqn:E; cbn [bind app]; [|split; [easy|]; intros (o & E' & _); discriminate E'].
    specialize (IH (S a) (map fst nx) (map snd nx) aggs aggs').
    unfold for_range, range in IH. rewrite Nat.sub_0_r in IH. apply IH; [|exact La].
    rewrite map_length. rewrite (mapM_Ok_length _ _ _ E). exact Ls.
Qed.

Lemma verify_rounds_length : forall k sts shs outs, verify_rounds vdaf ctx ap k sts shs = Ok outs -> length outs = length sts.
Proof.
  induction k as [|k IH]; intros sts shs outs; cbn [verify_rounds]; intro H; apply bind_Ok in H; destruct H as (msg & _ & H).
  - exact (mapM_Ok_length _ _ _ H).
  - apply bind_Ok in H. destruct H as (nx & E & H). apply IH in H. rewrite map_length in H.
    now rewrite (mapM_Ok_length _ _ _ E) in H.
Qed.

Lemma report_Ok key aggs rep aggs' : length aggs = N ->
  run_report vdaf key ctx ap aggs rep = Ok aggs' <->
  exists outs, vdaf_outputs vdaf ctx ap key rep = Ok outs /\ zipM u aggs outs = Ok aggs'.
Proof.
  destruct rep as [[m n] rd]. intro L. unfold run_report, vdaf_outputs, verify_report.
  destruct (vd_shard vdaf ctx m n rd) as [[ps iss]|e]; cbn [bind]; [|split; [easy|]; intros (o & E & _); discriminate E].
  rewrite run_verify_init_eq, bind_assoc.
  destruct (mapM (fun j => let* is := get iss j in vd_verify_init vdaf key ctx j ap n ps is) (range 0 N)) as [r|e] eqn:E; cbn [bind];
    [|split; [easy|]; intros (o & E' & _); discriminate E'].
  unfold run_rounds, for_range at 1, range at 1. rewrite Nat.sub_0_r.
  apply rounds_Ok; [|exact L]. rewrite map_length, (mapM_Ok_length _ _ _ E), length_range. lia.
Qed.

Lemma vdaf_outputs_length key rep outs : vdaf_outputs vdaf ctx ap key rep = Ok outs -> length outs = N.
Proof.
  destruct rep as [[m n] rd]. intro H. apply bind_Ok in H. destruct H as ([ps iss] & _ & H).
  apply bind_Ok in H. destruct H as (r & E & H). apply verify_rounds_length in H.
  rewrite map_length, (mapM_Ok_length _ _ _ E), length_range in H. lia.
Qed.

Lemma run_vdaf_Ok key ms r : run_vdaf vdaf key ap ctx ms = Ok r <->
  length key = vd_VERIFY_KEY_SIZE vdaf /\
  exists outs aggs, mapM (vdaf_outputs vdaf ctx ap key) ms = Ok outs /\
    fold_all N (vd_agg_init vdaf ap) u outs = Ok aggs /\ vd_unshard vdaf ap aggs (length ms) = Ok r.
Proof.
  pose proof (vdaf_outputs_length key) as HL.
  assert (HF := fun aggs rep aggs' => report_Ok key aggs rep aggs').
  assert (HA : forall outs, mapM (vdaf_outputs vdaf ctx ap key) ms = Ok outs -> Forall (fun o => length o = N) outs).
  { intros outs M. apply Forall_forall. intros o Ho. apply In_nth_error in Ho. destruct Ho as (j & E).
    pose proof (mapM_Ok_length _ _ _ M) as L. apply mapM_nth_Ok in M. destruct M as [_ M].
    destruct (nth_error ms j) as [rep|] eqn:Er; [exact (HL rep o (M j rep o Er E))|].
    apply nth_error_None in Er. assert (j < length outs) by (apply nth_error_Some; congruence). lia. }
  unfold run_vdaf. rewrite bind_Ok. split.
  - intros (t & C & H). apply check_Ok in C. apply Nat.eqb_eq in C. split; [exact C|].
    apply bind_Ok in H. destruct H as (a0 & E0 & H). apply bind_Ok in H. destruct H as (aggs & E & U).
    pose proof (mapM_Ok_length _ _ _ E0) as L0. rewrite length_range, Nat.sub_0_r in L0.
    apply (reports_Ok N _ _ _ HL HF) in E; [|exact L0]. destruct E as (outs & M & E).
    exists outs, aggs. split; [exact M|]. split; [|exact U]. apply fold_all_Ok; [exact (HA outs M)|]. now rewrite E0.
  - intros (C & outs & aggs & M & E & U). exists tt. split; [apply check_Ok; now apply Nat.eqb_eq|].
    apply fold_all_Ok in E; [|exact (HA outs M)]. apply bind_Ok in E. destruct E as (a0 & E0 & E).
    rewrite bind_Ok. exists a0. split; [exact E0|]. rewrite bind_Ok. exists aggs. split; [|exact U].
    pose proof (mapM_Ok_length _ _ _ E0) as L0. rewrite length_range, Nat.sub_0_r in L0.
    apply (reports_Ok N _ _ _ HL HF); [exact L0|]. now exists outs.
Qed.

(** With two Aggregators this is the execution that ping-pong is compared with. *)
Lemma broadcast_rounds : forall k st0 s0 st1 s1 o0 o1,
  broadcast vdaf ctx ap k st0 s0 st1 s1 = Ok (o0, o1) <-> verify_rounds vdaf ctx ap k [st0; st1] [s0; s1] = Ok [o0; o1].
Proof.
  induction k as [|k IH]; intros; cbn [broadcast verify_rounds]; 
    destruct (vd_verifier_shares_to_message vdaf ctx ap [s0; s1]) as [msg|e]; cbn [bind]; try easy; cbn [mapM];
    destruct (vd_verify_next vdaf ctx st0 msg) as [[[st0' s0']|x0]|e0]; cbn [bind]; try easy;
    destruct (vd_verify_next vdaf ctx st1 msg) as [[[st1' s1']|x1]|e1]; cbn [bind]; try easy.
  - split; intros [= <- <-]; reflexivity.
  - apply IH.
Qed.

Lemma broadcast_report key nonce ps is0 is1 o0 o1 : N = 2 ->
  broadcast_run vdaf ctx ap key nonce ps is0 is1 = Ok (o0, o1) <-> verify_report vdaf ctx ap key nonce ps [is0; is1] = Ok [o0; o1].
Proof.
  intro E. unfold broadcast_run, verify_report. rewrite E. change (range 0 2) with [0; 1]. cbn [mapM].
  change (get [is0; is1] 0) with (Ok is0). change (get [is0; is1] 1) with (Ok is1). cbn [bind].
  destruct (vd_verify_init vdaf key ctx 0 ap nonce ps is0) as [[st0 s0]|e0]; cbn [bind]; [|easy].
  destruct (vd_verify_init vdaf key ctx 1 ap nonce ps is1) as [[st1 s1]|e1]; cbn [bind]; [|easy].
  apply broadcast_rounds.
Qed.
End RV.
