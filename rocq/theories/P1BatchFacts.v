(** What one Aggregator of Poplar1 and the Collector see of a batch: proofs. *)
From Verif Require Import P1BatchSpec BatchFacts Prio3ViewFacts IdpfViewSpec IdpfViewFacts IdpfFacts PostFacts Poplar1ViewSpec Poplar1ViewFacts Poplar1Facts Poplar1Run Poplar1Inst.
From Verif Require Import IdpfSpec Poplar1Spec Poplar1 Field Spec FieldFacts VecFacts BaseFacts CommonFacts Vdaf RunSpec RunFacts CollectSpec.
From Verif Require Props_View.
From Coq Require Import Lia.
Open Scope nat_scope.

Section G.
Context (p : Poplar1) {P : FieldClass}
  (inj : list (F P) -> FieldVec (id_field_inner (p1_idpf p)) (id_field_leaf (p1_idpf p))) (V : View p P inj).
Add Ring FringPB : (@F_ring P).
Notation F := (F P).

Lemma fold_inj n ap : forall (l : list (list F)) a, length a = n -> Forall (fun x => length x = n) l ->
  foldM (p1_agg_update p ap) (map inj l) (inj a) = Ok (inj (zip_with fadd a (vsum n l))).
Proof.
  induction l as [|x l IH]; intros a La H; cbn [map foldM].
  - rewrite vsum_nil, zip_fadd_0_r by lia. reflexivity.
  - inversion H as [|? ? Hx H']; subst. unfold p1_agg_update at 1. rewrite (vw_add _ _ _ V), vec_add_ok by congruence. cbn [bind].
    rewrite IH; [|now apply zip_length_eq|easy]. rewrite vsum_cons by easy. now rewrite zip_fadd_assoc.
Qed.

Lemma indicator_length level prefixes m : length (indicator level prefixes m) = length prefixes.
Proof. apply map_length. Qed.

Lemma indicator_sum {A} (m : A -> list bool) level prefixes : Forall (fun x => length x = S level) prefixes -> forall rs : list A,
  vsum (length prefixes) (map (fun r => map fof (indicator level prefixes (m r))) rs)
  = map (fun x => fof (Z.of_nat (count_prefix x (map m rs))) : F) prefixes.
Proof.
  intros HL. induction rs as [|r rs IH]; cbn [map].
  - rewrite vsum_nil. apply (nth_ext' f0); [now rewrite repeat_length, map_length|]. intros i Hi. rewrite repeat_length in Hi.
    rewrite nth_repeat', (nth_map' _ _ _ []) by easy. destruct (i <? length prefixes); now rewrite ?fof_0.
  - rewrite vsum_cons by (rewrite map_length; apply indicator_length). rewrite IH.
    assert (LZ : length (zip_with fadd (map (@fof P) (indicator level prefixes (m r))) (map (fun x => fof (Z.of_nat (count_prefix x (map m rs)))) prefixes)) = length prefixes)
      by (apply zip_length_eq; rewrite map_length; [apply indicator_length|reflexivity]).
    apply (nth_ext' f0); [rewrite LZ; now rewrite map_length|].
    intros i Hi. rewrite LZ in Hi.
    rewrite (nth_zip_with _ _ _ _ f0 f0) by (rewrite ?map_length, ?indicator_length; lia).
    rewrite (nth_map' fof _ _ 0%Z) by (rewrite indicator_length; lia). rewrite !(nth_map' (fun x => fof _) _ _ []) by easy.
    unfold indicator. rewrite (nth_map' _ _ _ []) by easy.
    assert (EL : length (nth i prefixes []) = S level) by (rewrite Forall_forall in HL; apply HL, nth_In, Hi).
    unfold count_prefix. cbn [filter]. rewrite EL.
    destruct (list_eq_dec Bool.bool_dec (nth i prefixes []) (firstn (S level) (m r))); cbn [length]; rewrite <- fof_add; f_equal; lia.
Qed.

Lemma column_gen {A} (m : A -> list bool) (own : A -> list F) level prefixes ap (rs : list A) :
  Forall (fun x => length x = S level) prefixes -> (forall r, In r rs -> length (own r) = length prefixes) ->
  foldM (p1_agg_update p ap) (map (fun r => inj (zip_with fsub (map fof (indicator level prefixes (m r))) (own r))) rs) (inj (fzeros (length prefixes)))
  = Ok (inj (zip_with fsub (map (fun x => fof (Z.of_nat (count_prefix x (map m rs)))) prefixes) (vsum (length prefixes) (map own rs)))).
Proof.
  intros HL HO. rewrite <- (map_map (fun r => zip_with fsub (map fof (indicator level prefixes (m r))) (own r)) inj).
  assert (LI : forall r, length (map (@fof P) (indicator level prefixes (m r))) = length prefixes) by (intros; rewrite map_length; apply indicator_length).
  rewrite (fold_inj (length prefixes)); [|apply repeat_length|].
  2:{ apply Forall_forall. intros x Hx. apply in_map_iff in Hx. destruct Hx as (r & <- & Hr). apply zip_length_eq; [apply LI|now apply HO]. }
  unfold fzeros. rewrite zip_fadd_0_l by (rewrite vsum_length; lia). rewrite vsum_fsub; [|intros; apply LI|exact HO].
  now rewrite indicator_sum.
Qed.
End G.

Section B.
Context (p : Poplar1) (lim : Z) (HO : Poplar1Ok p lim) (HR : ~ idpf_ran_out (p1_idpf p)).
Notation idpf := (p1_idpf p).
Notation Pi := (id_field_inner (p1_idpf p)).
Notation Pl := (id_field_leaf (p1_idpf p)).
Notation FVec := (FieldVec Pi Pl).
Notation BITS := (id_BITS (p1_idpf p)).
Notation View1 := (list (CorrectionWord idpf) * list (list FVec))%type.
Context (j : bool) (ctx : bytes) (Hc : ctx_ok ctx).
Notation view1 r c := (aggregator_view p j (up_m p r) (up_ks p r) (up_kl p r) ctx (up_nonce p r) (up_key p r) (up_queries p r) (fst c) (snd c)).

Definition evl (r : Uploaded p) (ps : list (CorrectionWord idpf)) (ap : nat * list (list bool)) : list FVec :=
  getl (idpf_eval idpf (Nat.b2n j) ps (up_key p r) (Z.of_nat (fst ap)) (snd ap) ctx (up_nonce p r)).
Definition od (P : FieldClass) (r : Uploaded p) (w : View1) (ap : nat * list (list bool)) : list (F P) :=
  map (fun v => nth 0 (fv_as P v) f0) (evl r (fst w) ap).
Definition oo (ap : nat * list (list bool)) (rw : Uploaded p * View1) : FVec :=
  if fst ap <? BITS - 1 then Inner (zip_with fsub (map fof (indicator (fst ap) (snd ap) (up_m p (fst rw)))) (od Pi (fst rw) (snd rw) ap))
  else Leaf (zip_with fsub (map fof (indicator (fst ap) (snd ap) (up_m p (fst rw)))) (od Pl (fst rw) (snd rw) ap)).

Lemma share_words r aps masks ps : up_wf p aps r -> words_wf idpf masks ->
  ideal_share idpf (up_m p r) (auth_inner p (up_ks p r)) (auth_leaf p (up_kl p r)) ctx (up_nonce p r) j (up_key p r) masks = Ok ps ->
  words_wf idpf ps.
Proof.
  intros (Hm & Hks & Hn & Hk & _ & _) Hw E. destruct (pk_idpf _ _ HO) as [lim' HI].
  assert (HG : gen_args_ok idpf (up_m p r) (auth_inner p (up_ks p r)) (auth_leaf p (up_kl p r)) ctx (up_nonce p r) (zeros (id_RAND_SIZE idpf))).
  { unfold auth_inner, auth_leaf. constructor; try easy.
    - now rewrite map_length.
    - apply Forall_forall. intros x Hx. apply in_map_iff in Hx. destruct Hx as (k & <- & _). now rewrite (pk_value _ _ HO).
    - now rewrite (pk_value _ _ HO).
    - now rewrite (pk_nonce _ _ HO).
    - apply repeat_length. }
  destruct (Props_View.C73_uniform idpf lim' HI _ _ _ ctx _ _ HG j (up_key p r) Hk) as [T _]. specialize (T masks Hw). now rewrite E in T.
Qed.

Lemma outs_part aps r c (w : View1) : up_wf p aps r -> up_coins_wf p r c -> view1 r c = Ok w ->
  mapM (other_out p j ctx r (fst w)) (up_queries p r) = Ok (map (fun ap => oo ap (r, w)) aps) /\
  Forall (fun ap => length (evl r (fst w) ap) = length (snd ap)) aps /\ Forall (fun ap => Forall (fun x => length x = S (fst ap)) (snd ap)) aps.
Proof.
  intros W [Hw HC] E. pose proof W as (Hm & Hks & Hn & Hk & HQ & EA). unfold aggregator_view in E. apply bind_Ok in E. destruct E as (ps & ES & E).
  apply bind_Ok in E. destruct E as (msgs & EM & E). injection E as <-. cbn [fst].
  pose proof (words_public p ps (share_words r aps (fst c) ps W Hw ES)) as Hps.
  assert (HE : Forall (fun q => exists own, idpf_eval idpf (Nat.b2n j) ps (up_key p r) (Z.of_nat (q_level p q)) (q_prefixes p q) ctx (up_nonce p r) = Ok own
     /\ length own = length (q_prefixes p q)) (up_queries p r)).
  { clear - EM HC Hps Hk Hc HO. revert msgs EM. induction HC as [|q c0 qs cs0 H1 H2 IH]; intros msgs EM; [constructor|].
    cbn [combine mapM] in EM. apply bind_Ok in EM. destruct EM as (m1 & E1 & EM). apply bind_Ok in EM. destruct EM as (m2 & E2 & EM). constructor; [|now apply (IH m2)].
    unfold query_messages in E1. apply bind_Ok in E1. destruct E1 as (own & Eo & _). exists own. split; [exact Eo|].
    now destruct (eval_Ok_level p lim HO _ _ _ _ _ _ _ _ Hc Hk Hps Eo). }
  rewrite <- EA. clear EM EA ES Hw HC. clear W. induction (up_queries p r) as [|q qs IH]; [split; [reflexivity|split; constructor]|].
  inversion HE as [|? ? (own & Eo & Lo) HE']; subst. inversion HQ as [|? ? Q1 Q2]; subst. destruct (IH Q2 HE') as (A & B & C). cbn [mapM map]. split; [|split].
  - unfold other_out at 1. rewrite Eo. cbn [bind]. rewrite A. cbn [bind]. f_equal. f_equal.
    unfold oo, query_param, od, evl, other_in. cbn [fst snd]. rewrite Eo. cbn [getl]. reflexivity.
  - constructor; [|exact B]. unfold evl, query_param. cbn [fst snd]. rewrite Eo. exact Lo.
  - constructor; [|exact C]. apply Q1.
Qed.

Definition agg1 (rws : list (Uploaded p * View1)) (ap : nat * list (list bool)) : FVec :=
  if fst ap <? BITS - 1 then
    Inner (zip_with fsub (map (fun x => fof (Z.of_nat (count_prefix x (map (fun rw => up_m p (fst rw)) rws)))) (snd ap)) (vsum (length (snd ap)) (map (fun rw => od Pi (fst rw) (snd rw) ap) rws)))
  else
    Leaf (zip_with fsub (map (fun x => fof (Z.of_nat (count_prefix x (map (fun rw => up_m p (fst rw)) rws)))) (snd ap)) (vsum (length (snd ap)) (map (fun rw => od Pl (fst rw) (snd rw) ap) rws))).

Lemma agg_fold (rws : list (Uploaded p * View1)) ap : Forall (fun x => length x = S (fst ap)) (snd ap) ->
  (forall rw, In rw rws -> length (evl (fst rw) (fst (snd rw)) ap) = length (snd ap)) ->
  (let* init := p1_agg_init p (Z.of_nat (fst ap), snd ap) in foldM (p1_agg_update p (Z.of_nat (fst ap), snd ap)) (map (oo ap) rws) init) = Ok (agg1 rws ap).
Proof.
  intros HL HE. unfold p1_agg_init. rewrite (level_is_inner_nat p (fst ap)). unfold oo, agg1. destruct (fst ap <? BITS - 1); cbn [bind].
  - apply (column_gen p Inner (view_inner p lim HO) (fun rw => up_m p (fst rw)) (fun rw => od Pi (fst rw) (snd rw) ap)); [exact HL|].
    intros rw Hr. unfold od. rewrite map_length. now apply HE.
  - apply (column_gen p Leaf (view_leaf p lim HO) (fun rw => up_m p (fst rw)) (fun rw => od Pl (fst rw) (snd rw) ap)); [exact HL|].
    intros rw Hr. unfold od. rewrite map_length. now apply HE.
Qed.

Lemma batch_is1 aps rs cs (views : list View1) : Forall (up_wf p aps) rs -> Forall2 (up_coins_wf p) rs cs ->
  mapM (fun '(r, c) => view1 r c) (combine rs cs) = Ok views ->
  length views = length rs /\ (rs <> [] -> Forall (fun ap => Forall (fun x => length x = S (fst ap)) (snd ap)) aps) /\
  (Forall (fun ap => Forall (fun x => length x = S (fst ap)) (snd ap)) aps ->
   p1_batch_view p j ctx aps rs cs = Ok (views, map (agg1 (combine rs views)) aps)).
Proof.
  intros HW HC EV.
  assert (HP : length views = length rs /\ (rs <> [] -> Forall (fun ap => Forall (fun x => length x = S (fst ap)) (snd ap)) aps) /\
    mapM (fun '(r, w) => mapM (other_out p j ctx r (fst w)) (up_queries p r)) (combine rs views) = Ok (map (fun rw => map (fun ap => oo ap rw) aps) (combine rs views)) /\
    forall rw, In rw (combine rs views) -> Forall (fun ap => length (evl (fst rw) (fst (snd rw)) ap) = length (snd ap)) aps).
  { revert views EV. induction HC as [|r c rs cs H1 H2 IH]; intros views EV.
    - injection EV as <-. split; [reflexivity|]. split; [congruence|]. split; [reflexivity|]. intros rw [].
    - cbn [combine mapM] in EV. apply bind_Ok in EV. destruct EV as (w & Ew & EV). apply bind_Ok in EV. destruct EV as (ws & Ews & EV). injection EV as <-.
      destruct (outs_part aps r c w (Forall_inv HW) H1 Ew) as (A & B & C). destruct (IH (Forall_inv_tail HW) ws Ews) as (L & _ & D & E).
      split; [cbn; now rewrite L|]. split; [intros _; exact C|]. split.
      + cbn [combine mapM map]. rewrite A. cbn [bind]. rewrite D. reflexivity.
      + intros rw [<-|Hi]; [exact B|now apply E]. }
  destruct HP as (L & NE & EO & HL). split; [exact L|]. split; [exact NE|]. intros HA. unfold p1_batch_view. rewrite EV. cbn [bind]. rewrite EO. cbn [bind].
  set (rws := combine rs views) in *.
  assert (X : mapM (fun '(t, (level, prefixes)) =>
    let* init := p1_agg_init p (Z.of_nat level, prefixes) in
    foldM (fun agg o => let* o := get o t in p1_agg_update p (Z.of_nat level, prefixes) agg o) (map (fun rw => map (fun ap => oo ap rw) aps) rws) init)
    (combine (seq 0 (length aps)) aps) = Ok (map (agg1 rws) aps)).
  { apply (mapM_nth _ _ _ (0, (0, [])) (Inner [])); [rewrite combine_length, seq_length, map_length; lia|].
    intros t Ht. rewrite combine_length, seq_length, Nat.min_id in Ht. rewrite combine_nth by apply seq_length. rewrite seq_nth by exact Ht. cbn [Nat.add].
    rewrite (nth_map' _ _ _ (0, [])) by exact Ht. set (ap := nth t aps (0, [])). assert (Hin : In ap aps) by now apply nth_In.
    rewrite <- (agg_fold rws ap); [|rewrite Forall_forall in HA; now apply HA|intros rw Hr; specialize (HL rw Hr); rewrite Forall_forall in HL; now apply HL].
    destruct ap as [level prefixes] eqn:Eap. cbn [fst snd]. unfold p1_agg_init. rewrite (level_is_inner_nat p level).
    assert (G : forall l a, foldM (fun agg o => let* o := get o t in p1_agg_update p (Z.of_nat level, prefixes) agg o) (map (fun rw => map (fun ap => oo ap rw) aps) l) a
      = foldM (p1_agg_update p (Z.of_nat level, prefixes)) (map (oo (level, prefixes)) l) a).
    { induction l as [|rw l IH]; intros a; [reflexivity|]. cbn [map foldM]. rewrite (get_nth _ t (Inner [])) by (rewrite map_length; exact Ht). cbn [bind].
      rewrite (nth_map' _ _ _ (0, [])) by exact Ht. fold ap. rewrite Eap.
      destruct (p1_agg_update p (Z.of_nat level, prefixes) a (oo (level, prefixes) rw)); [cbn [bind]; apply IH|reflexivity]. }
    destruct (level <? BITS - 1); cbn [bind]; apply G. }
  rewrite X. reflexivity.
Qed.

(** The known data depends only on what the Aggregator has. *)
Lemma od_known P r r' (w : View1) ap : up_known p r = up_known p r' -> od P r w ap = od P r' w ap.
Proof. unfold up_known. intros [= E1 E2 _]. unfold od, evl. now rewrite E1, E2. Qed.

Lemma od_map P rs rs' (ws : list View1) ap : map (up_known p) rs = map (up_known p) rs' ->
  map (fun rw => od P (fst rw) (snd rw) ap) (combine rs ws) = map (fun rw => od P (fst rw) (snd rw) ap) (combine rs' ws).
Proof.
  revert rs' ws. induction rs as [|r rs IH]; intros [|r' rs'] ws E; try discriminate E; [reflexivity|]. destruct ws as [|w ws]; [reflexivity|].
  cbn [map] in E. assert (E1 : up_known p r = up_known p r') by congruence. assert (E2 : map (up_known p) rs = map (up_known p) rs') by congruence.
  cbn [combine map fst snd]. f_equal; [now apply od_known|now apply IH].
Qed.

Lemma ms_combine rs (ws : list View1) : length ws = length rs -> map (fun rw => up_m p (fst rw)) (combine rs ws) = map (up_m p) rs.
Proof.
  revert ws. induction rs as [|r rs IH]; intros [|w ws] L; try discriminate L; [reflexivity|]. cbn [combine map fst]. f_equal. apply IH. cbn in L. lia.
Qed.

Lemma fof_mod_eq (P : FieldClass) (a b : Z) : (a mod MODULUS P)%Z = (b mod MODULUS P)%Z <-> (fof a : F P) = fof b.
Proof. split; intros H; [apply F_eq; exact H|exact (f_equal fint H)]. Qed.

Lemma counts_same aps rs rs' (ws : list View1) : map (up_known p) rs = map (up_known p) rs' -> length ws = length rs ->
  answers p aps (map (up_m p) rs) = answers p aps (map (up_m p) rs') <->
  map (agg1 (combine rs ws)) aps = map (agg1 (combine rs' ws)) aps.
Proof.
  intros EK L. assert (L' : length ws = length rs') by (rewrite L; rewrite <- (map_length (up_known p) rs), EK; apply map_length).
  assert (K : forall ap, (map (fun x => (Z.of_nat (count_prefix x (map (up_m p) rs)) mod level_modulus p (fst ap))%Z) (snd ap)
      = map (fun x => (Z.of_nat (count_prefix x (map (up_m p) rs')) mod level_modulus p (fst ap))%Z) (snd ap)) <->
      agg1 (combine rs ws) ap = agg1 (combine rs' ws) ap).
  { intros [level prefixes]. unfold agg1, level_modulus. cbn [fst snd]. rewrite !ms_combine by easy.
    assert (M : forall P (f g : list bool -> Z) (k : list (F P)) , length k = length prefixes ->
      (map (fun x => (f x mod MODULUS P)%Z) prefixes = map (fun x => (g x mod MODULUS P)%Z) prefixes <->
       zip_with fsub (map (fun x => fof (f x)) prefixes) k = zip_with fsub (map (fun x => fof (g x)) prefixes) k)).
    { intros P f g k Lk. split; intros H.
      - f_equal. clear Lk. induction prefixes as [|x l IH]; [reflexivity|]. cbn [map] in H |- *. assert (H1 : (f x mod MODULUS P = g x mod MODULUS P)%Z) by congruence.
        assert (H2 : map (fun x => (f x mod MODULUS P)%Z) l = map (fun x => (g x mod MODULUS P)%Z) l) by congruence. f_equal; [now apply fof_mod_eq|now apply IH].
      - apply (f_equal (fun z => zip_with fadd z k)) in H. rewrite !zip_fsub_fadd in H by (rewrite map_length; now symmetry). clear Lk.
        induction prefixes as [|x l IH]; [reflexivity|]. cbn [map] in H |- *.
        pose proof (f_equal (fun z => hd f0 z) H) as H1. pose proof (f_equal (@tl _) H) as H2. cbn [hd tl] in H1, H2. f_equal; [now apply fof_mod_eq|now apply IH]. }
    destruct (level <? BITS - 1).
    - rewrite (od_map Pi rs rs' ws (level, prefixes) EK). rewrite (M Pi (fun x => Z.of_nat (count_prefix x (map (up_m p) rs))) (fun x => Z.of_nat (count_prefix x (map (up_m p) rs'))) (vsum (length prefixes) (map (fun rw => od Pi (fst rw) (snd rw) (level, prefixes)) (combine rs' ws))) (vsum_length _ _)).
      split; [intros H; now rewrite H|intros H; now injection H].
    - rewrite (od_map Pl rs rs' ws (level, prefixes) EK). rewrite (M Pl (fun x => Z.of_nat (count_prefix x (map (up_m p) rs))) (fun x => Z.of_nat (count_prefix x (map (up_m p) rs'))) (vsum (length prefixes) (map (fun rw => od Pl (fst rw) (snd rw) (level, prefixes)) (combine rs' ws))) (vsum_length _ _)).
      split; [intros H; now rewrite H|intros H; now injection H]. }
  unfold answers. clear L L'. induction aps as [|[level prefixes] aps IH]; [easy|]. cbn [map]. pose proof (K (level, prefixes)) as K1. cbn [fst snd] in K1. split; intros H.
  - f_equal; [apply K1; congruence|apply IH; congruence].
  - pose proof (f_equal (fun z => hd (Inner []) z) H) as H1. pose proof (f_equal (@tl _) H) as H2. cbn [hd tl] in H1, H2. f_equal; [now apply K1|now apply IH].
Qed.

Lemma views_independent1 aps : forall rs rs', map (up_known p) rs = map (up_known p) rs' ->
  Forall (up_wf p aps) rs -> Forall (up_wf p aps) rs' -> forall cs, Forall2 (up_coins_wf p) rs cs ->
  exists views, mapM (fun '(r, c) => view1 r c) (combine rs cs) = Ok views /\
  exists cs', Forall2 (up_coins_wf p) rs' cs' /\ mapM (fun '(r, c) => view1 r c) (combine rs' cs') = Ok views /\
    forall cs'', Forall2 (up_coins_wf p) rs' cs'' -> mapM (fun '(r, c) => view1 r c) (combine rs' cs'') = Ok views -> cs'' = cs'.
Proof.
  induction rs as [|r rs IH]; intros [|r' rs'] EK W W' cs HC; try discriminate EK.
  - inversion HC; subst. exists []. split; [reflexivity|]. exists []. split; [constructor|]. split; [reflexivity|]. intros cs'' H _. now inversion H.
  - inversion HC as [|? c ? cs0 C1 C2]; subst. cbn [map] in EK.
    assert (E1 : up_known p r = up_known p r') by congruence. assert (E2 : map (up_known p) rs = map (up_known p) rs') by congruence.
    destruct (Forall_inv W) as (Hm & Hks & Hn & Hk & HQ & _). destruct (Forall_inv W') as (Hm' & Hks' & _). destruct C1 as [Cw Cc].
    unfold up_known in E1. assert (En : up_nonce p r = up_nonce p r') by congruence. assert (Ek : up_key p r = up_key p r') by congruence. assert (Eq : up_queries p r = up_queries p r') by congruence.
    destruct (Props_View.C74_view p lim HO HR (up_m p r) (up_m p r') (up_ks p r) (up_ks p r') (up_kl p r) (up_kl p r') ctx (up_nonce p r) Hm Hm' Hks Hks' Hc Hn j (up_key p r) Hk
      (up_queries p r) (fst c) (snd c) HQ Cw Cc) as (w & Ew & masks' & coins' & Mw & Mc & Ew' & U).
    destruct (IH rs' E2 (Forall_inv_tail W) (Forall_inv_tail W') cs0 C2) as (ws & Ews & cs' & HC' & Ews' & U').
    exists (w :: ws). split; [cbn [combine mapM]; rewrite Ew; cbn [bind]; now rewrite Ews|].
    exists ((masks', coins') :: cs'). split; [constructor; [split; cbn [fst snd]; [exact Mw|rewrite <- Eq; exact Mc]|exact HC']|].
    split; [cbn [combine mapM fst snd]; rewrite <- En, <- Ek, <- Eq, Ew'; cbn [bind]; now rewrite Ews'|].
    intros cs'' HC'' E''. inversion HC'' as [|? c1 ? cs1 D1 D2]; subst. cbn [combine mapM] in E''. apply bind_Ok in E''. destruct E'' as (w1 & F1 & E''). apply bind_Ok in E''. destruct E'' as (ws1 & F2 & E'').
    assert (w1 = w) by congruence. assert (ws1 = ws) by congruence. subst w1 ws1. rewrite <- En, <- Ek, <- Eq in F1. destruct D1 as [D1 D1']. rewrite <- Eq in D1'.
    destruct (U (fst c1) (snd c1) D1 D1' F1) as [U1 U2]. f_equal; [|now apply U']. rewrite (surjective_pairing c1). now rewrite U1, U2.
Qed.

Theorem p1_coalition aps rs rs' : Forall (fun ap => Forall (fun x => length x = S (fst ap)) (snd ap)) aps ->
  map (up_known p) rs = map (up_known p) rs' -> Forall (up_wf p aps) rs -> Forall (up_wf p aps) rs' ->
  answers p aps (map (up_m p) rs) = answers p aps (map (up_m p) rs') ->
  forall cs, Forall2 (up_coins_wf p) rs cs ->
  exists seen, p1_batch_view p j ctx aps rs cs = Ok seen /\
  exists cs', Forall2 (up_coins_wf p) rs' cs' /\ p1_batch_view p j ctx aps rs' cs' = Ok seen /\
    forall cs'', Forall2 (up_coins_wf p) rs' cs'' -> p1_batch_view p j ctx aps rs' cs'' = Ok seen -> cs'' = cs'.
Proof.
  intros HA EK W W' EC cs HC. destruct (views_independent1 aps rs rs' EK W W' cs HC) as (views & EV & cs' & HC' & EV' & U).
  destruct (batch_is1 aps rs cs views W HC EV) as (L & _ & E). destruct (batch_is1 aps rs' cs' views W' HC' EV') as (L' & _ & E').
  exists (views, map (agg1 (combine rs views)) aps). split; [exact (E HA)|]. exists cs'. split; [exact HC'|]. split.
  - rewrite (proj1 (counts_same aps rs rs' views EK L) EC). exact (E' HA).
  - intros cs'' HC'' E''. apply U; [exact HC''|]. unfold p1_batch_view in E''. apply bind_Ok in E''. destruct E'' as (ws & E1 & E''). apply bind_Ok in E''. destruct E'' as (os & _ & E'').
    apply bind_Ok in E''. destruct E'' as (ag & _ & E''). assert (ws = views) by congruence. subst ws. exact E1.
Qed.

Theorem p1_determines aps rs rs' : Forall (fun ap => Forall (fun x => length x = S (fst ap)) (snd ap)) aps ->
  map (up_known p) rs = map (up_known p) rs' -> Forall (up_wf p aps) rs -> Forall (up_wf p aps) rs' ->
  forall cs cs' seen, Forall2 (up_coins_wf p) rs cs -> Forall2 (up_coins_wf p) rs' cs' ->
  p1_batch_view p j ctx aps rs cs = Ok seen -> p1_batch_view p j ctx aps rs' cs' = Ok seen ->
  answers p aps (map (up_m p) rs) = answers p aps (map (up_m p) rs').
Proof.
  intros HA EK W W' cs cs' seen HC HC' E E'.
  assert (K : forall rs cs, Forall (up_wf p aps) rs -> Forall2 (up_coins_wf p) rs cs -> p1_batch_view p j ctx aps rs cs = Ok seen ->
    length (fst seen) = length rs /\ snd seen = map (agg1 (combine rs (fst seen))) aps).
  { clear - HA HO Hc. intros rs cs W HC E. assert (E0 := E). unfold p1_batch_view in E0. apply bind_Ok in E0. destruct E0 as (ws & E1 & _).
    destruct (batch_is1 aps rs cs ws W HC E1) as (L & _ & E2). specialize (E2 HA). rewrite E in E2. assert (seen = (ws, map (agg1 (combine rs ws)) aps)) as -> by congruence.
    cbn [fst snd]. now split. }
  destruct (K rs cs W HC E) as [L A]. destruct (K rs' cs' W' HC' E') as [L' A']. apply (counts_same aps rs rs' (fst seen) EK L). congruence.
Qed.
End B.

(** ** The batches of run_vdaf() *)
Section Side.
Context (p : Poplar1).
Notation idpf := (p1_idpf p).
Notation Pi := (id_field_inner (p1_idpf p)).
Notation Pl := (id_field_leaf (p1_idpf p)).
Notation FVec := (FieldVec Pi Pl).

Lemma side_inner ctx (ev : res (list FVec)) (vr : res (list (F Pi))) lv (AB : list (F Pi)) x (sh : list FVec -> list (F Pi) -> FVec) st s1 msg st2 s2 msg2 o :
  length AB = 2 ->
  (let* out := ev in let* v := vr in Ok ((EVALUATE_SKETCH, lv, Inner (AB ++ [x] ++ data_of (map (fv_as Pi) out))), sh out v)) = Ok (st, s1) ->
  p1_verify_next p ctx st msg = Ok (inl (st2, s2)) -> p1_verify_next p ctx st2 msg2 = Ok (inr o) ->
  exists out, ev = Ok out /\ o = Inner (data_of (map (fv_as Pi) out)).
Proof.
  intros LA E E1 E2. apply bind_Ok in E. destruct E as (out & Eo & E). apply bind_Ok in E. destruct E as (v & _ & E). injection E as <- _.
  exists out. split; [exact Eo|]. unfold p1_verify_next in E1. cbn [fst snd] in E1. change (bytes_eqb EVALUATE_SKETCH EVALUATE_SKETCH) with true in E1. cbv iota in E1.
  destruct msg as [sk1|]; [|discriminate E1]. apply bind_Ok in E1. destruct E1 as (t & _ & E1). apply bind_Ok in E1. destruct E1 as ([z0 tt1] & _ & E1).
  apply bind_Ok in E1. destruct E1 as ([m1 s'] & EE & E1). injection E1 as <- _.
  assert (M : m1 = data_of (map (fv_as Pi) out)).
  { unfold evaluate_in in EE. apply bind_Ok in EE. destruct EE as (a & _ & EE). apply bind_Ok in EE. destruct EE as (b & _ & EE). apply bind_Ok in EE. destruct EE as (c & _ & EE).
    assert (K := f_equal (fun z => match z with Ok y => fst y | Raise _ => [] end) EE). cbn [fst] in K. rewrite <- K. destruct AB as [|a1 [|a2 [|a3 AB]]]; try discriminate LA. reflexivity. }
  unfold p1_verify_next in E2. change (bytes_eqb REVEAL_SKETCH EVALUATE_SKETCH) with false in E2. change (bytes_eqb REVEAL_SKETCH REVEAL_SKETCH) with true in E2. cbv iota in E2.
  destruct msg2; [discriminate E2|]. assert (K := f_equal (fun z => match z with Ok (inr y) => y | _ => Inner [] end) E2). cbv beta iota in K. rewrite <- K. now rewrite M.
Qed.
Lemma side_leaf ctx (ev : res (list FVec)) (vr : res (list (F Pl))) lv (AB : list (F Pl)) x (sh : list FVec -> list (F Pl) -> FVec) st s1 msg st2 s2 msg2 o :
  length AB = 2 ->
  (let* out := ev in let* v := vr in Ok ((EVALUATE_SKETCH, lv, Leaf (AB ++ [x] ++ data_of (map (fv_as Pl) out))), sh out v)) = Ok (st, s1) ->
  p1_verify_next p ctx st msg = Ok (inl (st2, s2)) -> p1_verify_next p ctx st2 msg2 = Ok (inr o) ->
  exists out, ev = Ok out /\ o = Leaf (data_of (map (fv_as Pl) out)).
Proof.
  intros LA E E1 E2. apply bind_Ok in E. destruct E as (out & Eo & E). apply bind_Ok in E. destruct E as (v & _ & E). injection E as <- _.
  exists out. split; [exact Eo|]. unfold p1_verify_next in E1. cbn [fst snd] in E1. change (bytes_eqb EVALUATE_SKETCH EVALUATE_SKETCH) with true in E1. cbv iota in E1.
  destruct msg as [sk1|]; [|discriminate E1]. apply bind_Ok in E1. destruct E1 as (t & _ & E1). apply bind_Ok in E1. destruct E1 as ([z0 tt1] & _ & E1).
  apply bind_Ok in E1. destruct E1 as ([m1 s'] & EE & E1). injection E1 as <- _.
  assert (M : m1 = data_of (map (fv_as Pl) out)).
  { unfold evaluate_in in EE. apply bind_Ok in EE. destruct EE as (a & _ & EE). apply bind_Ok in EE. destruct EE as (b & _ & EE). apply bind_Ok in EE. destruct EE as (c & _ & EE).
    assert (K := f_equal (fun z => match z with Ok y => fst y | Raise _ => [] end) EE). cbn [fst] in K. rewrite <- K. destruct AB as [|a1 [|a2 [|a3 AB]]]; try discriminate LA. reflexivity. }
  unfold p1_verify_next in E2. change (bytes_eqb REVEAL_SKETCH EVALUATE_SKETCH) with false in E2. change (bytes_eqb REVEAL_SKETCH REVEAL_SKETCH) with true in E2. cbv iota in E2.
  destruct msg2; [discriminate E2|]. assert (K := f_equal (fun z => match z with Ok (inr y) => y | _ => Inner [] end) E2). cbv beta iota in K. rewrite <- K. now rewrite M.
Qed.
End Side.

Section Real.
Context (p : Poplar1) (lim : Z) (HO : Poplar1Ok p lim).
Notation idpf := (p1_idpf p).
Notation Pi := (id_field_inner (p1_idpf p)).
Notation Pl := (id_field_leaf (p1_idpf p)).
Notation FVec := (FieldVec Pi Pl).
Notation BITS := (id_BITS (p1_idpf p)).
Context (key ctx : bytes) (level : nat) (prefixes : list (list bool)).
Context (Hlv : level < BITS) (Hl16 : (Z.of_nat level < 65536)%Z) (Hnd : NoDup prefixes) (Hpl : Forall (fun x => length x = S level) prefixes).
Context (Hc : ctx_ok ctx) (Hk : length key = SEED_SIZE (p1_xof p)).
Notation ap := (Z.of_nat level, prefixes).

Lemma outputs_steps m nonce rand (outs : list FVec) : vdaf_outputs (p1_vdaf p) ctx ap key (m, nonce, rand) = Ok outs ->
  length m = BITS -> length nonce = p1_NONCE_SIZE -> length rand = p1_RAND_SIZE p ->
  exists ps is0 is1 msgs o0 o1, p1_shard p ctx m nonce rand = Ok (ps, [is0; is1]) /\
    real_messages p key ctx ap nonce ps is0 is1 = Ok msgs /\ outs = [o0; o1] /\
    forall j is o, (j, is, o) = (0, is0, o0) \/ (j, is, o) = (1, is1, o1) ->
    exists own, idpf_eval idpf j ps (key_of p is) (Z.of_nat level) prefixes ctx nonce = Ok own /\ length own = length prefixes /\
      o = if level <? BITS - 1 then Inner (data_of (map (fv_as Pi) own)) else Leaf (data_of (map (fv_as Pl) own)).
Proof.
  intros H Hm Hn Hr. unfold vdaf_outputs in H. apply bind_Ok in H. destruct H as ([ps iss] & ES & H).
  change (vd_shard (p1_vdaf p)) with (p1_shard p) in ES.
  pose proof (shard_post1 p lim HO 0 ctx m nonce rand Hc Hm Hn Hr) as HS. rewrite ES in HS.
  destruct HS as (k0 & k1 & s0 & s1 & ss & ks & kl & ci0 & ci1 & cl0 & cl1 & oi0 & oi1 & ol0 & ol1 & R).
  pose proof (r1_iss _ _ _ _ _ _ _ _ _ _ _ _ _ _ _ _ _ _ _ _ _ _ R) as EI. subst iss.
  destruct (pk_idpf _ _ HO) as [lim' HI].
  assert (HG : gen_args_ok idpf m (map (fun k => [fof 1; k]) ks) [fof 1; kl] ctx nonce (k0 ++ k1)).
  { constructor; try easy.
    - rewrite map_length. apply R.
    - apply Forall_forall. intros x Hx. apply in_map_iff in Hx. destruct Hx as (k & <- & _). now rewrite (pk_value _ _ HO).
    - now rewrite (pk_value _ _ HO).
    - now rewrite (pk_nonce _ _ HO).
    - rewrite app_length. destruct (r1_keys _ _ _ _ _ _ _ _ _ _ _ _ _ _ _ _ _ _ _ _ _ _ R) as [-> ->].
      unfold id_RAND_SIZE, id_KEY_SIZE. lia. }
  pose proof (gen_total idpf lim' HI _ _ _ _ _ _ HG) as Hps.
  rewrite (r1_gen _ _ _ _ _ _ _ _ _ _ _ _ _ _ _ _ _ _ _ _ _ _ R) in Hps. destruct Hps as [Hps _].
  destruct (r1_keys _ _ _ _ _ _ _ _ _ _ _ _ _ _ _ _ _ _ _ _ _ _ R) as [Lk0 Lk1].
  unfold verify_report in H. apply bind_Ok in H. destruct H as (init & EI & H).
  change (vd_SHARES (p1_vdaf p)) with 2 in EI. change (vd_ROUNDS (p1_vdaf p)) with 2 in H.
  change (range 0 2) with [0; 1] in EI. cbn [mapM get nth_error bind] in EI.
  change (vd_verify_init (p1_vdaf p)) with (p1_verify_init p) in EI.
  apply bind_Ok in EI. destruct EI as ([st0 sh0] & EI0 & EI). apply bind_Ok in EI. destruct EI as (i1 & EI1 & EI). apply bind_Ok in EI1. destruct EI1 as ([st1 sh1] & EI1 & EI2). injection EI2 as <-. injection EI as <-.
  cbn [Nat.sub verify_rounds map fst snd mapM] in H.
  change (vd_verify_next (p1_vdaf p)) with (p1_verify_next p) in H. change (vd_verifier_shares_to_message (p1_vdaf p)) with (p1_verifier_shares_to_message p) in H.
  apply bind_Ok in H. destruct H as (msg & EM & H). apply bind_Ok in H. destruct H as (nx & EN & H).
  apply bind_Ok in EN. destruct EN as (n0 & EN0 & EN). apply bind_Ok in EN0. destruct EN0 as ([[t0 u0]|] & N0 & EN0); [|discriminate EN0]. injection EN0 as <-.
  apply bind_Ok in EN. destruct EN as (n1 & EN1 & EN). apply bind_Ok in EN1. destruct EN1 as (n1' & EN1' & EN1). apply bind_Ok in EN1'. destruct EN1' as ([[t1 u1]|] & N1 & EN1'); [|discriminate EN1']. injection EN1' as <-. injection EN1 as <-. injection EN as <-.
  cbn [map fst snd mapM] in H. apply bind_Ok in H. destruct H as (msg2 & EM2 & H).
  apply bind_Ok in H. destruct H as (o0 & EO0 & H). apply bind_Ok in EO0. destruct EO0 as ([|o0'] & O0 & EO0); [discriminate EO0|]. injection EO0 as ->.
  apply bind_Ok in H. destruct H as (os & EO1 & H). apply bind_Ok in EO1. destruct EO1 as (o1 & EO1' & EO1). apply bind_Ok in EO1'. destruct EO1' as ([|o1'] & O1 & EO1'); [discriminate EO1'|]. injection EO1' as ->. injection EO1 as <-. injection H as <-.
  exists ps, (k0, s0, ci0, cl0), (k1, s1, ci1, cl1), [sh0; sh1; u0; u1], o0, o1. split; [exact ES|]. split.
  { unfold real_messages. rewrite EI0. cbn [bind]. rewrite EI1. cbn [bind]. match type of EM with ?X = _ => match goal with |- context [bind ?Y _] => change Y with X end end. rewrite EM. cbn [bind]. rewrite N0. cbn [bind]. rewrite N1. reflexivity. }
  split; [reflexivity|].
  assert (K : forall own jj ks' , idpf_eval idpf jj ps ks' (Z.of_nat level) prefixes ctx nonce = Ok own -> length ks' = id_KEY_SIZE idpf -> length own = length prefixes)
    by (intros own jj ks' E L; now destruct (eval_Ok_level p lim HO _ _ _ _ _ _ _ _ Hc L Hps E)).
  destruct (Nat.ltb_spec level (BITS - 1)) as [Hlev|Hlev].
  - destruct (r1_oi _ _ _ _ _ _ _ _ _ _ _ _ _ _ _ _ _ _ _ _ _ _ R) as (dst & Hd & Eo0 & Eo1).
    destruct (r1_len_i _ _ _ _ _ _ _ _ _ _ _ _ _ _ _ _ _ _ _ _ _ _ R) as [Lc0 Lc1].
    assert (LA0 : length (piece 2 level ci0) = 2) by (apply piece_length with (BITS - 1); [easy | lia]).
    assert (LA1 : length (piece 2 level ci1) = 2) by (apply piece_length with (BITS - 1); [easy | lia]).
    rewrite (init_inner p lim HO (length prefixes)) with (dst := dst) (o := oi0) in EI0; try easy; try lia.
    rewrite (init_inner p lim HO (length prefixes)) with (dst := dst) (o := oi1) in EI1; try easy; try lia.
    intros jj is o [[= -> -> ->]|[= -> -> ->]]; cbn [key_of].
    + destruct (side_inner p ctx _ _ _ _ _ (fun out v => Inner (sk (piece 3 level oi0) (map (fv_as Pi) out) v)) _ _ _ _ _ _ _ LA0 EI0 N0 O0) as (own & E1 & E2). exists own. split; [exact E1|]. split; [now apply (K own 0 k0)|exact E2].
    + destruct (side_inner p ctx _ _ _ _ _ (fun out v => Inner (sk (piece 3 level oi1) (map (fv_as Pi) out) v)) _ _ _ _ _ _ _ LA1 EI1 N1 O1) as (own & E1 & E2). exists own. split; [exact E1|]. split; [now apply (K own 1 k1)|exact E2].
  - destruct (r1_ol _ _ _ _ _ _ _ _ _ _ _ _ _ _ _ _ _ _ _ _ _ _ R) as (dst & Hd & Eo0 & Eo1).
    destruct (r1_len_l _ _ _ _ _ _ _ _ _ _ _ _ _ _ _ _ _ _ _ _ _ _ R) as [Lc0 Lc1].
    rewrite (init_leaf p lim HO (length prefixes)) with (dst := dst) (o := ol0) in EI0; try easy; try lia.
    rewrite (init_leaf p lim HO (length prefixes)) with (dst := dst) (o := ol1) in EI1; try easy; try lia.
    intros jj is o [[= -> -> ->]|[= -> -> ->]]; cbn [key_of].
    + destruct (side_leaf p ctx _ _ _ _ _ (fun out v => Leaf (sk ol0 (map (fv_as Pl) out) v)) _ _ _ _ _ _ _ Lc0 EI0 N0 O0) as (own & E1 & E2). exists own. split; [exact E1|]. split; [now apply (K own 0 k0)|exact E2].
    + destruct (side_leaf p ctx _ _ _ _ _ (fun out v => Leaf (sk ol1 (map (fv_as Pl) out) v)) _ _ _ _ _ _ _ Lc1 EI1 N1 O1) as (own & E1 & E2). exists own. split; [exact E1|]. split; [now apply (K own 1 k1)|exact E2].
Qed.

Lemma evals_sum m nonce rand ps is0 is1 own0 own1 : p1_shard p ctx m nonce rand = Ok (ps, [is0; is1]) ->
  length m = BITS -> length nonce = p1_NONCE_SIZE -> length rand = p1_RAND_SIZE p ->
  idpf_eval idpf 0 ps (key_of p is0) (Z.of_nat level) prefixes ctx nonce = Ok own0 ->
  idpf_eval idpf 1 ps (key_of p is1) (Z.of_nat level) prefixes ctx nonce = Ok own1 ->
  length own0 = length prefixes /\ length own1 = length prefixes /\
  forall k d, k < length prefixes ->
   (level < BITS - 1 -> fadd (nth 0 (fv_as Pi (nth k own0 d)) f0) (nth 0 (fv_as Pi (nth k own1 d)) f0) = fof (nth k (indicator level prefixes m) 0%Z)) /\
   (BITS - 1 <= level -> fadd (nth 0 (fv_as Pl (nth k own0 d)) f0) (nth 0 (fv_as Pl (nth k own1 d)) f0) = fof (nth k (indicator level prefixes m) 0%Z)).
Proof.
  intros ES Hm Hn Hr E0 E1.
  pose proof (shard_post1 p lim HO 0 ctx m nonce rand Hc Hm Hn Hr) as HS. rewrite ES in HS.
  destruct HS as (k0 & k1 & s0 & s1 & ss & ks & kl & ci0 & ci1 & cl0 & cl1 & oi0 & oi1 & ol0 & ol1 & R).
  pose proof (r1_iss _ _ _ _ _ _ _ _ _ _ _ _ _ _ _ _ _ _ _ _ _ _ R) as EI. injection EI as -> ->.
  destruct (pk_idpf _ _ HO) as [lim' HI].
  assert (HG : gen_args_ok idpf m (map (fun k => [fof 1; k]) ks) [fof 1; kl] ctx nonce (k0 ++ k1)).
  { constructor; try easy.
    - rewrite map_length. apply R.
    - apply Forall_forall. intros x Hx. apply in_map_iff in Hx. destruct Hx as (k & <- & _). now rewrite (pk_value _ _ HO).
    - now rewrite (pk_value _ _ HO).
    - now rewrite (pk_nonce _ _ HO).
    - rewrite app_length. destruct (r1_keys _ _ _ _ _ _ _ _ _ _ _ _ _ _ _ _ _ _ _ _ _ _ R) as [-> ->].
      unfold id_RAND_SIZE, id_KEY_SIZE. lia. }
  pose proof (eval_sums idpf lim' HI _ _ _ _ _ _ ps k0 k1 level prefixes HG
    (r1_gen _ _ _ _ _ _ _ _ _ _ _ _ _ _ _ _ _ _ _ _ _ _ R) Hlv Hnd Hpl) as HE.
  cbn [key_of] in E0, E1. rewrite E0, E1 in HE. destruct HE as (L0 & L1 & F0 & F1 & HS). rewrite (pk_value _ _ HO) in F0, F1.
  split; [exact L0|]. split; [exact L1|]. intros k d Hk'. specialize (HS k d Hk').
  assert (LKS : length ks = BITS - 1) by apply R.
  assert (EI : nth k (indicator level prefixes m) 0%Z = if list_eq_dec Bool.bool_dec (nth k prefixes []) (firstn (S level) m) then 1%Z else 0%Z).
  { unfold indicator. now rewrite (nth_map' _ _ _ []). }
  rewrite EI. split; intros Hlev.
  - destruct (as_of_level_inner p level 2 (nth k own0 d) Hlev) as (l0 & El0 & Ll0).
    { apply (Forall_nth_len (of_level idpf level 2)); [exact F0 | lia]. }
    destruct (as_of_level_inner p level 2 (nth k own1 d) Hlev) as (l1 & El1 & Ll1).
    { apply (Forall_nth_len (of_level idpf level 2)); [exact F1 | lia]. }
    rewrite El0, El1 in HS |- *. cbn [fv_add fv_as] in HS |- *. rewrite !map_fcast_id. rewrite !map_fcast_id in HS.
    rewrite vec_add_ok in HS by exact (eq_trans Ll0 (eq_sym Ll1)). cbn [bind] in HS.
    assert (H0 : fadd (nth 0 l0 f0) (nth 0 l1 f0) = nth 0 (zip_with fadd l0 l1) f0) by (symmetry; apply nth_zip_with; [rewrite Ll0|rewrite Ll1]; lia).
    rewrite H0. clear H0. unfold point_value in HS.
    destruct (list_eq_dec Bool.bool_dec (nth k prefixes []) (firstn (S level) m)); assert (K := f_equal (fun z => match z with Ok (Inner y) => y | _ => [] end) HS); cbv beta iota in K; rewrite K; clear K HS.
    + unfold beta_at. rewrite (proj2 (Nat.ltb_lt _ _) Hlev). rewrite (nth_map' _ _ _ f0) by lia. reflexivity.
    + unfold zero_at. rewrite (proj2 (Nat.ltb_lt _ _) Hlev). rewrite (pk_value _ _ HO). reflexivity.
  - destruct (as_of_level_leaf p level 2 (nth k own0 d) Hlev) as (l0 & El0 & Ll0).
    { apply (Forall_nth_len (of_level idpf level 2)); [exact F0 | lia]. }
    destruct (as_of_level_leaf p level 2 (nth k own1 d) Hlev) as (l1 & El1 & Ll1).
    { apply (Forall_nth_len (of_level idpf level 2)); [exact F1 | lia]. }
    rewrite El0, El1 in HS |- *. cbn [fv_add fv_as] in HS |- *. rewrite !map_fcast_id. rewrite !map_fcast_id in HS.
    rewrite vec_add_ok in HS by exact (eq_trans Ll0 (eq_sym Ll1)). cbn [bind] in HS.
    assert (H0 : fadd (nth 0 l0 f0) (nth 0 l1 f0) = nth 0 (zip_with fadd l0 l1) f0) by (symmetry; apply nth_zip_with; [rewrite Ll0|rewrite Ll1]; lia).
    rewrite H0. clear H0. unfold point_value in HS.
    destruct (list_eq_dec Bool.bool_dec (nth k prefixes []) (firstn (S level) m)); assert (K := f_equal (fun z => match z with Ok (Leaf y) => y | _ => [] end) HS); cbv beta iota in K; rewrite K; clear K HS.
    + unfold beta_at. rewrite (proj2 (Nat.ltb_ge _ _) Hlev). reflexivity.
    + unfold zero_at. rewrite (proj2 (Nat.ltb_ge _ _) Hlev). rewrite (pk_value _ _ HO). reflexivity.
Qed.
End Real.

Section Sub.
Context {P : FieldClass}.
Add Ring FringSS : (@F_ring P).
Lemma sub_of_sum (a b c : F P) : fadd a b = c -> b = fsub c a /\ a = fsub c b.
Proof. intros <-. split; ring. Qed.
End Sub.

Section RealBatch.
Context (p : Poplar1) (lim : Z) (HO : Poplar1Ok p lim).
Notation idpf := (p1_idpf p).
Notation Pi := (id_field_inner (p1_idpf p)).
Notation Pl := (id_field_leaf (p1_idpf p)).
Notation FVec := (FieldVec Pi Pl).
Notation BITS := (id_BITS (p1_idpf p)).
Notation View1 := (list (CorrectionWord idpf) * list (list FVec))%type.
Context (j : bool) (key ctx : bytes) (level : nat) (prefixes : list (list bool)).
Context (Hlv : level < BITS) (Hl16 : (Z.of_nat level < 65536)%Z) (Hnd : NoDup prefixes) (Hpl : Forall (fun x => length x = S level) prefixes).
Context (Hc : ctx_ok ctx) (Hk : length key = SEED_SIZE (p1_xof p)).
Notation ap := (Z.of_nat level, prefixes).
Definition report_wf (rep : list bool * bytes * bytes) : Prop :=
  let '(m, nonce, rand) := rep in length m = BITS /\ length nonce = p1_NONCE_SIZE /\ length rand = p1_RAND_SIZE p.

Lemma vec_sub_gen {P : FieldClass} (ind : list Z) (l0 l1 : list FVec) (d : FVec) n : length l0 = n -> length l1 = n -> length ind = n ->
  (forall k, k < n -> fadd (nth 0 (fv_as P (nth k l0 d)) f0) (nth 0 (fv_as P (nth k l1 d)) f0) = fof (nth k ind 0%Z)) ->
  data_of (map (fv_as P) l1) = zip_with fsub (map fof ind) (map (fun v => nth 0 (fv_as P v) f0) l0) /\
  data_of (map (fv_as P) l0) = zip_with fsub (map fof ind) (map (fun v => nth 0 (fv_as P v) f0) l1).
Proof.
  intros L0 L1 LI H. unfold data_of. rewrite !map_map.
  assert (LZ : forall l : list FVec, length l = n -> length (zip_with fsub (map fof ind) (map (fun v => nth 0 (fv_as P v) f0) l)) = n)
    by (intros l Ll; apply zip_length_eq; now rewrite map_length).
  split; apply (nth_ext' f0); try (rewrite map_length; rewrite LZ by assumption; assumption); intros k Hk'; rewrite map_length in Hk'.
  - rewrite L1 in Hk'. rewrite (nth_zip_with _ _ _ _ f0 f0) by (rewrite map_length; lia).
    rewrite !(nth_map' (fun v => nth 0 (fv_as P v) f0) _ _ d) by lia. rewrite (nth_map' fof _ _ 0%Z) by lia. exact (proj1 (sub_of_sum _ _ _ (H k Hk'))).
  - rewrite L0 in Hk'. rewrite (nth_zip_with _ _ _ _ f0 f0) by (rewrite map_length; lia).
    rewrite !(nth_map' (fun v => nth 0 (fv_as P v) f0) _ _ d) by lia. rewrite (nth_map' fof _ _ 0%Z) by lia. exact (proj2 (sub_of_sum _ _ _ (H k Hk'))).
Qed.

Lemma real_report rep outs : vdaf_outputs (p1_vdaf p) ctx ap key rep = Ok outs -> report_wf rep ->
  exists r c w o0 o1, outs = [o0; o1] /\ uploaded_real p j key ctx level prefixes rep r c w /\
    up_wf p [(level, prefixes)] r /\ up_coins_wf p r c /\
    aggregator_view p j (up_m p r) (up_ks p r) (up_kl p r) ctx (up_nonce p r) (up_key p r) (up_queries p r) (fst c) (snd c) = Ok w /\
    mapM (other_out p j ctx r (fst w)) (up_queries p r) = Ok [if j then o0 else o1].
Proof.
  destruct rep as [[m nonce] rand]. intros E (Hm & Hn & Hr).
  destruct (outputs_steps p lim HO key ctx level prefixes Hlv Hl16 Hc Hk m nonce rand outs E Hm Hn Hr) as (ps & is0 & is1 & msgs & o0 & o1 & ES & EM & EO & HV).
  destruct (HV 0 is0 o0 (or_introl eq_refl)) as (own0 & E0 & L0 & -> ).
  destruct (HV 1 is1 o1 (or_intror eq_refl)) as (own1 & E1 & L1 & -> ).
  destruct (evals_sum p lim HO key ctx level prefixes Hlv Hnd Hpl Hc Hk m nonce rand ps is0 is1 own0 own1 ES Hm Hn Hr E0 E1) as (_ & _ & HS).
  destruct (Props_View.C74_real p lim HO ctx m nonce rand ps is0 is1 Hc Hm Hn Hr ES) as (ks & kl & Lks & HJ).
  destruct (HJ j) as (masks & EX & Wm & Lkey & HQ). clear HJ.
  destruct (HQ key level prefixes msgs Hlv Hl16 Hnd Hpl Hk EM) as (rr & abc & coin & R1 & R2 & R3 & Q1 & Q2 & V1). clear HQ.
  set (q := {| q_level := level; q_prefixes := prefixes; q_rand := rr; q_abc := abc; q_AB := own_AB p (if j then is1 else is0) level |}) in *.
  exists {| up_m := m; up_ks := ks; up_kl := kl; up_nonce := nonce; up_key := key_of p (if j then is1 else is0); up_queries := [q] |},
    (masks, [coin]), (ps, [msgs]), (if level <? BITS - 1 then Inner (data_of (map (fv_as Pi) own0)) else Leaf (data_of (map (fv_as Pl) own0))),
    (if level <? BITS - 1 then Inner (data_of (map (fv_as Pi) own1)) else Leaf (data_of (map (fv_as Pl) own1))).
  split; [exact EO|]. split; [|split; [|split; [|split]]].
  - exists is0, is1, msgs, q, coin. cbn [up_m up_nonce up_key up_queries fst snd]. repeat (split; [first [reflexivity|assumption]|]). assumption.
  - unfold up_wf. cbn [up_m up_ks up_nonce up_key up_queries]. split; [exact Hm|]. split; [exact Lks|]. split; [exact Hn|]. split; [exact Lkey|]. split; [now constructor|reflexivity].
  - split; [exact Wm|]. cbn [snd up_queries]. now constructor.
  - exact V1.
  - cbn [up_queries mapM fst]. unfold other_out. cbn [up_m up_nonce up_key q_level q_prefixes q].
    assert (LI : length (indicator level prefixes m) = length prefixes) by apply map_length.
    destruct (Nat.ltb_spec level (BITS - 1)) as [Hlev|Hlev].
    + destruct (vec_sub_gen (P := Pi) (indicator level prefixes m) own0 own1 (Inner []) (length prefixes) L0 L1 LI) as [A B].
      { intros k Hk'. exact (proj1 (HS k (Inner []) Hk') Hlev). }
      destruct j; cbn [Nat.b2n]; [rewrite E1|rewrite E0]; cbn [bind]; unfold other_in; cbn [q_level q_prefixes q]; [rewrite <- B|rewrite <- A]; reflexivity.
    + destruct (vec_sub_gen (P := Pl) (indicator level prefixes m) own0 own1 (Inner []) (length prefixes) L0 L1 LI) as [A B].
      { intros k Hk'. exact (proj2 (HS k (Inner []) Hk') Hlev). }
      destruct j; cbn [Nat.b2n]; [rewrite E1|rewrite E0]; cbn [bind]; unfold other_in; cbn [q_level q_prefixes q]; [rewrite <- B|rewrite <- A]; reflexivity.
Qed.

Lemma real_reports : forall reps outs, mapM (vdaf_outputs (p1_vdaf p) ctx ap key) reps = Ok outs -> Forall report_wf reps ->
  exists rs cs ws, length rs = length reps /\ length cs = length reps /\ length ws = length reps /\
    (forall i d dr dc dw, i < length reps -> uploaded_real p j key ctx level prefixes (nth i reps d) (nth i rs dr) (nth i cs dc) (nth i ws dw)) /\
    Forall (up_wf p [(level, prefixes)]) rs /\ Forall2 (up_coins_wf p) rs cs /\
    mapM (fun '(r, c) => aggregator_view p j (up_m p r) (up_ks p r) (up_kl p r) ctx (up_nonce p r) (up_key p r) (up_queries p r) (fst c) (snd c)) (combine rs cs) = Ok ws /\
    exists oos : list (list FVec), mapM (fun '(r, w) => mapM (other_out p j ctx r (fst w)) (up_queries p r)) (combine rs ws) = Ok oos /\
    oos = map (fun o : list FVec => [nth (if j then 0 else 1) o (Inner [])]) outs /\ Forall (fun o : list FVec => length o = 2) outs.
Proof.
  induction reps as [|rep reps IH]; intros outs E W.
  - injection E as <-. exists [], [], []. repeat (split; [first [reflexivity|constructor|intros; cbn in *; lia]|]). exists []. repeat split. constructor.
  - cbn [mapM] in E. apply bind_Ok in E. destruct E as (o & E1 & E). apply bind_Ok in E. destruct E as (os & E2 & E). injection E as <-.
    destruct (real_report rep o E1 (Forall_inv W)) as (r & c & w & o0 & o1 & -> & U & W1 & W2 & V & OO).
    destruct (IH os E2 (Forall_inv_tail W)) as (rs & cs & ws & La & Lb & Lc & HU & HW & HC & HV & oos & EO & Eoos & HL).
    exists (r :: rs), (c :: cs), (w :: ws). cbn [length]. split; [lia|]. split; [lia|]. split; [lia|].
    split. { intros [|i] d dr dc dw Hi; [exact U|]. apply HU. lia. }
    split; [now constructor|]. split; [now constructor|]. split; [cbn [combine mapM]; rewrite V; cbn [bind]; rewrite HV; reflexivity|].
    exists ([if j then o0 else o1] :: oos). split; [cbn [combine mapM]; rewrite OO; cbn [bind]; rewrite EO; reflexivity|]. split; [|constructor; [reflexivity|exact HL]].
    cbn [map]. rewrite Eoos. now destruct j.
Qed.

Theorem real_batch reps aggs : aggregate_shares (p1_vdaf p) ctx ap key reps = Ok aggs -> Forall report_wf reps ->
  exists rs cs ws, length rs = length reps /\ length cs = length reps /\ length ws = length reps /\
    (forall i d dr dc dw, i < length reps -> uploaded_real p j key ctx level prefixes (nth i reps d) (nth i rs dr) (nth i cs dc) (nth i ws dw)) /\
    Forall (up_wf p [(level, prefixes)]) rs /\ Forall2 (up_coins_wf p) rs cs /\
    exists other, get aggs (if j then 0 else 1) = Ok other /\ p1_batch_view p j ctx [(level, prefixes)] rs cs = Ok (ws, [other]).
Proof.
  intros E W. unfold aggregate_shares in E. apply bind_Ok in E. destruct E as (outs & EO & EF).
  destruct (real_reports reps outs EO W) as (rs & cs & ws & La & Lb & Lc & HU & HW & HC & HV & oos & EOO & Eoos & HL).
  exists rs, cs, ws. split; [exact La|]. split; [exact Lb|]. split; [exact Lc|]. split; [exact HU|]. split; [exact HW|]. split; [exact HC|].
  unfold fold_all in EF. change (vd_SHARES (p1_vdaf p)) with 2 in EF. change (range 0 2) with [0; 1] in EF. cbn [mapM] in EF.
  apply bind_Ok in EF. destruct EF as (a0 & F0 & EF). apply bind_Ok in EF. destruct EF as (as1 & F1 & EF). apply bind_Ok in F1. destruct F1 as (a1 & F1 & F1'). injection F1' as <-. injection EF as <-.
  exists (if j then a0 else a1). split; [now destruct j|].
  unfold p1_batch_view. rewrite HV. cbn [bind]. rewrite EOO. cbn [bind length seq combine mapM].
  assert (K : forall i a, fold_outputs (vd_agg_init (p1_vdaf p) ap) (vd_agg_update (p1_vdaf p) ap) outs i = Ok a -> i < 2 ->
    (let* init := p1_agg_init p ap in foldM (fun agg o => let* o := get o 0 in p1_agg_update p ap agg o) (map (fun o : list FVec => [nth i o (Inner [])]) outs) init) = Ok a).
  { intros i a H Hi. unfold fold_outputs in H. rewrite <- H. clear H. apply bind_ext. intros init _. clear - HL Hi. revert init.
    induction outs as [|o outs IH]; intro init; [reflexivity|]. cbn [map foldM]. rewrite (get_nth o i (Inner [])) by exact (eq_ind_r (fun n => i < n) Hi (Forall_inv HL : length (o : list FVec) = 2)).
    change (get [nth i o (Inner [])] 0) with (Ok (nth i o (Inner []))). cbn [bind]. apply bind_ext. intros a _. apply IH. exact (Forall_inv_tail HL). }
  rewrite Eoos. destruct j; [rewrite (K 0 a0 F0) by lia|rewrite (K 1 a1 F1) by lia]; reflexivity.
Qed.
End RealBatch.
