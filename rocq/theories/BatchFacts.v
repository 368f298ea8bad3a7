(** What a coalition and the Collector see of a Prio3 batch: proofs. *)
From Verif Require Import BatchSpec CollectFacts RunSpec RunFacts Prio3 Prio3Spec Prio3Facts Prio3Run Prio3Inst Prio3ViewSpec Prio3ViewFacts ZkSpec ZkFacts VdafFacts Vdaf.
From Verif Require Import FlpSpec FlpProofs FlpBBCGGI19 Flp Field Spec FieldFacts VecFacts BaseFacts Circuits CircuitSpec MeasSpec FlpInstances PostFacts XofSpec Xof FlpTestsFacts.
From Coq Require Import Lia.
Open Scope nat_scope.

Section G.
Context {P : FieldClass}.
Notation F := (F P).
Add Ring FringBA : (@F_ring P).

Lemma pick_share k len j (l : list (list F)) : j <= k -> vecs (S k) len l ->
  nth j l [] = zip_with fsub (vsum len l) (vsum len (without j l)).
Proof.
  intros Hj [L A]. assert (Lj : length (nth j l []) = len) by (rewrite Forall_forall in A; apply A, nth_In; lia).
  apply (vec_eq len); [exact Lj|apply zip_length_eq; apply vsum_length|].
  intros i Hi. rewrite (nth_zip_with _ _ _ _ f0 f0) by (rewrite vsum_length; exact Hi). rewrite !nth_vsum by exact Hi.
  assert (E : l = firstn j l ++ nth j l [] :: skipn (S j) l).
  { clear A Lj Hi. revert j Hj. revert k L. induction l as [|x l IH]; intros k L j Hj; [discriminate L|]. destruct j as [|j]; [reflexivity|].
    cbn [firstn nth skipn app]. f_equal. destruct k as [|k]; [lia|]. apply (IH k); [cbn in L; lia|lia]. }
  unfold without. assert (ES : forall a b : list (list F), fsuml (map (fun v => nth i v f0) (a ++ b)) = fadd (fsuml (map (fun v => nth i v f0) a)) (fsuml (map (fun v => nth i v f0) b))).
  { induction a as [|x a IH]; intros b; cbn [app map fsuml fold_right]; [unfold fsuml; cbn; ring|]. change (fadd (nth i x f0) (fsuml (map (fun v => nth i v f0) (a ++ b))) = fadd (fadd (nth i x f0) (fsuml (map (fun v => nth i v f0) a))) (fsuml (map (fun v => nth i v f0) b))). rewrite IH. ring. }
  rewrite E at 2. rewrite !ES. cbn [map]. change (fsuml (nth i (nth j l []) f0 :: map (fun v => nth i v f0) (skipn (S j) l))) with (fadd (nth i (nth j l []) f0) (fsuml (map (fun v => nth i v f0) (skipn (S j) l)))). ring.
Qed.

Lemma vsum_fsub {A} len (f g : A -> list F) (l : list A) : (forall x, In x l -> length (f x) = len) -> (forall x, In x l -> length (g x) = len) ->
  vsum len (map (fun x => zip_with fsub (f x) (g x)) l) = zip_with fsub (vsum len (map f l)) (vsum len (map g l)).
Proof.
  intros Hf Hg. apply (vec_eq len); [apply vsum_length|apply zip_length_eq; apply vsum_length|].
  intros i Hi. rewrite (nth_zip_with _ _ _ _ f0 f0) by (rewrite vsum_length; exact Hi). rewrite !nth_vsum by exact Hi. rewrite !map_map.
  induction l as [|x l IH]; [unfold fsuml; cbn; ring|]. cbn [map].
  change (fadd (nth i (zip_with fsub (f x) (g x)) f0) (fsuml (map (fun x => nth i (zip_with fsub (f x) (g x)) f0) l))
    = fsub (fadd (nth i (f x) f0) (fsuml (map (fun x => nth i (f x) f0) l))) (fadd (nth i (g x) f0) (fsuml (map (fun x => nth i (g x) f0) l)))).
  rewrite IH by (intros; (apply Hf || apply Hg); now right). rewrite (nth_zip_with _ _ _ _ f0 f0); [ring|rewrite (Hf x (or_introl eq_refl)); exact Hi|rewrite (Hg x (or_introl eq_refl)); exact Hi].
Qed.
Lemma vsum_fadd {A} len (f g : A -> list F) (l : list A) : (forall x, In x l -> length (f x) = len) -> (forall x, In x l -> length (g x) = len) ->
  vsum len (map (fun x => zip_with fadd (f x) (g x)) l) = zip_with fadd (vsum len (map f l)) (vsum len (map g l)).
Proof.
  intros Hf Hg. apply (vec_eq len); [apply vsum_length|apply zip_length_eq; apply vsum_length|].
  intros i Hi. rewrite (nth_zip_with _ _ _ _ f0 f0) by (rewrite vsum_length; exact Hi). rewrite !nth_vsum by exact Hi. rewrite !map_map.
  induction l as [|x l IH]; [unfold fsuml; cbn; ring|]. cbn [map].
  change (fadd (nth i (zip_with fadd (f x) (g x)) f0) (fsuml (map (fun x => nth i (zip_with fadd (f x) (g x)) f0) l))
    = fadd (fadd (nth i (f x) f0) (fsuml (map (fun x => nth i (f x) f0) l))) (fadd (nth i (g x) f0) (fsuml (map (fun x => nth i (g x) f0) l)))).
  rewrite IH by (intros; (apply Hf || apply Hg); now right). rewrite (nth_zip_with _ _ _ _ f0 f0); [ring|rewrite (Hf x (or_introl eq_refl)); exact Hi|rewrite (Hg x (or_introl eq_refl)); exact Hi].
Qed.

Lemma columns_total n len : forall outs : list (list (list F)), Forall (vecs n len) outs ->
  vsum len (map (fun j => vsum len (map (fun o => nth j o []) outs)) (seq 0 n)) = vsum len (map (vsum len) outs).
Proof.
  induction outs as [|o outs IH]; intros V.
  - cbn [map]. apply (vec_eq len); [apply vsum_length|apply vsum_length|]. intros i Hi. rewrite !nth_vsum by exact Hi. rewrite map_map. cbn [map].
    induction (seq 0 n) as [|x l IH]; [reflexivity|]. cbn [map].
    change (fadd (nth i (vsum len (@nil (list F))) f0) (fsuml (map (fun _ : nat => nth i (vsum len []) f0) l)) = fsuml []). rewrite IH, nth_vsum by exact Hi. unfold fsuml. cbn. ring.
  - destruct (Forall_inv V) as [L A]. pose proof (Forall_inv_tail V) as V2. cbn [map].
    assert (Lj : forall j, In j (seq 0 n) -> length (nth j o []) = len).
    { intros j Hj. apply in_seq in Hj. rewrite Forall_forall in A. apply A, nth_In. lia. }
    rewrite (vsum_cons len (vsum len o)) by apply vsum_length. rewrite <- (IH V2).
    rewrite (map_ext_in _ (fun j => zip_with fadd (nth j o []) (vsum len (map (fun o => nth j o []) outs))) (seq 0 n))
      by (intros j Hj; apply vsum_cons; now apply Lj).
    rewrite vsum_fadd; [|exact Lj|intros; apply vsum_length]. do 2 f_equal.
    apply (nth_ext' []); [now rewrite map_length, seq_length|]. intros k Hk. rewrite map_length, seq_length in Hk.
    rewrite (nth_map' _ _ _ 0), seq_nth by (rewrite ?seq_length; lia). reflexivity.
Qed.
End G.

Section V.
Context {P : NttFieldClass} (HP : NttOk P) (v : Valid P) (HV : ValidOk v) (HT : truncate_linear v).
Context (X : XofClass) (ID : Z) (vks n m : nat) (Hn : 1 <= n) (HnM : (Z.of_nat n < MODULUS P)%Z).
Notation F := (F P).
Let p : Prio3 := {| p3_field := P; p3_flp := FlpBBCGGI19 v; p3_xof := X; p3_ID := ID;
              p3_VERIFY_KEY_SIZE := vks; p3_SHARES := n; p3_PROOFS := m |}.
Notation view := (list (list F) * list (list F) * list (list (list F)))%type.

Definition trf (x : list F) : list F := getl (valid_truncate v x).
Lemma trf_ok x : length x = vMEAS_LEN v -> valid_truncate v x = Ok (trf x) /\ length (trf x) = vOUTPUT_LEN v.
Proof. intros L. destruct (truncate_len v x HT L) as (o & E & Lo). unfold trf. rewrite E. now split. Qed.
Lemma trf_sum k (l : list (list F)) : vecs k (vMEAS_LEN v) l -> trf (vsum (vMEAS_LEN v) l) = vsum (vOUTPUT_LEN v) (map trf l).
Proof.
  intros V. destruct (fo_truncate _ _ _ (flp_ok HP v HV HT) k l V) as (outs & Vo & E1 & E2).
  change (valid_truncate v (vsum (vMEAS_LEN v) l) = Ok (vsum (vOUTPUT_LEN v) outs)) in E2.
  assert (E3 : mapM (valid_truncate v) l = Ok (map trf l)).
  { apply mapM_map. intros x Hx. apply trf_ok. destruct V as [_ A]. rewrite Forall_forall in A. now apply A. }
  assert (E4 : outs = map trf l) by exact (f_equal getl (eq_trans (eq_sym E1) E3)).
  rewrite <- E4. unfold trf at 1. now rewrite E2.
Qed.

(** What the coalition knows of the truncated measurement. *)
Definition known (w : view) : list F := vsum (vOUTPUT_LEN v) (map trf (fst (fst w))).

Lemma share_truncated j (meas : list F) (c : p3_coins p) : j < n -> length meas = vMEAS_LEN v -> p3_coins_wf p c ->
  valid_truncate v (meas_share p j meas c) =
  Ok (zip_with fsub (trf meas) (vsum (vOUTPUT_LEN v) (map trf (without j (leader_first (vMEAS_LEN v) meas (snd (fst c))))))).
Proof.
  intros Hj Hm W. destruct c as [[pr hm] hp]. destruct W as (_ & Vm & _). cbn [fst snd]. change (vecs (n - 1) (vMEAS_LEN v) hm) in Vm.
  pose proof (leader_vecs (n - 1) (vMEAS_LEN v) meas hm Hm Vm) as VL.
  unfold meas_share. cbn [fst snd]. change (MEAS_LEN (p3_flp p)) with (vMEAS_LEN v). set (l := leader_first (vMEAS_LEN v) meas hm) in *.
  assert (Lj : length (nth j l []) = vMEAS_LEN v). { destruct VL as [L A]. rewrite Forall_forall in A. apply A, nth_In. lia. }
  refine (eq_trans (proj1 (trf_ok _ Lj)) _). f_equal.
  assert (VT : vecs (S (n - 1)) (vOUTPUT_LEN v) (map trf l)).
  { destruct VL as [L A]. split; [now rewrite map_length|]. apply Forall_forall. intros x Hx. apply in_map_iff in Hx. destruct Hx as (y & <- & Hy).
    rewrite Forall_forall in A. apply trf_ok. now apply A. }
  rewrite <- without_map.
  assert (E : nth j (map trf l) [] = trf (nth j l [])) by (apply nth_map'; destruct VL; lia).
  rewrite <- E, (pick_share (n - 1) (vOUTPUT_LEN v) j _ ltac:(lia) VT), <- (trf_sum _ l VL). unfold l. now rewrite leader_sum.
Qed.

Definition agg_of (rs : list (batch_report p)) (views : list view) : list F :=
  zip_with fsub (vsum (vOUTPUT_LEN v) (map (fun r : batch_report p => trf (measurement_of r)) rs)) (vsum (vOUTPUT_LEN v) (map known views)).

Lemma total_is rs : Forall (fun r : batch_report p => length (measurement_of r) = vMEAS_LEN v) rs ->
  batch_total p rs = Ok (vsum (vOUTPUT_LEN v) (map (fun r : batch_report p => trf (measurement_of r)) rs)).
Proof.
  intros H. unfold batch_total.
  assert (E : mapM (fun r : batch_report p => flp_truncate (p3_flp p) (measurement_of r)) rs = Ok (map (fun r : batch_report p => trf (measurement_of r)) rs)).
  { apply mapM_map. intros x Hx. rewrite Forall_forall in H. exact (proj1 (trf_ok _ (H x Hx))). }
  now rewrite E.
Qed.

Lemma batch_is j (rs : list (batch_report p)) (cs : list (p3_coins p)) (views : list view) : j < n -> length cs = length rs ->
  Forall (fun r : batch_report p => length (measurement_of r) = vMEAS_LEN v) rs -> Forall (p3_coins_wf p) cs ->
  mapM (fun '((meas, qr, jr), c) => prio3_view p j meas qr jr c) (combine rs cs) = Ok views ->
  batch_view p j rs cs = Ok (views, agg_of rs views).
Proof.
  intros Hj L Hr Hc EV. unfold batch_view. rewrite EV. cbn [bind].
  assert (EO : mapM (fun '((meas, _, _), c) => flp_truncate (p3_flp p) (meas_share p j meas c)) (combine rs cs)
    = Ok (map (fun rw : batch_report p * view => zip_with fsub (trf (measurement_of (fst rw))) (known (snd rw))) (combine rs views)) /\ length views = length rs).
  { clear - EV L Hr Hc Hj HT HP HV Hn HnM. revert cs views L Hc EV. induction rs as [|[[meas qr] jr] rs IH]; intros [|c cs] views L Hc EV; try discriminate L.
    - injection EV as <-. split; reflexivity.
    - cbn [combine mapM] in EV. apply bind_Ok in EV. destruct EV as (w & Ew & EV). apply bind_Ok in EV. destruct EV as (ws & Ews & EV). injection EV as <-.
      inversion Hr as [|? ? Hm Hr']; subst. inversion Hc as [|? ? Wc Hc']; subst. unfold measurement_of in Hm. cbn [fst] in Hm.
      destruct (IH Hr' cs ws ltac:(cbn in L; lia) Hc' Ews) as [E1 E2]. cbn [combine mapM map length]. split; [|now rewrite E2].
      pose proof (share_truncated j meas c Hj Hm Wc) as ES. change (flp_truncate (p3_flp p)) with (valid_truncate v) in *.
      rewrite ES. cbn [bind].
      refine (eq_trans (f_equal (fun z => bind z _) E1) _). cbn [bind]. f_equal. f_equal. unfold measurement_of. cbn [fst snd]. f_equal. unfold known. do 2 f_equal.
      destruct c as [[pr hm] hp]. unfold prio3_view in Ew. apply bind_Ok in Ew. destruct Ew as (pfs & _ & Ew). cbv zeta in Ew. apply bind_Ok in Ew. destruct Ew as (vs & _ & Ew).
      injection Ew as <-. reflexivity. }
  destruct EO as [EO Lv]. rewrite EO. cbn [bind]. unfold p3_agg_init. cbn [bind].
  assert (LT : forall r, In r rs -> length (trf (measurement_of r)) = vOUTPUT_LEN v) by (intros r Hi; rewrite Forall_forall in Hr; now apply trf_ok, Hr).
  assert (LK : forall w, length (known w) = vOUTPUT_LEN v) by (intros w; apply vsum_length).
  set (outs := map _ (combine rs views)).
  assert (EF : foldM vec_add outs (fzeros (vOUTPUT_LEN v)) = Ok (vsum (vOUTPUT_LEN v) outs)).
  { apply fold_vec_add_0. apply Forall_forall. intros x Hx. apply in_map_iff in Hx. destruct Hx as ([r w] & <- & Hi). apply in_combine_l in Hi.
    cbn [fst snd]. apply zip_length_eq; [now apply LT|apply LK]. }
  unfold p3_agg_update. change (OUTPUT_LEN (p3_flp p)) with (vOUTPUT_LEN v). refine (eq_trans (f_equal (fun z => bind z _) EF) _). cbn [bind]. f_equal. f_equal.
  unfold outs. rewrite vsum_fsub; [|intros [r w] Hi; apply LT; now apply in_combine_l in Hi|intros; apply LK].
  unfold agg_of. f_equal; f_equal.
  - rewrite <- (map_map fst (fun r : batch_report p => trf (measurement_of r))). f_equal. clear - Lv. revert views Lv. induction rs as [|r rs IH]; intros [|w ws] Lv; try discriminate Lv; [reflexivity|]. cbn [combine map fst]. f_equal. apply IH. cbn in Lv. lia.
  - rewrite <- (map_map snd known). f_equal. clear - Lv. revert views Lv. induction rs as [|r rs IH]; intros [|w ws] Lv; try discriminate Lv; [reflexivity|]. cbn [combine map snd]. f_equal. apply IH. cbn in Lv. lia.
Qed.

Notation valid_report := (report_valid p (test_points_ok v) (circuit_zero v)).
Lemma valid_lengths rs : Forall valid_report rs -> Forall (fun r : batch_report p => length (measurement_of r) = vMEAS_LEN v) rs.
Proof. apply Forall_impl. intros [[a b] c] H. exact (proj1 H). Qed.

(** The views of the reports of two batches. *)
Lemma views_independent j : j < n -> forall rs rs' : list (batch_report p), map public_coins rs = map public_coins rs' ->
  Forall valid_report rs -> Forall valid_report rs' ->
  forall cs, length cs = length rs -> Forall (p3_coins_wf p) cs ->
  exists views, mapM (fun '((meas, qr, jr), c) => prio3_view p j meas qr jr c) (combine rs cs) = Ok views /\
  exists cs', length cs' = length rs' /\ Forall (p3_coins_wf p) cs' /\
    mapM (fun '((meas, qr, jr), c) => prio3_view p j meas qr jr c) (combine rs' cs') = Ok views /\
    forall cs'', length cs'' = length rs' -> Forall (p3_coins_wf p) cs'' ->
      mapM (fun '((meas, qr, jr), c) => prio3_view p j meas qr jr c) (combine rs' cs'') = Ok views -> cs'' = cs'.
Proof.
  intros Hj. induction rs as [|[[meas qr] jr] rs IH]; intros [|[[meas' qr'] jr'] rs'] EP V V' [|c cs] L W; try discriminate EP; try discriminate L.
  - exists []. split; [reflexivity|]. exists []. repeat split; try constructor. intros [|] Lc _ _; [reflexivity|discriminate Lc].
  - cbn [map] in EP. unfold public_coins at 1 3 in EP. cbn [fst snd] in EP. injection EP as <- <- EP.
    inversion V as [|? ? V1 V2]; subst. inversion V' as [|? ? V1' V2']; subst. inversion W as [|? ? W1 W2]; subst.
    destruct V1 as (Hm & Lq & Lj & G). destruct V1' as (Hm' & _ & _ & G').
    destruct (view_independent HP v HV X ID vks n m Hn HnM qr jr Lq Lj (fun k Hk => proj1 (G k Hk)) j meas meas' Hm Hm'
      (fun k Hk => proj2 (G k Hk)) (fun k Hk => proj2 (G' k Hk)) Hj c W1) as (w & Ew & c' & Wc' & Ew' & U).
    fold p in Ew, Ew', Wc', U.
    destruct (IH rs' EP V2 V2' cs ltac:(cbn in L; lia) W2) as (ws & Ews & cs' & L' & W' & Ews' & U').
    exists (w :: ws). split; [cbn [combine mapM]; rewrite Ew; cbn [bind]; now rewrite Ews|].
    exists (c' :: cs'). split; [cbn; now rewrite L'|]. split; [now constructor|]. split; [cbn [combine mapM]; rewrite Ew'; cbn [bind]; now rewrite Ews'|].
    intros [|c'' cs''] L'' W'' E''; [discriminate L''|]. inversion W'' as [|? ? W1'' W2'']; subst.
    cbn [combine mapM] in E''. apply bind_Ok in E''. destruct E'' as (w1 & E1 & E''). apply bind_Ok in E''. destruct E'' as (ws1 & E2 & E''). injection E'' as -> ->.
    f_equal; [apply U; [exact W1''|exact E1]|apply U'; [cbn in L''; lia|exact W2''|exact E2]].
Qed.

Theorem batch_coalition j : j < n -> forall rs rs' : list (batch_report p), map public_coins rs = map public_coins rs' ->
  Forall valid_report rs -> Forall valid_report rs' -> batch_total p rs = batch_total p rs' ->
  forall cs, length cs = length rs -> Forall (p3_coins_wf p) cs ->
  exists seen, batch_view p j rs cs = Ok seen /\
  exists cs', length cs' = length rs' /\ Forall (p3_coins_wf p) cs' /\ batch_view p j rs' cs' = Ok seen /\
    forall cs'', length cs'' = length rs' -> Forall (p3_coins_wf p) cs'' -> batch_view p j rs' cs'' = Ok seen -> cs'' = cs'.
Proof.
  intros Hj rs rs' EP V V' ET cs L W. destruct (views_independent j Hj rs rs' EP V V' cs L W) as (views & EV & cs' & L' & W' & EV' & U).
  rewrite (total_is rs (valid_lengths rs V)), (total_is rs' (valid_lengths rs' V')) in ET.
  apply (f_equal getl) in ET. cbn [getl] in ET.
  exists (views, agg_of rs views). split; [exact (batch_is j rs cs views Hj L (valid_lengths rs V) W EV)|].
  exists cs'. split; [exact L'|]. split; [exact W'|]. split.
  - rewrite (batch_is j rs' cs' views Hj L' (valid_lengths rs' V') W' EV'). unfold agg_of. now rewrite ET.
  - intros cs'' L'' W'' E''. apply U; [exact L''|exact W''|]. unfold batch_view in E''. apply bind_Ok in E''. destruct E'' as (ws & E1 & E'').
    apply bind_Ok in E''. destruct E'' as (? & _ & E''). apply bind_Ok in E''. destruct E'' as (? & _ & E''). apply bind_Ok in E''. destruct E'' as (? & _ & E'').
    injection E'' as -> _. exact E1.
Qed.

(** The view determines the total. *)
Theorem batch_determines j : j < n -> forall rs rs' : list (batch_report p),
  Forall valid_report rs -> Forall valid_report rs' ->
  forall cs cs' seen, length cs = length rs -> Forall (p3_coins_wf p) cs -> length cs' = length rs' -> Forall (p3_coins_wf p) cs' ->
  batch_view p j rs cs = Ok seen -> batch_view p j rs' cs' = Ok seen -> batch_total p rs = batch_total p rs'.
Proof.
  intros Hj rs rs' V V' cs cs' seen L W L' W' E E'. rewrite (total_is rs (valid_lengths rs V)), (total_is rs' (valid_lengths rs' V')).
  assert (K : forall rs cs, Forall valid_report rs -> length cs = length rs -> Forall (p3_coins_wf p) cs -> batch_view p j rs cs = Ok seen ->
    snd seen = agg_of rs (fst seen)).
  { clear - Hj HP HV HT Hn HnM. intros rs cs V L W E. assert (E0 := E). unfold batch_view in E0. apply bind_Ok in E0. destruct E0 as (ws & E1 & E0).
    pose proof (batch_is j rs cs ws Hj L (valid_lengths rs V) W E1) as E2. rewrite E in E2. injection E2 as ->. reflexivity. }
  pose proof (K rs cs V L W E) as A. pose proof (K rs' cs' V' L' W' E') as A'. rewrite A' in A. unfold agg_of in A.
  f_equal. set (k := vsum _ (map known _)) in A.
  assert (Lk : length k = vOUTPUT_LEN v) by apply vsum_length.
  apply (f_equal (fun z => zip_with fadd z k)) in A.
  rewrite !zip_fsub_fadd in A by (now rewrite vsum_length, Lk). now symmetry.
Qed.
End V.

(** ** The batches of run_vdaf() *)
Section Real.
Context {P : NttFieldClass} (HP : NttOk P) (v : Valid P) (HV : ValidOk v) (HT : truncate_linear v).
Context (X : XofClass) (ID : Z) (vks n m : nat) (Hn : 1 <= n) (HnM : (Z.of_nat n < MODULUS P)%Z).
Notation F := (F P).
Let p : Prio3 := {| p3_field := P; p3_flp := FlpBBCGGI19 v; p3_xof := X; p3_ID := ID;
              p3_VERIFY_KEY_SIZE := vks; p3_SHARES := n; p3_PROOFS := m |}.
Context (lim : Z) (HO : Prio3Ok p lim).
Context (Henc : forall M meas, valid_encode v M = Ok meas -> length meas = vMEAS_LEN v).

Lemma outputs_init key ctx (M : vMeasurement v) nonce rand (outs : list (list F)) :
  vdaf_outputs (Prio3Vdaf p) ctx tt key (M, nonce, rand) = Ok outs ->
  length nonce = p3_NONCE_SIZE /\ length rand = RAND_SIZE p /\ length outs = n /\ exists meas, valid_encode v M = Ok meas /\
  exists public iss (st ver : nat -> list F * option bytes), p3_shard p ctx M nonce rand = Ok (public, iss) /\
  forall j, j < n -> exists is, nth_error iss j = Some is /\ p3_verify_init p key ctx j tt nonce public is = Ok (st j, ver j) /\
    forall a b c, expand_input_share p ctx j is = Ok (a, b, c) -> valid_truncate v a = Ok (nth j outs []).
Proof.
  intros H. unfold vdaf_outputs in H. apply bind_Ok in H. destruct H as ([public iss] & ES & H).
  change (vd_shard (Prio3Vdaf p)) with (p3_shard p) in ES.
  change (vd_InputShare (Prio3Vdaf p)) with (Prio3InputShare P) in *.
  assert (length nonce = p3_NONCE_SIZE /\ length rand = RAND_SIZE p /\ exists meas, valid_encode v M = Ok meas) as (Ln & Lr & meas & EM).
  { unfold p3_shard in ES. destruct (Nat.eqb_spec (length nonce) p3_NONCE_SIZE) as [Ln|]; [|discriminate ES]. cbn [check bind] in ES.
    destruct (Nat.eqb_spec (length rand) (RAND_SIZE p)) as [Lr|]; [|discriminate ES]. cbn [check bind] in ES.
    apply bind_Ok in ES. destruct ES as (starts & _ & ES). apply bind_Ok in ES. destruct ES as (meas & EM & _). repeat split; auto. exists meas. exact EM. }
  unfold verify_report in H. apply bind_Ok in H. destruct H as (init & EI & H).
  change (vd_ROUNDS (Prio3Vdaf p)) with 1 in H. cbn [Nat.sub verify_rounds] in H. apply bind_Ok in H. destruct H as (msg & _ & EN).
  change (vd_SHARES (Prio3Vdaf p)) with n in EI.
  change (vd_verify_init (Prio3Vdaf p)) with (p3_verify_init p) in EI.
  change (vd_verify_next (Prio3Vdaf p)) with (p3_verify_next p) in EN.
  pose proof (mapM_Ok_length _ _ _ EI) as LI. rewrite length_range, Nat.sub_0_r in LI.
  pose proof (mapM_Ok_length _ _ _ EN) as LN. rewrite map_length, LI in LN. change (length outs = n) in LN.
  split; [exact Ln|]. split; [exact Lr|]. split; [exact LN|]. exists meas. split; [exact EM|].
  exists public, iss, (fun j => nth j (map fst init) ([], None)), (fun j => nth j (map snd init) ([], None)). split; [exact ES|].
  intros j Hj. destruct (nth_error init j) as [r|] eqn:Er; [|apply nth_error_None in Er; lia].
  assert (EIj : (let* is := get iss j in p3_verify_init p key ctx j tt nonce public is) = Ok r).
  { apply mapM_nth_Ok in EI. apply (proj2 EI j j r); [|exact Er]. rewrite nth_error_range by lia. reflexivity. }
  apply bind_Ok in EIj. destruct EIj as (is & Gi & EV). apply get_Ok in Gi. exists is. split; [exact Gi|].
  assert (N1 : nth_error (map fst init) j = Some (fst r)) by (rewrite nth_error_map, Er; reflexivity).
  assert (N2 : nth_error (map snd init) j = Some (snd r)) by (rewrite nth_error_map, Er; reflexivity).
  split.
  { refine (eq_trans EV _). f_equal. refine (eq_trans (surjective_pairing r) _). f_equal; symmetry; now apply nth_error_nth. }
  intros a b c EX.
  assert (ENj : p3_verify_next p ctx (fst r) msg = Ok (inr (nth j outs []))).
  { apply mapM_nth_Ok in EN. destruct EN as [_ EN]. assert (Eo : nth_error outs j = Some (nth j outs [])) by (apply nth_error_nth'; lia).
    change (vd_OutShare (Prio3Vdaf p)) with (list F) in *.
    specialize (EN j (fst r) (nth j outs [])). specialize (EN N1 Eo).
    apply bind_Ok in EN. destruct EN as ([x|o] & E1 & E2); [discriminate E2|]. now injection E2 as <-. }
  unfold p3_verify_init in EV. rewrite EX in EV. cbn [bind] in EV. apply bind_Ok in EV. destruct EV as (o & Eo & EV). change (valid_truncate v a = Ok o) in Eo. rewrite Eo.
  apply bind_Ok in EV. destruct EV as ([[s part] jrs] & _ & EV). apply bind_Ok in EV. destruct EV as (qr & _ & EV).
  apply bind_Ok in EV. destruct EV as ([[[vs aa] bb] cc] & _ & EV). injection EV as <-.
  cbn [fst] in ENj. unfold p3_verify_next in ENj. apply bind_Ok in ENj. destruct ENj as (t & _ & ENj). injection ENj as ENj. f_equal. exact ENj.
Qed.

Lemma real_report key ctx (rep : vMeasurement v * bytes * bytes) (outs : list (list F)) : ctx_ok ctx ->
  vdaf_outputs (Prio3Vdaf p) ctx tt key rep = Ok outs ->
  length outs = n /\ exists (r : batch_report p) (c : p3_coins p), report_real p key ctx rep r c /\ length (measurement_of r) = vMEAS_LEN v /\
    vecs n (vOUTPUT_LEN v) outs /\ valid_truncate v (measurement_of r) = Ok (vsum (vOUTPUT_LEN v) outs) /\
    forall j, j < n -> valid_truncate v (meas_share p j (measurement_of r) c) = Ok (nth j outs []).
Proof.
  destruct rep as [[M nonce] rand]. intros Hc H. destruct (outputs_init key ctx M nonce rand outs H) as (Ln & Lr & Lo & meas & EM & public & iss & st & ver & ES & HI).
  split; [exact Lo|]. pose proof (Henc M meas EM) as Lm.
  assert (HI' : forall j, j < n -> p3_verify_init p key ctx j tt nonce public (nth j iss (Helper [] None)) = Ok (st j, ver j)).
  { intros j Hj. destruct (HI j Hj) as (is & Ei & E & _). rewrite (nth_error_nth _ _ _ Ei). exact E. }
  destruct (real_view HP v HV HT X ID vks n m lim HO key ctx M meas nonce rand public iss (Helper [] None) st ver Hc Ln Lr EM Lm ES HI')
    as (seed & pr & ms & ps & blinds & qr & jr & vss & W & ER & EX & EQ & EJ & LV & EV & EW). fold p in W, ER, EX, EQ, EJ, EW.
  pose proof W as (_ & Vm & _). change (vecs (n - 1) (vMEAS_LEN v) (tl ms)) in Vm.
  assert (EL : forall j, j < n -> nth j (leader_first (vMEAS_LEN v) meas (tl ms)) [] = nth j ms []).
  { intros j Hj. pose proof (EW (S n)) as E. unfold prio3_view in E. apply bind_Ok in E. destruct E as (pfs & _ & E). cbv zeta in E. apply bind_Ok in E. destruct E as (vs & _ & E).
    change (MEAS_LEN (p3_flp p)) with (vMEAS_LEN v) in E. assert (E' := f_equal (fun z => match z with Ok w => fst (fst w) | Raise _ => [] end) E). cbn [fst] in E'. clear E.
    assert (N : forall l : list (list F), j < n -> nth j (without (S n) l) [] = nth j l []).
    { intros l Hjn. unfold without. destruct (Nat.lt_ge_cases j (length (firstn (S n) l))) as [H1|H1].
      - rewrite app_nth1 by exact H1. rewrite <- (firstn_skipn (S n) l) at 2. now rewrite app_nth1 by exact H1.
      - rewrite firstn_length in H1. rewrite (nth_overflow l) by lia. apply nth_overflow. rewrite app_length, firstn_length, skipn_length. lia. }
    exact (eq_trans (eq_sym (N _ Hj)) (eq_trans (f_equal (fun z => nth j z []) E') (N ms Hj))). }
  assert (TJ : forall j, j < n -> valid_truncate v (nth j (leader_first (vMEAS_LEN v) meas (tl ms)) []) = Ok (nth j outs [])).
  { intros j Hj. rewrite EL by exact Hj. destruct (HI j Hj) as (is & Ei & _ & T). apply (T (nth j ms []) (nth j ps []) (nth j blinds None)).
    pose proof (EX j Hj) as E1. rewrite (nth_error_nth _ _ _ Ei) in E1. exact E1. }
  pose proof (leader_vecs (n - 1) (vMEAS_LEN v) meas (tl ms) Lm Vm) as VL. replace (S (n - 1)) with n in VL by lia.
  assert (EO : outs = map (trf v) (leader_first (vMEAS_LEN v) meas (tl ms))).
  { apply (nth_ext' []); [rewrite map_length, Lo; now destruct VL|]. intros j Hj. rewrite (nth_map' _ _ _ []) by (destruct VL; lia).
    unfold trf. rewrite TJ by lia. reflexivity. }
  exists (meas, qr, jr), (pr, tl ms, tl ps). split; [|split; [|split; [|split]]].
  - split; [exact EM|]. split; [exact W|]. exists public, iss, seed, ps, vss. cbn [fst snd].
    split; [exact ES|]. split; [exact ER|]. split; [exact EQ|]. split; [exact EJ|]. change (MEAS_LEN (p3_flp p)) with (vMEAS_LEN v). split.
    + intros j Hj. destruct (HI j Hj) as (is & Ei & E & _). exists is, (nth j blinds None), (st j), (snd (ver j)). split; [exact Ei|]. split.
      * pose proof (EX j Hj) as E1. rewrite (nth_error_nth _ _ _ Ei) in E1. rewrite EL by exact Hj. exact E1.
      * refine (eq_trans E _). f_equal. f_equal. refine (eq_trans (surjective_pairing (ver j)) _). f_equal. now apply EV.
    + intros j. pose proof (EW j) as E. rewrite E. f_equal. f_equal. f_equal.
      unfold prio3_view in E. apply bind_Ok in E. destruct E as (pfs & _ & E). cbv zeta in E. apply bind_Ok in E. destruct E as (vs & _ & E).
      exact (eq_sym (f_equal (fun z => match z with Ok w => fst (fst w) | Raise _ => [] end) E)).
  - exact Lm.
  - rewrite EO. destruct VL as [L A]. split; [rewrite map_length; exact L|]. apply Forall_forall. intros x Hx. apply in_map_iff in Hx. destruct Hx as (y & <- & Hy).
    rewrite Forall_forall in A. apply (trf_ok v HT). now apply A.
  - unfold measurement_of. cbn [fst]. rewrite EO, <- (trf_sum HP v HV HT n _ VL), leader_sum by exact Lm. apply (trf_ok v HT). exact Lm.
  - intros j Hj. unfold meas_share, measurement_of. cbn [fst snd]. change (MEAS_LEN (p3_flp p)) with (vMEAS_LEN v). now apply TJ.
Qed.

Theorem real_batch key ctx ms (aggs : list (list F)) : ctx_ok ctx -> aggregate_shares (Prio3Vdaf p) ctx tt key ms = Ok aggs ->
  exists (rs : list (batch_report p)) (cs : list (p3_coins p)), length rs = length ms /\ length cs = length ms /\
    (forall i rep r c, nth_error ms i = Some rep -> nth_error rs i = Some r -> nth_error cs i = Some c -> report_real p key ctx rep r c) /\
    batch_total p rs = Ok (vsum (vOUTPUT_LEN v) aggs) /\
    forall j, j < n -> exists views, batch_view p j rs cs = Ok (views, nth j aggs []).
Proof.
  intros Hc H. unfold aggregate_shares in H. apply bind_Ok in H. destruct H as (outs & EM & EF).
  assert (HB : exists (rs : list (batch_report p)) (cs : list (p3_coins p)), length rs = length ms /\ length cs = length ms /\
    (forall i rep r c, nth_error ms i = Some rep -> nth_error rs i = Some r -> nth_error cs i = Some c -> report_real p key ctx rep r c) /\
    (forall j, j < n -> mapM (fun '((meas, _, _), c) => flp_truncate (p3_flp p) (meas_share p j meas c)) (combine rs cs) = Ok (map (fun o => nth j o []) outs)) /\
    (forall j, exists views, mapM (fun '((meas, qr, jr), c) => prio3_view p j meas qr jr c) (combine rs cs) = Ok views) /\
    Forall (vecs n (vOUTPUT_LEN v)) outs /\ batch_total p rs = Ok (vsum (vOUTPUT_LEN v) (map (vsum (vOUTPUT_LEN v)) outs))).
  { clear EF. revert outs EM. induction ms as [|rep ms' IH]; intros outs EM; cbn [mapM] in EM.
    - injection EM as <-. exists [], []. split; [reflexivity|]. split; [reflexivity|]. split; [intros [|] ? ? ? E; discriminate E|]. split; [reflexivity|]. split; [intros j; exists []; reflexivity|]. split; [constructor|reflexivity].
    - apply bind_Ok in EM. destruct EM as (o & Eo & EM). apply bind_Ok in EM. destruct EM as (os & Eos & EM). injection EM as <-.
      destruct (real_report key ctx rep o Hc Eo) as (Lo & r & c & RR & Lm & Vo & TM & HT1). destruct (IH os Eos) as (rs & cs & L1 & L2 & A & B & C & D & T).
      exists (r :: rs), (c :: cs). split; [cbn; now rewrite L1|]. split; [cbn; now rewrite L2|]. split; [|split; [|split; [|split]]].
      + intros [|i] rep' r' c' E1 E2 E3; [injection E1 as <-; injection E2 as <-; injection E3 as <-; exact RR|]. exact (A i rep' r' c' E1 E2 E3).
      + intros j Hj. cbn [combine mapM map]. destruct r as [[meas qr] jr]. pose proof (HT1 j Hj) as T1. unfold measurement_of in T1. cbn [fst] in T1.
        change (flp_truncate (p3_flp p)) with (valid_truncate v) in *. rewrite T1. cbn [bind]. pose proof (B j Hj) as B1. refine (eq_trans (f_equal (fun z => bind z _) B1) _). reflexivity.
      + intros j. destruct (C j) as (ws & Ew). destruct r as [[meas qr] jr]. destruct rep as [[M nonce] rand]. destruct RR as (_ & _ & pu & is & sd & ps & vs & _ & _ & _ & _ & _ & RV).
        eexists. cbn [combine mapM]. rewrite (RV j). cbn [bind]. rewrite Ew. reflexivity.
      + constructor; [exact Vo|exact D].
      + unfold batch_total in T |- *. apply bind_Ok in T. destruct T as (us & Eu & T). cbn [mapM].
        refine (eq_trans (f_equal (fun z => bind (bind z _) _) TM) _). cbn [bind]. rewrite Eu. cbn [bind map]. f_equal. rewrite !vsum_cons by apply vsum_length.
        f_equal. exact (f_equal getl T). }
  destruct HB as (rs & cs & L1 & L2 & A & B & C & D & T). exists rs, cs. split; [exact L1|]. split; [exact L2|]. split; [exact A|].
  assert (HJ : length aggs = n /\ forall j, j < n -> foldM (p3_agg_update p tt) (map (fun o => nth j o []) outs) (fzeros (OUTPUT_LEN (p3_flp p))) = Ok (nth j aggs [])).
  { change (vd_SHARES (Prio3Vdaf p)) with n in EF. unfold fold_all in EF.
    pose proof (mapM_Ok_length _ _ _ EF) as LA. rewrite length_range, Nat.sub_0_r in LA. change (length aggs = n) in LA. split; [exact LA|]. intros j Hj.
    assert (Ej : fold_outputs (p3_agg_init p tt) (p3_agg_update p tt) outs j = Ok (nth j aggs [])).
    { apply mapM_nth_Ok in EF. apply (proj2 EF j j); [rewrite nth_error_range by lia; reflexivity|]. apply nth_error_nth'. lia. }
    unfold fold_outputs in Ej. unfold p3_agg_init in Ej. cbn [bind] in Ej.
    assert (G : forall outs (a : list F), Forall (vecs n (vOUTPUT_LEN v)) outs ->
      foldM (fun a o => let* o := get o j in p3_agg_update p tt a o) outs a = foldM (p3_agg_update p tt) (map (fun o => nth j o []) outs) a).
    { clear - Hj. induction outs as [|o outs IH]; intros a D; [reflexivity|]. destruct (Forall_inv D) as [D1 _]. pose proof (Forall_inv_tail D) as D2. cbn [foldM map].
      assert (EG : get o j = Ok (nth j o [])) by (apply get_nth; lia). refine (eq_trans (f_equal (fun z => bind (bind z _) _) EG) _). cbn [bind]. destruct (p3_agg_update p tt a (nth j o [])); [cbn [bind]; now apply IH|reflexivity]. }
    change (vd_OutShare (Prio3Vdaf p)) with (list F) in *. rewrite <- G by exact D. exact Ej. }
  destruct HJ as [LA HJ]. split.
  { rewrite T. f_equal. rewrite <- (columns_total n (vOUTPUT_LEN v) outs D). f_equal. apply (nth_ext' []); [now rewrite map_length, seq_length|].
    intros j Hj. rewrite map_length, seq_length in Hj. rewrite (nth_map' _ _ _ 0), seq_nth by (rewrite ?seq_length; lia). cbn [Nat.add].
    pose proof (HJ j Hj) as E. assert (E' : foldM vec_add (map (fun o => nth j o []) outs) (fzeros (vOUTPUT_LEN v)) = Ok (vsum (vOUTPUT_LEN v) (map (fun o => nth j o []) outs))).
    { apply fold_vec_add_0. apply Forall_forall. intros x Hx. apply in_map_iff in Hx. destruct Hx as (o & <- & Ho). rewrite Forall_forall in D. destruct (D o Ho) as [D1 D2].
      rewrite Forall_forall in D2. apply D2, nth_In. lia. }
    exact (f_equal getl (eq_trans (eq_sym E') E)). }
  intros j Hj. destruct (C j) as (views & Ev). exists views. unfold batch_view. rewrite Ev. cbn [bind]. rewrite (B j Hj). cbn [bind].
  unfold p3_agg_init. cbn [bind]. refine (eq_trans (f_equal (fun z => bind z _) (HJ j Hj)) _). reflexivity.
Qed.
End Real.
