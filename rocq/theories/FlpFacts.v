(** What prove, query and decide of FlpBBCGGI19 compute, for any circuit
    satisfying [ValidOk]. *)
From Verif Require Import Base Common Field Poly FlpBBCGGI19 Spec CircuitSpec BaseFacts CommonFacts
  FieldFacts PolyAlg Roots PolyFacts LagrangeFacts GadgetFacts CircuitFacts InterpFacts
  VecFacts Counting.
Open Scope nat_scope.

Section Flp.
Context {P : NttFieldClass} (HP : NttOk P) (v : Valid P) (HV : ValidOk v).
Notation F := (F P).
Notation root := (nth_root P).
Notation G := (length (GADGETS v)).
Notation gd i := (nth i (GADGETS v) Mul).
Notation cl i := (nth i (GADGET_CALLS v) 0).
Notation Lw i := (wlog (cl i)).
Notation Mg i := (glog (gd i) (Lw i)).
Notation ln i := (glen (gd i) (Lw i)).
Notation EO := (EVAL_OUTPUT_LEN v).
Let Hp : prime (MODULUS P) := ntt_prime P HP.
Add Ring FringFF : (@F_ring P).

(** ** The parameters of a gadget *)
Lemma g_calls i : i < G -> 1 <= cl i.
Proof. intros H. apply (vo_gadgets v HV i H). Qed.
Lemma g_wf i : i < G -> gwf P (Lw i) (gd i).
Proof. intros H. apply (vo_gadgets v HV i H). Qed.
Lemma g_M i : i < G -> Mg i <= gen_log P.
Proof.
  intros H. destruct (vo_gadgets v HV i H) as (_ & _ & Hle). rewrite (ntt_order P HP) in Hle.
  apply Z.pow_le_mono_r_iff in Hle; lia.
Qed.
Lemma g_ln i : ln i = DEGREE (gd i) * (2 ^ Lw i - 1) + 1.
Proof. reflexivity. Qed.
Lemma g_L_M i : i < G -> Lw i <= Mg i.
Proof.
  intros H. pose proof (gwf_degree _ _ (g_wf i H)) as Hd. pose proof (glog_bound (gd i) (Lw i)) as [Hb _].
  pose proof (pow2_pos (Lw i)).
  apply (Nat.pow_le_mono_r_iff 2); [lia|]. eapply Nat.le_trans; [|exact Hb].
  rewrite g_ln. nia.
Qed.
Lemma g_L i : i < G -> Lw i <= gen_log P.
Proof. intros H. pose proof (g_L_M i H). pose proof (g_M i H). lia. Qed.
Lemma g_arity i : i < G -> 1 <= ARITY (gd i).
Proof. intros H. apply (gwf_arity (P := P) (Lw i)), g_wf, H. Qed.
Lemma g_room i : cl i < 2 ^ Lw i.
Proof. pose proof (wlog_bound (cl i)). lia. Qed.
Lemma nth_gc i : nth i (combine (GADGETS v) (GADGET_CALLS v)) (Mul, 0) = (gd i, cl i).
Proof. apply combine_nth, (vo_len v HV). Qed.
Lemma gc_length : length (combine (GADGETS v) (GADGET_CALLS v)) = G.
Proof. rewrite combine_length, (vo_len v HV). lia. Qed.
Lemma order_check i : i < G -> (GEN_ORDER P mod Z.of_nat (wire_poly_len (cl i)) =? 0)%Z = true.
Proof.
  intros H. apply Z.eqb_eq. rewrite wire_poly_len_pow, pow2_nat_Z, (ntt_order P HP).
  pose proof (g_L i H).
  replace (2 ^ Z.of_nat (gen_log P))%Z
    with (2 ^ Z.of_nat (gen_log P - Lw i) * 2 ^ Z.of_nat (Lw i))%Z.
  - apply Z.mod_mul. apply Z.pow_nonzero; lia.
  - rewrite <- Z.pow_add_r by lia. f_equal. lia.
Qed.

(** ** Layout of the randomness and of the proof *)
Definition seeds_at (f : nat -> nat) (l : list F) (i : nat) : list F :=
  firstn (ARITY (gd i)) (skipn (nsum i f) l).
Definition ar (i : nat) : nat := ARITY (gd i).
Definition qf (i : nat) : nat := ARITY (gd i) + ln i.
Definition pseeds (prove_rand : list F) (i : nat) : list F := seeds_at ar prove_rand i.
Definition qseeds (proof : list F) (i : nat) : list F := seeds_at qf proof i.
Definition gvals (proof : list F) (i : nat) : list F := firstn (ln i) (skipn (nsum i qf + ARITY (gd i)) proof).
(** The gadget polynomial in a proof. *)
Definition gpoly (proof : list F) (i : nat) : list F := ipoly (Mg i) (gvals proof i).

Lemma prove_rand_len_eq : prove_rand_len v = nsum G ar.
Proof. unfold prove_rand_len. apply sum_nat_nsum. Qed.
Lemma proof_len_eq : proof_len v = nsum G qf.
Proof.
  unfold proof_len. rewrite (sum_nat_nsum _ _ (Mul, 0)), gc_length. apply nsum_ext. intros i Hi.
  rewrite nth_gc, wire_poly_len_pow. reflexivity.
Qed.
Lemma verifier_len_eq : verifier_len v = 1 + nsum G (fun i => ARITY (gd i) + 1).
Proof. unfold verifier_len. f_equal. apply sum_nat_nsum with (f := fun g => ARITY g + 1). Qed.

Lemma pseeds_length l i : i < G -> length l = prove_rand_len v -> length (pseeds l i) = ARITY (gd i).
Proof.
  intros Hi Hl. unfold pseeds, seeds_at. rewrite firstn_length, skipn_length, Hl, prove_rand_len_eq.
  pose proof (nsum_le (S i) G ar Hi) as H. cbn in H. unfold ar in H at 2. lia.
Qed.
Lemma qseeds_length l i : i < G -> length l = proof_len v -> length (qseeds l i) = ARITY (gd i).
Proof.
  intros Hi Hl. unfold qseeds, seeds_at. rewrite firstn_length, skipn_length, Hl, proof_len_eq.
  pose proof (nsum_le (S i) G qf Hi) as H. cbn in H. unfold qf in H at 2. lia.
Qed.
Lemma gvals_length l i : i < G -> length l = proof_len v -> length (gvals l i) = ln i.
Proof.
  intros Hi Hl. unfold gvals. rewrite firstn_length, skipn_length, Hl, proof_len_eq.
  pose proof (nsum_le (S i) G qf Hi) as H. cbn in H. unfold qf in H at 2. lia.
Qed.

(** ** Prover gadgets *)
Definition pstate (sd : nat -> list F) (log : list (list (list F))) : list (pgadget P) :=
  map (fun i => mkPG (gd i) (fill (2 ^ Lw i) (sd i) (nth i log [])) (length (nth i log []))) (seq 0 G).

Lemma nth_nils (A : Type) i n : nth i (repeat (@nil A) n) [] = [].
Proof. rewrite nth_repeat'. now destruct (_ <? _). Qed.

Lemma prove_wrap_ok prove_rand : length prove_rand = prove_rand_len v ->
  ProveGadget_wrap v prove_rand = Ok (pstate (pseeds prove_rand) (repeat [] G)).
Proof.
  intros Hl. unfold ProveGadget_wrap. rewrite Hl, Nat.eqb_refl. cbn [check bind].
  edestruct (foldM_inv (Mul, 0) (fun i (s : list (pgadget P) * list F) =>
      fst s = map (fun i => mkPG (gd i) (fill (2 ^ Lw i) (pseeds prove_rand i) []) 0) (seq 0 i) /\
      snd s = skipn (nsum i ar) prove_rand)) as (r & E & Hf & Hs); [| |rewrite E].
  - now split.
  - intros i [w rest] Hi [E1 E2]. cbn [fst snd] in *. rewrite gc_length in Hi. rewrite nth_gc.
    rewrite front_ok.
    2: { rewrite E2, skipn_length, Hl, prove_rand_len_eq. pose proof (nsum_le (S i) G ar Hi) as H.
         cbn in H. unfold ar in H at 2. lia. }
    cbn [bind]. unfold ProveGadget_init.
    replace (firstn (ARITY (gd i)) rest) with (pseeds prove_rand i) by (now rewrite E2).
    rewrite pseeds_length, Nat.eqb_refl by easy. cbn [check bind].
    rewrite init_wires_ok by (rewrite wire_poly_len_pow; apply pow2_pos). cbn [bind].
    eexists; split; [reflexivity|]. cbn [fst snd]. split.
    + rewrite seq_S, map_app, E1, wire_poly_len_pow. reflexivity.
    + rewrite E2, skipn_skipn'. cbn [nsum]. f_equal. change (ar i) with (ARITY (gd i)). lia.
  - destruct r as [w rest]. cbn [fst snd] in *. rewrite gc_length in *. cbn [bind].
    rewrite Hs, skipn_length, Hl, prove_rand_len_eq, Nat.sub_diag. cbn [Nat.eqb check bind].
    rewrite Hf. f_equal. unfold pstate. apply map_ext. intros i. now rewrite nth_nils.
Qed.

Definition plain_oracle (i k : nat) (inp : list F) : F := gval (gd i) inp.

Lemma prove_handler_ok sd log i inp : (forall i, i < G -> length (sd i) = ARITY (gd i)) ->
  length log = G -> i < G -> length inp = ARITY (gd i) -> length (nth i log []) < cl i ->
  prove_handler (pstate sd log) i inp =
  Ok (plain_oracle i (S (length (nth i log []))) inp, pstate sd (upd log i (nth i log [] ++ [inp]))).
Proof.
  intros Hsd Hl Hi Ha Hb. unfold prove_handler.
  assert (Hpl : length (pstate sd log) = G) by (unfold pstate; now rewrite map_length, seq_length).
  rewrite (get_nth _ _ (mkPG Mul [] 0)) by lia. cbn [bind]. unfold pstate at 1. rewrite nth_map_seq by easy.
  unfold ProveGadget_eval. cbn [pg_inner pg_wires pg_k]. rewrite Nat.add_1_r.
  rewrite record_wires_ok by (rewrite ?Hsd; try easy; pose proof (g_room i); lia). cbn [bind].
  rewrite (gadget_eval_gval (Lw i)) by (easy || now apply g_wf). cbn [bind].
  rewrite set_lt by lia. cbn [bind]. unfold plain_oracle. do 2 f_equal. unfold pstate.
  rewrite upd_map_seq by easy. apply map_ext_in. intros j Hj. apply in_seq in Hj.
  rewrite nth_upd by lia. rewrite (Nat.eqb_sym i j). destruct (Nat.eqb_spec j i) as [->|]; [|easy].
  rewrite app_length. cbn [length]. rewrite Nat.add_1_r. easy.
Qed.

(** ** The circuit on the plain gadgets *)
Lemma plain_run meas joint_rand n :
  length meas = vMEAS_LEN v -> length joint_rand = vJOINT_RAND_LEN v -> 1 <= n -> (Z.of_nat n < MODULUS P)%Z ->
  exists out log, valid_eval_plain v meas joint_rand n = Ok out /\ length out = EO /\
    trun plain_oracle (valid_eval v meas joint_rand n) (repeat [] G) = Some (out, log) /\
    extends (GADGETS v) (GADGET_CALLS v) (repeat [] G) log.
Proof.
  intros Hm Hj Hn Hn'.
  pose proof (vo_calls v HV meas joint_rand n Hm Hj Hn Hn') as Hpok.
  assert (El : map (@length (list F)) (repeat [] G) = repeat 0 G).
  { clear. generalize G. intros m. induction m; cbn; congruence. }
  rewrite <- El in Hpok.
  destruct (@run_sim P (list F) _ (GADGETS v) (GADGET_CALLS v) plain_handler (fun _ => GADGETS v) plain_oracle) with
    (m := valid_eval v meas joint_rand n) (log := repeat (@nil (list F)) G)
    (post := fun out : list F => length out = EO) as (a & log & E1 & E2 & E3 & E4).
  - intros log i inp Hl Hi Ha Hb. unfold plain_handler. rewrite (get_nth _ _ Mul) by easy. cbn [bind].
    rewrite (gadget_eval_gval (Lw i)) by (easy || now apply g_wf). reflexivity.
  - now rewrite repeat_length.
  - exact Hpok.
  - exists a, log. split; [|easy]. unfold valid_eval_plain. now rewrite E1.
Qed.

Lemma ext_log gs calls (log : list (list (list F))) i n :
  extends gs calls (repeat [] n) log -> i < length gs ->
  length (nth i log []) <= nth i calls 0 /\
  Forall (fun inp => length inp = ARITY (nth i gs Mul)) (nth i log []).
Proof.
  intros [_ H] Hi. destruct (H i Hi) as (ext & E & Hf & Hn). rewrite nth_nils in E. cbn in E. rewrite E in *.
  split; [|easy]. destruct ext; [cbn; lia|]. apply Hn. discriminate.
Qed.

(** ** prove *)

(** Coefficients of the wire polynomials of gadget [i]. *)
Definition wpolys (i : nat) (seeds : list F) (log : list (list F)) : list (list F) :=
  map (wpoly (Lw i)) (fill (2 ^ Lw i) seeds log).
Definition proof_block (i : nat) (seeds : list F) (log : list (list F)) : list F :=
  seeds ++ firstn (ln i) (evals (Mg i) (gcomp (gd i) (wpolys i seeds log))).

Lemma wpolys_length i seeds log : length (wpolys i seeds log) = length seeds.
Proof. unfold wpolys. now rewrite map_length, fill_length. Qed.
Lemma wpolys_lengths i seeds log c : i < G -> length log <= cl i -> In c (wpolys i seeds log) ->
  length c = 2 ^ Lw i.
Proof.
  intros Hi Hl Hc. apply in_map_iff in Hc as (w & <- & Hw).
  apply (wpoly_length HP); [now apply g_L|]. pose proof (g_room i).
  eapply fill_wire_length; [| |exact Hw]; lia.
Qed.
Lemma evals_wpolys i seeds log : i < G -> length log <= cl i ->
  map (evals (Lw i)) (wpolys i seeds log) = fill (2 ^ Lw i) seeds log.
Proof.
  intros Hi Hl. unfold wpolys. rewrite map_map. rewrite <- (map_id (fill _ _ _)) at 2.
  apply map_ext_in. intros w Hw. apply (evals_wpoly HP); [now apply g_L|]. pose proof (g_room i).
  eapply fill_wire_length; [| |exact Hw]; lia.
Qed.
Lemma gcomp_wpolys_length i seeds log : i < G -> length log <= cl i -> length seeds = ARITY (gd i) ->
  length (gcomp (gd i) (wpolys i seeds log)) <= ln i.
Proof.
  intros Hi Hl Hs. apply gcomp_length; [now apply g_wf | now rewrite wpolys_length |].
  intros c Hc. now apply (wpolys_lengths i) in Hc.
Qed.
Lemma proof_block_length i seeds log : i < G -> length seeds = ARITY (gd i) ->
  length (proof_block i seeds log) = qf i.
Proof.
  intros Hi Hs. unfold proof_block, qf. rewrite app_length, firstn_length, evals_length.
  pose proof (glog_bound (gd i) (Lw i)). lia.
Qed.

Lemma mapM_get_all {A} (l : list A) n : length l = n -> mapM (fun j => get l j) (range 0 n) = Ok l.
Proof.
  intros H. destruct l as [|d l'] eqn:El.
  - subst n. reflexivity.
  - rewrite (mapM_map _ (fun j => nth j l d)).
    + f_equal. rewrite <- El in *. apply (nth_ext' d).
      * rewrite map_length, length_range. lia.
      * rewrite map_length, length_range. intros i Hi.
        rewrite (nth_map' _ _ _ 0) by (rewrite length_range; lia). rewrite nth_range by lia. easy.
    + intros x Hx. apply in_range in Hx. subst l. apply get_nth. cbn in *. lia.
Qed.

Lemma prove_gadget_ok proof i seeds log : i < G -> length log <= cl i -> length seeds = ARITY (gd i) ->
  prove_gadget proof (mkPG (gd i) (fill (2 ^ Lw i) seeds log) (length log)) (cl i) =
  Ok (proof ++ proof_block i seeds log).
Proof.
  intros Hi Hl Hs. unfold prove_gadget. rewrite order_check by easy. cbn [check bind pg_inner pg_wires].
  rewrite mapM_get_all by (now rewrite fill_length). cbn [bind].
  pose proof (g_room i) as Hroom.
  replace (forallb _ _) with true.
  2: { symmetry. apply forallb_forall. intros w Hw. apply Nat.eqb_eq. rewrite wire_poly_len_pow.
       eapply fill_wire_length; [| |exact Hw]; lia. }
  cbn [check bind].
  rewrite (mapM_map _ (fun j => nth j seeds f0)).
  2: { intros j Hj. apply in_range in Hj. rewrite (get_nth _ _ []) by (rewrite fill_length; lia). cbn [bind].
       rewrite (get_nth _ _ f0).
       - now rewrite fill_0 by lia.
       - rewrite (fill_wire_length (2 ^ Lw i) seeds log); try lia. apply nth_In. rewrite fill_length. lia. }
  cbn [bind]. rewrite <- (evals_wpolys i) by easy.
  rewrite (gadget_eval_poly_spec HP).
  - cbn [bind]. unfold proof_block. rewrite wire_poly_len_pow.
    replace (map (fun j => nth j seeds f0) (range 0 (ARITY (gd i)))) with seeds; [reflexivity|].
    symmetry. apply (nth_ext' f0).
    + rewrite map_length, length_range. lia.
    + rewrite map_length, length_range. intros j Hj.
      rewrite (nth_map' _ _ _ 0) by (rewrite length_range; lia). rewrite nth_range by lia. easy.
  - apply wlog_pos. now apply g_calls.
  - now apply g_wf.
  - now apply g_M.
  - now rewrite wpolys_length.
  - intros c Hc. now apply (wpolys_lengths i) in Hc.
Qed.

Lemma prove_ok meas prove_rand joint_rand :
  length meas = vMEAS_LEN v -> length prove_rand = prove_rand_len v ->
  length joint_rand = vJOINT_RAND_LEN v ->
  exists out log, valid_eval_plain v meas joint_rand 1 = Ok out /\ length out = EO /\
    trun plain_oracle (valid_eval v meas joint_rand 1) (repeat [] G) = Some (out, log) /\
    extends (GADGETS v) (GADGET_CALLS v) (repeat [] G) log /\
    bbcggi19_prove v meas prove_rand joint_rand =
      Ok (concat (map (fun i => proof_block i (pseeds prove_rand i) (nth i log [])) (seq 0 G))).
Proof.
  intros Hm Hr Hj.
  pose proof (prime_ge_2 _ Hp) as Hge.
  assert (H1 : (Z.of_nat 1 < MODULUS P)%Z) by (cbn; lia).
  destruct (plain_run meas joint_rand 1 Hm Hj (le_n 1) H1) as (out & log & E1 & E2 & E3 & E4).
  exists out, log. split; [easy|]. split; [easy|]. split; [easy|]. split; [easy|].
  unfold bbcggi19_prove. rewrite Hm, Hr, Hj, !Nat.eqb_refl. cbn [check bind].
  rewrite prove_wrap_ok by easy. cbn [bind].
  pose proof (vo_calls v HV meas joint_rand 1 Hm Hj (le_n 1) H1) as Hpok.
  assert (El : map (@length (list F)) (repeat [] G) = repeat 0 G).
  { clear. generalize G. intros m. induction m; cbn; congruence. }
  rewrite <- El in Hpok.
  destruct (@run_sim P (list F) _ (GADGETS v) (GADGET_CALLS v) prove_handler (pstate (pseeds prove_rand)) plain_oracle) with
    (m := valid_eval v meas joint_rand 1) (log := repeat (@nil (list F)) G)
    (post := fun out : list F => length out = EO) as (a & log' & R1 & R2 & _ & _).
  - intros log0 i inp Hl Hi Ha Hb. apply prove_handler_ok; try easy. intros; now apply pseeds_length.
  - now rewrite repeat_length.
  - exact Hpok.
  - rewrite E3 in R2. injection R2 as <- <-. rewrite R1. cbn [bind].
    assert (Hpl : length (pstate (pseeds prove_rand) log) = G) by (unfold pstate; now rewrite map_length, seq_length).
    edestruct (foldM_inv (@mkPG P Mul [] 0, 0) (fun i (proof : list F) =>
       proof = concat (map (fun i => proof_block i (pseeds prove_rand i) (nth i log [])) (seq 0 i))))
      as (r & E & Hr'); [| |rewrite E].
    + reflexivity.
    + intros i r Hi ->. rewrite combine_length, Hpl, <- (vo_len v HV), Nat.min_id in Hi.
      rewrite combine_nth by (rewrite Hpl; apply (vo_len v HV)).
      unfold pstate. rewrite nth_map_seq by easy. rewrite prove_gadget_ok.
      * eexists; split; [reflexivity|]. now rewrite concat_seq_S.
      * easy.
      * now apply (ext_log _ _ _ _ _ E4).
      * now apply pseeds_length.
    + cbn [bind]. rewrite combine_length, Hpl, <- (vo_len v HV), Nat.min_id in Hr'. subst r.
      rewrite concat_seq_length, proof_len_eq.
      rewrite (nsum_ext G _ qf), Nat.eqb_refl; [easy|].
      intros i Hi. apply proof_block_length; [easy|]. now apply pseeds_length.
Qed.

(** ** query *)
Definition qstate (proof : list F) (log : list (list (list F))) : list (qgadget P) :=
  map (fun i => mkQG (ARITY (gd i)) (fill (2 ^ Lw i) (qseeds proof i) (nth i log []))
                     (length (nth i log [])) (evals (Mg i) (gpoly proof i)) (2 ^ (Mg i - Lw i))) (seq 0 G).

Lemma QueryGadget_init_ok i (seeds vals : list F) : i < G -> length seeds = ARITY (gd i) -> length vals = ln i ->
  QueryGadget_init seeds vals (gd i) (cl i) =
  Ok (mkQG (ARITY (gd i)) (fill (2 ^ Lw i) seeds []) 0 (evals (Mg i) (ipoly (Mg i) vals)) (2 ^ (Mg i - Lw i))).
Proof.
  intros Hi Hs Hv. unfold QueryGadget_init. rewrite Hs, Nat.eqb_refl. cbn [check bind].
  rewrite order_check by easy. cbn [check bind]. rewrite wire_poly_len_pow.
  rewrite init_wires_ok by apply pow2_pos. cbn [bind].
  pose proof (glen_pos (gd i) (Lw i)) as Hpos. pose proof (glog_bound (gd i) (Lw i)) as [Hb1 Hb2].
  pose proof (g_M i Hi) as HM.
  rewrite Hv, np2_next by easy. cbn [bind].
  change (np2 (ln i)) with (2 ^ Mg i).
  rewrite (extend_spec HP (Mg i) (ipoly (Mg i) vals) vals (ln i)); [|easy|easy| |].
  2: { rewrite <- Hv. apply (ipoly_spec HP); lia. }
  2: { rewrite <- Hv. now rewrite (firstn_evals_ipoly HP) by lia. }
  cbn [bind]. change (np2 (gadget_poly_len (DEGREE (gd i)) (2 ^ Lw i))) with (2 ^ Mg i).
  replace (double_until (2 ^ Mg i) (2 ^ Mg i) (evals (Mg i) (ipoly (Mg i) vals)))
    with (Ok (evals (Mg i) (ipoly (Mg i) vals))).
  2: { pose proof (pow2_pos (Mg i)). pose proof (evals_length (Mg i) (ipoly (Mg i) vals)) as El.
       generalize dependent (evals (Mg i) (ipoly (Mg i) vals)). intros e El.
       destruct (2 ^ Mg i); [lia|]. cbn [double_until]. rewrite El, Nat.ltb_irrefl. easy. }
  cbn [bind]. rewrite !assert_power_of_2_nat. cbn [bind].
  rewrite (proj2 (Nat.leb_le _ _) (g_L_M i Hi)). reflexivity.
Qed.

Lemma query_wrap_ok proof : length proof = proof_len v ->
  QueryGadget_wrap v proof = Ok (qstate proof (repeat [] G)).
Proof.
  intros Hl. unfold QueryGadget_wrap. rewrite Hl, Nat.eqb_refl. cbn [check bind].
  edestruct (foldM_inv (Mul, 0) (fun i (s : list (qgadget P) * list F) =>
      fst s = map (fun i => mkQG (ARITY (gd i)) (fill (2 ^ Lw i) (qseeds proof i) [])
                     0 (evals (Mg i) (gpoly proof i)) (2 ^ (Mg i - Lw i))) (seq 0 i) /\
      snd s = skipn (nsum i qf) proof)) as (r & E & Hf & Hs); [| |rewrite E].
  - now split.
  - intros i [w rest] Hi [E1 E2]. cbn [fst snd] in *. rewrite gc_length in Hi. rewrite nth_gc.
    pose proof (nsum_le (S i) G qf Hi) as H. cbn [nsum] in H. unfold qf in H at 2.
    rewrite front_ok by (rewrite E2, skipn_length, Hl, proof_len_eq; lia). cbn [bind].
    rewrite wire_poly_len_pow. change (gadget_poly_len (DEGREE (gd i)) (2 ^ Lw i)) with (ln i).
    rewrite front_ok by (rewrite E2, !skipn_length, Hl, proof_len_eq; lia). cbn [bind].
    replace (firstn (ARITY (gd i)) rest) with (qseeds proof i) by (now rewrite E2).
    replace (firstn (ln i) (skipn (ARITY (gd i)) rest)) with (gvals proof i).
    2: { rewrite E2, skipn_skipn'. unfold gvals. do 2 f_equal. lia. }
    rewrite QueryGadget_init_ok by (easy || now apply qseeds_length || now apply gvals_length).
    cbn [bind]. eexists; split; [reflexivity|]. cbn [fst snd]. split.
    + rewrite seq_S, map_app, E1. reflexivity.
    + rewrite E2, !skipn_skipn'. cbn [nsum]. f_equal. change (qf i) with (ARITY (gd i) + ln i). lia.
  - destruct r as [w rest]. cbn [fst snd] in *. rewrite gc_length in *. cbn [bind].
    rewrite Hs, skipn_length, Hl, proof_len_eq, Nat.sub_diag. cbn [Nat.eqb check bind].
    rewrite Hf. f_equal. unfold qstate. apply map_ext. intros i. now rewrite nth_nils.
Qed.

Definition query_oracle (proof : list F) (i k : nat) (_ : list F) : F :=
  peval (gpoly proof i) (npow (root (Lw i)) k).

Lemma query_handler_ok proof log i inp : length proof = proof_len v ->
  length log = G -> i < G -> length inp = ARITY (gd i) -> length (nth i log []) < cl i ->
  query_handler (qstate proof log) i inp =
  Ok (query_oracle proof i (S (length (nth i log []))) inp, qstate proof (upd log i (nth i log [] ++ [inp]))).
Proof.
  intros Hpl Hl Hi Ha Hb. unfold query_handler.
  assert (Hql : length (qstate proof log) = G) by (unfold qstate; now rewrite map_length, seq_length).
  rewrite (get_nth _ _ (@mkQG P 0 [] 0 [] 0)) by lia. cbn [bind]. unfold qstate at 1. rewrite nth_map_seq by easy.
  unfold QueryGadget_eval. cbn [qg_arity qg_wires qg_k qg_poly qg_step]. rewrite Nat.add_1_r.
  pose proof (g_room i) as Hroom.
  rewrite record_wires_ok by (rewrite ?qseeds_length; try easy; lia). cbn [bind].
  assert (Hk : S (length (nth i log [])) * 2 ^ (Mg i - Lw i) < 2 ^ Mg i).
  { replace (2 ^ Mg i) with (2 ^ Lw i * 2 ^ (Mg i - Lw i)).
    - apply Nat.mul_lt_mono_pos_r; [|lia]. pose proof (pow2_pos (Mg i - Lw i)). lia.
    - rewrite <- Nat.pow_add_r. f_equal. pose proof (g_L_M i Hi). lia. }
  rewrite (get_nth _ _ f0) by (rewrite evals_length; exact Hk). cbn [bind].
  rewrite nth_evals by exact Hk. rewrite set_lt by lia. cbn [bind]. f_equal. f_equal.
  - unfold query_oracle. f_equal. rewrite (root_sub HP (Lw i) (Mg i)) by (now apply g_L_M || now apply g_M).
    rewrite npow_mul'. easy.
  - unfold qstate. rewrite upd_map_seq by easy. apply map_ext_in. intros j Hj. apply in_seq in Hj.
    rewrite nth_upd by lia. rewrite (Nat.eqb_sym i j). destruct (Nat.eqb_spec j i) as [->|]; [|easy].
    rewrite app_length. cbn [length]. rewrite Nat.add_1_r. easy.
Qed.

(** Position of the first test point in the query randomness, the test points,
    the reduced output and the verifier message. *)
Definition roff : nat := if 1 <? EO then EO else 0.
Definition tp (query_rand : list F) (i : nat) : F := nth (roff + i) query_rand f0.
Definition red (out query_rand : list F) : F :=
  if 1 <? EO then fsum EO (fun i => fmul (nth i query_rand f0) (nth i out f0)) else nth 0 out f0.
Definition vblock (proof query_rand : list F) (log : list (list (list F))) (i : nat) : list F :=
  map (fun c => peval c (tp query_rand i)) (wpolys i (qseeds proof i) (nth i log [])) ++
  [peval (gpoly proof i) (tp query_rand i)].
Definition verifier_of (proof query_rand out : list F) (log : list (list (list F))) : list F :=
  red out query_rand :: concat (map (vblock proof query_rand log) (seq 0 G)).
Definition bad_point (query_rand : list F) (i : nat) : bool :=
  feqb (npow (tp query_rand i) (2 ^ Lw i)) f1.

Lemma query_rand_len_eq : query_rand_len v = roff + G.
Proof. unfold query_rand_len, roff. lia. Qed.

Lemma fold_combine_fsum (r o : list F) acc : length r = length o ->
  fold_left (fun a '(x, y) => fadd a (fmul x y)) (combine r o) acc =
  fadd acc (fsum (length o) (fun i => fmul (nth i r f0) (nth i o f0))).
Proof.
  revert o acc. induction r as [|x r IH]; intros [|y o] acc H; try discriminate.
  - cbn. ring.
  - cbn [combine fold_left length]. rewrite IH by (cbn in H; lia). rewrite fsum_S_l. cbn [nth]. ring.
Qed.

Lemma reduce_output_ok out query_rand : length out = EO -> length query_rand = query_rand_len v ->
  reduce_output v out query_rand = Ok (red out query_rand, skipn roff query_rand).
Proof.
  intros Ho Hq. unfold reduce_output, red, roff. rewrite query_rand_len_eq in Hq. unfold roff in Hq.
  pose proof (vo_out v HV). destruct (Nat.ltb_spec 1 EO).
  - rewrite front_ok by lia. cbn [bind]. do 2 f_equal.
    rewrite fold_combine_fsum by (rewrite firstn_length; lia). rewrite Ho.
    rewrite (fsum_ext _ _ (fun i => fmul (nth i query_rand f0) (nth i out f0))); [ring|].
    intros i Hi. rewrite nth_firstn'. now rewrite (proj2 (Nat.ltb_lt _ _) Hi).
  - destruct out as [|x [|]]; cbn in Ho; try lia. reflexivity.
Qed.

Lemma query_gadget_ok ver proof query_rand log i : i < G -> length proof = proof_len v ->
  length (nth i log []) <= cl i ->
  query_gadget ver (mkQG (ARITY (gd i)) (fill (2 ^ Lw i) (qseeds proof i) (nth i log []))
       (length (nth i log [])) (evals (Mg i) (gpoly proof i)) (2 ^ (Mg i - Lw i))) (tp query_rand i) =
  if bad_point query_rand i then Raise (ValueError "test point is a root of unity")
  else Ok (ver ++ vblock proof query_rand log i).
Proof.
  intros Hi Hpl Hll. unfold query_gadget. cbn [qg_arity qg_wires qg_k qg_poly qg_step].
  pose proof (g_arity i Hi) as Har. pose proof (qseeds_length proof i Hi Hpl) as Hs.
  pose proof (g_room i) as Hroom.
  rewrite (get_nth _ _ []) by (rewrite fill_length; lia). cbn [bind].
  rewrite (fill_wire_length (2 ^ Lw i) (qseeds proof i) (nth i log []) (nth 0 _ []));
    [ | lia | lia | apply nth_In; rewrite fill_length; lia].
  unfold bad_point, npow. destruct (feqb _ _); [easy|].
  rewrite firstn_all2 by (rewrite fill_length; lia). rewrite <- (evals_wpolys i) by easy.
  rewrite (lag_poly_eval_batched_spec HP).
  - cbn [bind]. rewrite (lag_poly_eval_spec HP).
    + cbn [bind]. reflexivity.
    + now apply g_M.
    + pose proof (glog_bound (gd i) (Lw i)). pose proof (gvals_length proof i Hi Hpl) as Hg.
      unfold gpoly. eapply Nat.le_trans; [apply (ipoly_spec HP); [now apply g_M | lia] | lia].
  - now apply g_L.
  - intros C. apply (f_equal (@length _)) in C. rewrite wpolys_length in C. cbn in C. lia.
  - intros c Hc. apply (wpolys_lengths i) in Hc; try easy. lia.
Qed.

Theorem query_ok meas proof query_rand joint_rand n :
  length meas = vMEAS_LEN v -> length proof = proof_len v -> length query_rand = query_rand_len v ->
  length joint_rand = vJOINT_RAND_LEN v -> 1 <= n -> (Z.of_nat n < MODULUS P)%Z ->
  exists out log, length out = EO /\
    trun (query_oracle proof) (valid_eval v meas joint_rand n) (repeat [] G) = Some (out, log) /\
    extends (GADGETS v) (GADGET_CALLS v) (repeat [] G) log /\
    bbcggi19_query v meas proof query_rand joint_rand n =
      if existsb (bad_point query_rand) (seq 0 G)
      then Raise (ValueError "test point is a root of unity")
      else Ok (verifier_of proof query_rand out log).
Proof.
  intros Hm Hpl Hq Hj Hn Hn'.
  pose proof (vo_calls v HV meas joint_rand n Hm Hj Hn Hn') as Hpok.
  assert (El : map (@length (list F)) (repeat [] G) = repeat 0 G).
  { clear. generalize G. intros m. induction m; cbn; congruence. }
  rewrite <- El in Hpok.
  destruct (@run_sim P (list F) _ (GADGETS v) (GADGET_CALLS v) query_handler (qstate proof) (query_oracle proof)) with
    (m := valid_eval v meas joint_rand n) (log := repeat (@nil (list F)) G)
    (post := fun out : list F => length out = EO) as (out & log & R1 & R2 & Ho & He).
  - intros log0 i inp Hl Hi Ha Hb. now apply query_handler_ok.
  - now rewrite repeat_length.
  - exact Hpok.
  - exists out, log. split; [easy|]. split; [easy|]. split; [easy|].
    unfold bbcggi19_query. rewrite Hm, Hpl, Hq, Hj, !Nat.eqb_refl. cbn [check bind].
    rewrite query_wrap_ok by easy. cbn [bind]. rewrite R1. cbn [bind].
    rewrite Ho, Nat.eqb_refl. cbn [check bind]. rewrite reduce_output_ok by easy. cbn [bind].
    assert (Hql : length (qstate proof log) = G) by (unfold qstate; now rewrite map_length, seq_length).
    assert (Hsk : length (skipn roff query_rand) = G) by (rewrite skipn_length, Hq, query_rand_len_eq; lia).
    replace (combine (qstate proof log) (skipn roff query_rand)) with
      (map (fun i => (mkQG (ARITY (gd i)) (fill (2 ^ Lw i) (qseeds proof i) (nth i log []))
       (length (nth i log [])) (evals (Mg i) (gpoly proof i)) (2 ^ (Mg i - Lw i)), tp query_rand i)) (seq 0 G)).
    2: { apply (nth_ext' (@mkQG P 0 [] 0 [] 0, f0)).
         - rewrite combine_length, map_length, seq_length. lia.
         - rewrite map_length, seq_length. intros i Hi. rewrite combine_nth by lia.
           unfold qstate. rewrite !nth_map_seq by easy. rewrite nth_skipn'. easy. }
    unfold verifier_of.
    enough (Hgen : forall m, m <= G -> forall ver,
      foldM (fun verifier '(g, t) => query_gadget verifier g t)
        (map (fun i => (mkQG (ARITY (gd i)) (fill (2 ^ Lw i) (qseeds proof i) (nth i log []))
          (length (nth i log [])) (evals (Mg i) (gpoly proof i)) (2 ^ (Mg i - Lw i)), tp query_rand i)) (seq 0 m)) ver
      = if existsb (bad_point query_rand) (seq 0 m) then Raise (ValueError "test point is a root of unity")
        else Ok (ver ++ concat (map (vblock proof query_rand log) (seq 0 m)))) by (now apply Hgen).
    induction m as [|m IH]; intros Hle ver.
    + cbn. now rewrite app_nil_r.
    + rewrite seq_S, map_app, foldM_app, IH by lia. rewrite existsb_app. cbn [existsb map Nat.add].
      destruct (existsb (bad_point query_rand) (seq 0 m)); cbn [orb bind]; [easy|].
      cbn [foldM]. rewrite query_gadget_ok; try easy; [|apply (ext_log _ _ _ _ _ He); lia].
      destruct (bad_point query_rand m); cbn [orb bind]; [easy|].
      rewrite map_app, concat_app. cbn. now rewrite app_nil_r, app_assoc.
Qed.

Lemma vblock_length proof query_rand log i : i < G -> length proof = proof_len v ->
  length (vblock proof query_rand log i) = ARITY (gd i) + 1.
Proof.
  intros Hi Hl. unfold vblock. rewrite app_length, map_length, wpolys_length, qseeds_length by easy. easy.
Qed.
Lemma verifier_of_length proof query_rand out log : length proof = proof_len v ->
  length (verifier_of proof query_rand out log) = verifier_len v.
Proof.
  intros Hl. unfold verifier_of. cbn [length]. rewrite concat_seq_length, verifier_len_eq.
  cbn. f_equal. apply nsum_ext. intros i Hi. now apply vblock_length.
Qed.

(** ** decide *)

(** The check of gadget [i]: the gadget applied to the wire polynomials agrees
    with the gadget polynomial at the test point. *)
Definition gcheck (proof query_rand : list F) (log : list (list (list F))) (i : nat) : bool :=
  feqb (peval (gcomp (gd i) (wpolys i (qseeds proof i) (nth i log []))) (tp query_rand i))
       (peval (gpoly proof i) (tp query_rand i)).

Lemma decide_ok proof query_rand out log : length proof = proof_len v ->
  bbcggi19_decide v (verifier_of proof query_rand out log) =
  Ok (feqb (red out query_rand) f0 && forallb (gcheck proof query_rand log) (seq 0 G)).
Proof.
  intros Hl. unfold bbcggi19_decide. rewrite verifier_of_length, Nat.eqb_refl by easy. cbn [check bind].
  unfold verifier_of.
  change (red out query_rand :: concat (map (vblock proof query_rand log) (seq 0 G)))
    with ([red out query_rand] ++ concat (map (vblock proof query_rand log) (seq 0 G))).
  rewrite front_app by easy. cbn [bind nth].
  destruct (feqb (red out query_rand) f0); [|easy]. cbn [negb andb].
  enough (Hgen : forall gs a, (forall i, i < length gs -> nth i gs Mul = gd (a + i)) -> a + length gs = G ->
     decide_gadgets gs (concat (map (vblock proof query_rand log) (seq a (length gs)))) =
     Ok (forallb (gcheck proof query_rand log) (seq a (length gs)))) by (now apply (Hgen (GADGETS v) 0)).
  induction gs as [|g gs IH]; intros a Hnth Ha; [easy|].
  cbn [length seq map concat decide_gadgets]. cbn [length] in Ha.
  assert (Hg : g = gd a) by (specialize (Hnth 0 ltac:(cbn; lia)); cbn in Hnth; now rewrite Nat.add_0_r in Hnth).
  unfold vblock at 1. rewrite <- !app_assoc.
  rewrite front_app by (rewrite map_length, wpolys_length, Hg; apply qseeds_length; lia || easy).
  cbn [bind]. rewrite (front_app 1 [_]) by easy. cbn [bind nth].
  rewrite (gadget_eval_gval (Lw a)).
  - cbn [bind]. rewrite (gval_peval (Lw a)).
    + cbn [forallb]. unfold gcheck at 1. rewrite Hg.
      destruct (feqb _ _); cbn [negb andb]; [|easy]. apply IH; [|lia].
      intros i Hi. specialize (Hnth (S i) ltac:(cbn; lia)). cbn in Hnth. rewrite Hnth. f_equal. lia.
    + rewrite Hg. apply g_wf. lia.
    + rewrite wpolys_length, Hg. apply qseeds_length; [lia|easy].
  - rewrite Hg. apply g_wf. lia.
  - rewrite map_length, wpolys_length, Hg. apply qseeds_length; [lia|easy].
Qed.


(** ** Completeness *)

(** The polynomial obtained by applying the gadget to the wire polynomials goes
    through the gadget outputs. *)
Lemma gcomp_call i seeds (log : list (list F)) k : i < G -> length seeds = ARITY (gd i) ->
  length log <= cl i -> Forall (fun inp => length inp = ARITY (gd i)) log -> k < length log ->
  peval (gcomp (gd i) (wpolys i seeds log)) (npow (root (Lw i)) (S k)) = gval (gd i) (nth k log []).
Proof.
  intros Hi Hs Hl Hf Hk. rewrite <- (gval_peval (Lw i)) by (now apply g_wf || now rewrite wpolys_length).
  f_equal. pose proof (g_room i) as Hroom.
  assert (Hlen : length (nth k log []) = ARITY (gd i)).
  { rewrite Forall_forall in Hf. apply Hf. now apply nth_In. }
  apply (nth_ext' f0).
  - rewrite map_length, wpolys_length. lia.
  - rewrite map_length, wpolys_length. intros j Hj. unfold wpolys. rewrite map_map.
    rewrite (nth_map' _ _ _ []) by (now rewrite fill_length).
    assert (Hw : length (nth j (fill (2 ^ Lw i) seeds log) []) = 2 ^ Lw i).
    { apply (fill_wire_length (2 ^ Lw i) seeds log); try lia. apply nth_In. now rewrite fill_length. }
    rewrite peval_wpoly. rewrite (proj2 (ipoly_spec HP _ _ (g_L i Hi) ltac:(rewrite Hw; lia))) by lia.
    now rewrite fill_call by lia.
Qed.

(** The gadget polynomials of the proof are what the wires of [log] call for. *)
Definition good (proof : list F) (log : list (list (list F))) : Prop :=
  forall i x, i < G ->
    peval (gpoly proof i) x = peval (gcomp (gd i) (wpolys i (qseeds proof i) (nth i log []))) x.

Lemma good_oracle proof log i k : length proof = proof_len v ->
  extends (GADGETS v) (GADGET_CALLS v) (repeat [] G) log -> good proof log ->
  i < G -> k < length (nth i log []) ->
  query_oracle proof i (S k) (nth k (nth i log []) []) = plain_oracle i (S k) (nth k (nth i log []) []).
Proof.
  intros Hpl He Hg Hi Hk. unfold query_oracle, plain_oracle. rewrite Hg by easy.
  destruct (ext_log _ _ _ _ _ He Hi) as [H1 H2]. apply gcomp_call; try easy. now apply qseeds_length.
Qed.

Lemma pok_start meas joint_rand n : length meas = vMEAS_LEN v -> length joint_rand = vJOINT_RAND_LEN v ->
  1 <= n -> (Z.of_nat n < MODULUS P)%Z ->
  pok (GADGETS v) (GADGET_CALLS v) (map (@length (list F)) (repeat [] G))
    (fun out => length out = EO) (valid_eval v meas joint_rand n).
Proof.
  intros Hm Hj Hn Hn'. pose proof (vo_calls v HV meas joint_rand n Hm Hj Hn Hn') as Hpok.
  assert (El : map (@length (list F)) (repeat [] G) = repeat 0 G).
  { clear. generalize G. intros m. induction m; cbn; congruence. }
  now rewrite El.
Qed.

Lemma one_lt_modulus : (Z.of_nat 1 < MODULUS P)%Z.
Proof. pose proof (prime_ge_2 _ Hp). cbn. lia. Qed.

Lemma good_run_eq meas joint_rand proof out log : length meas = vMEAS_LEN v ->
  length joint_rand = vJOINT_RAND_LEN v -> length proof = proof_len v ->
  extends (GADGETS v) (GADGET_CALLS v) (repeat [] G) log -> good proof log ->
  trun plain_oracle (valid_eval v meas joint_rand 1) (repeat [] G) = Some (out, log) <->
  trun (query_oracle proof) (valid_eval v meas joint_rand 1) (repeat [] G) = Some (out, log).
Proof.
  intros Hm Hj Hpl He Hg. split; intros E.
  all: eapply trun_ext; [apply repeat_length | apply pok_start; (eassumption || apply le_n || apply one_lt_modulus) | exact E |].
  all: intros i k Hi [_ Hk]. 2: symmetry. all: now apply good_oracle.
Qed.

(** The proof made of given blocks parses to these blocks. *)
Lemma parse_blocks (sd gv : nat -> list F) i : i < G ->
  (forall j, j < G -> length (sd j) = ARITY (gd j)) -> (forall j, j < G -> length (gv j) = ln j) ->
  let proof := concat (map (fun j => sd j ++ gv j) (seq 0 G)) in
  length proof = proof_len v /\ qseeds proof i = sd i /\ gvals proof i = gv i.
Proof.
  intros Hi Hs Hg proof.
  assert (Hb : forall j, j < G -> length (sd j ++ gv j) = qf j).
  { intros j Hj. unfold qf. rewrite app_length, Hs, Hg by easy. easy. }
  split; [|split].
  - unfold proof. rewrite concat_seq_length, proof_len_eq. now apply nsum_ext.
  - unfold qseeds, seeds_at. destruct (skipn_concat (fun j => sd j ++ gv j) qf G i Hi Hb) as [r E].
    unfold proof. rewrite E, <- app_assoc. apply firstn_app_exact. now apply Hs.
  - unfold gvals. rewrite Nat.add_comm, <- skipn_skipn'.
    destruct (skipn_concat (fun j => sd j ++ gv j) qf G i Hi Hb) as [r E].
    unfold proof. rewrite E, <- app_assoc. rewrite skipn_app_exact by (now apply Hs).
    apply firstn_app_exact. now apply Hg.
Qed.

Theorem complete_single meas prove_rand joint_rand :
  length meas = vMEAS_LEN v -> length prove_rand = prove_rand_len v ->
  length joint_rand = vJOINT_RAND_LEN v ->
  exists out log proof, valid_eval_plain v meas joint_rand 1 = Ok out /\ length out = EO /\
    bbcggi19_prove v meas prove_rand joint_rand = Ok proof /\ length proof = proof_len v /\
    extends (GADGETS v) (GADGET_CALLS v) (repeat [] G) log /\ good proof log /\
    trun (query_oracle proof) (valid_eval v meas joint_rand 1) (repeat [] G) = Some (out, log).
Proof.
  intros Hm Hr Hj. destruct (prove_ok meas prove_rand joint_rand Hm Hr Hj) as (out & log & E1 & E2 & E3 & E4 & E5).
  set (gv := fun i => firstn (ln i) (evals (Mg i) (gcomp (gd i) (wpolys i (pseeds prove_rand i) (nth i log []))))).
  set (proof := concat (map (fun i => pseeds prove_rand i ++ gv i) (seq 0 G))).
  assert (Hs : forall j, j < G -> length (pseeds prove_rand j) = ARITY (gd j)) by (intros; now apply pseeds_length).
  assert (Hgv : forall j, j < G -> length (gv j) = ln j).
  { intros j Hj'. unfold gv. rewrite firstn_length, evals_length. pose proof (glog_bound (gd j) (Lw j)). lia. }
  assert (Hlen : length proof = proof_len v).
  { unfold proof. rewrite concat_seq_length, proof_len_eq. apply nsum_ext. intros i Hi.
    rewrite app_length, Hs, Hgv by easy. easy. }
  assert (Hgood : good proof log).
  { intros i x Hi. destruct (parse_blocks (pseeds prove_rand) gv i Hi Hs Hgv) as (_ & Ep1 & Ep2).
    fold proof in Ep1, Ep2. rewrite Ep1. unfold gpoly. rewrite Ep2.
    destruct (ext_log _ _ _ _ _ E4 Hi) as [Hl1 Hl2].
    pose proof (glog_bound (gd i) (Lw i)) as Hb. pose proof (g_M i Hi) as HM.
    apply (ipoly_unique HP).
    - easy.
    - rewrite Hgv by easy. lia.
    - rewrite Hgv by easy. apply gcomp_wpolys_length; try easy. now apply Hs.
    - rewrite Hgv by easy. intros k Hk. unfold gv. rewrite nth_firstn', (proj2 (Nat.ltb_lt _ _) Hk).
      now rewrite nth_evals by lia. }
  exists out, log, proof. split; [easy|]. split; [easy|]. split; [exact E5|]. split; [easy|].
  split; [easy|]. split; [easy|]. now apply good_run_eq.
Qed.

Lemma good_gcheck proof query_rand log : good proof log -> forallb (gcheck proof query_rand log) (seq 0 G) = true.
Proof.
  intros Hg. apply forallb_forall. intros i Hi. apply in_seq in Hi. unfold gcheck. apply feqb_eq. symmetry.
  apply Hg. lia.
Qed.

(** ** Linearity *)
Lemma shares_app n a b (vs ws : nat -> list F) x y : shares_of n a vs x -> shares_of n b ws y ->
  shares_of n (a + b) (fun s => vs s ++ ws s) (x ++ y).
Proof.
  intros (H1 & H2 & H3) (H4 & H5 & H6). split; [|split].
  - now rewrite app_length, H1, H4.
  - intros s Hs. now rewrite app_length, H2, H5.
  - intros j. destruct (le_lt_dec a j).
    + rewrite app_nth2 by lia. rewrite H1, H6. apply fsum_ext. intros s Hs.
      rewrite app_nth2 by (rewrite H2; easy). now rewrite H2.
    + rewrite app_nth1 by lia. rewrite H3. apply fsum_ext. intros s Hs.
      rewrite app_nth1; [easy|]. now rewrite H2.
Qed.
Lemma shares_one n (xs : nat -> F) x : x = fsum n xs -> shares_of n 1 (fun s => [xs s]) [x].
Proof.
  intros ->. split; [easy|]. split; [easy|]. intros [|j]; cbn; [easy|]. rewrite fsum_zero; [now destruct j|].
  intros; now destruct j.
Qed.
Lemma shares_concat n m (lens : nat -> nat) (vs : nat -> nat -> list F) (x : nat -> list F) :
  (forall i, i < m -> shares_of n (lens i) (fun s => vs s i) (x i)) ->
  shares_of n (nsum m lens) (fun s => concat (map (vs s) (seq 0 m))) (concat (map x (seq 0 m))).
Proof.
  induction m; intros H.
  - split; [easy|]. split; [easy|]. intros j. cbn. rewrite fsum_zero; [now destruct j|]. intros; now destruct j.
  - rewrite concat_seq_S. cbn [nsum].
    destruct (shares_app n _ _ _ _ _ _ (IHm ltac:(intros; apply H; lia)) (H m ltac:(lia))) as (A & B & C).
    split; [easy|]. split.
    + intros s Hs. rewrite concat_seq_S. now apply B.
    + intros j. rewrite C. apply fsum_ext. intros s Hs. now rewrite concat_seq_S.
Qed.
Lemma shares_slice n len vs x a b : shares_of n len vs x ->
  forall j, nth j (firstn a (skipn b x)) f0 = fsum n (fun s => nth j (firstn a (skipn b (vs s))) f0 : F).
Proof.
  intros (_ & _ & H) j. rewrite nth_firstn', nth_skipn'. destruct (j <? a) eqn:E.
  - rewrite H. apply fsum_ext. intros s Hs. now rewrite nth_firstn', E, nth_skipn'.
  - symmetry. apply fsum_zero. intros s Hs. now rewrite nth_firstn', E.
Qed.

Lemma gpoly_sum n proofs proof i x : shares_of n (proof_len v) proofs proof ->
  peval (gpoly proof i) x = fsum n (fun s => peval (gpoly (proofs s) i) x).
Proof.
  intros Hsh. destruct Hsh as (H1 & H2 & H3) eqn:EH. clear EH. destruct (le_lt_dec G i) as [Hi|Hi].
  - assert (forall l : list F, length l = proof_len v -> gpoly l i = []) as Hz.
    { intros l Hl. unfold gpoly, gvals. rewrite skipn_all2.
      - now rewrite firstn_nil.
      - rewrite Hl, proof_len_eq. pose proof (nsum_le G i qf Hi). lia. }
    rewrite Hz by easy. symmetry. apply fsum_zero. intros s Hs. now rewrite Hz by (now apply H2).
  - unfold gpoly. apply (ipoly_sum HP).
    + now apply g_M.
    + rewrite gvals_length by easy. pose proof (glog_bound (gd i) (Lw i)). lia.
    + intros s Hs. rewrite !gvals_length by (easy || now apply H2). easy.
    + intros j. unfold gvals. eapply shares_slice. exact (conj H1 (conj H2 H3)).
Qed.

Lemma wires_sum n proofs proof logs log i j x : i < G -> j < ARITY (gd i) ->
  shares_of n (proof_len v) proofs proof -> lrel n logs log -> length (nth i log []) <= cl i ->
  peval (wpoly (Lw i) (nth j (fill (2 ^ Lw i) (qseeds proof i) (nth i log [])) [])) x =
  fsum n (fun s => peval (wpoly (Lw i) (nth j (fill (2 ^ Lw i) (qseeds (proofs s) i) (nth i (logs s) [])) [])) x).
Proof.
  intros Hi Hj Hsh Hrel Hlen. destruct Hsh as (H1 & H2 & H3) eqn:EH. clear EH.
  destruct Hrel as [Hr1 Hr2]. pose proof (g_room i) as Hroom.
  rewrite peval_wpoly. rewrite (fsum_ext _ _ (fun s => peval (ipoly (Lw i)
    (nth j (fill (2 ^ Lw i) (qseeds (proofs s) i) (nth i (logs s) [])) [])) x)) by (intros; apply peval_wpoly).
  assert (Hwl : forall (l : list F) lg, length l = proof_len v -> length lg <= cl i ->
     length (nth j (fill (2 ^ Lw i) (qseeds l i) lg) []) = 2 ^ Lw i).
  { intros l lg Hl Hlg. apply (fill_wire_length _ (qseeds l i) lg); try lia. apply nth_In.
    rewrite fill_length, qseeds_length; easy. }
  apply (ipoly_sum HP).
  - now apply g_L.
  - rewrite Hwl; easy.
  - intros s Hs. rewrite !Hwl; try easy; [now apply H2|]. rewrite (proj2 (Hr1 s Hs)). easy.
  - intros [|k].
    + rewrite fill_0 by (rewrite qseeds_length; easy).
      unfold qseeds, seeds_at. rewrite (shares_slice n _ _ _ _ _ (conj H1 (conj H2 H3))).
      apply fsum_ext. intros s Hs. rewrite fill_0; [easy|]. fold (seeds_at qf (proofs s) i).
      fold (qseeds (proofs s) i). rewrite qseeds_length; try easy. now apply H2.
    + destruct (le_lt_dec (length (nth i log [])) k) as [Hk|Hk].
      * rewrite fill_pad by (rewrite ?qseeds_length; easy). symmetry. apply fsum_zero. intros s Hs.
        apply fill_pad; [rewrite qseeds_length; try easy; now apply H2|]. rewrite (proj2 (Hr1 s Hs)). easy.
      * rewrite fill_call by (rewrite ?qseeds_length; easy). rewrite Hr2. apply fsum_ext. intros s Hs.
        rewrite fill_call; [easy| |].
        -- rewrite qseeds_length; try easy. now apply H2.
        -- rewrite (proj2 (Hr1 s Hs)). easy.
Qed.

Lemma red_sum n outs out query_rand : shares_of n EO outs out ->
  red out query_rand = fsum n (fun s => red (outs s) query_rand).
Proof.
  intros (H1 & H2 & H3). unfold red. destruct (1 <? EO).
  - rewrite fsum_exchange. apply fsum_ext. intros i Hi. rewrite H3, fsum_scale. easy.
  - apply H3.
Qed.

Theorem query_linear n meass meas proofs proof query_rand joint_rand :
  1 <= n -> (Z.of_nat n < MODULUS P)%Z ->
  shares_of n (vMEAS_LEN v) meass meas -> shares_of n (proof_len v) proofs proof ->
  length query_rand = query_rand_len v -> length joint_rand = vJOINT_RAND_LEN v ->
  existsb (bad_point query_rand) (seq 0 G) = false ->
  exists vers ver, bbcggi19_query v meas proof query_rand joint_rand 1 = Ok ver /\
    (forall s, s < n -> bbcggi19_query v (meass s) (proofs s) query_rand joint_rand n = Ok (vers s)) /\
    shares_of n (verifier_len v) vers ver.
Proof.
  intros Hn Hn' Hm Hpf Hq Hj Hbad.
  destruct (query_ok meas proof query_rand joint_rand 1 (proj1 Hm) (proj1 Hpf) Hq Hj (le_n 1) one_lt_modulus)
    as (out & log & Ho & Et & Hext & Eq). rewrite Hbad in Eq.
  pose proof (vo_lin v HV meass meas joint_rand n Hj Hn Hn' Hm) as Hlin.
  destruct (lin_trun n _ (fun i k => query_oracle proof i k []) (fun s i k => query_oracle (proofs s) i k [])
    ltac:(intros i k; apply gpoly_sum; exact Hpf) _ _ (repeat [] G) (fun _ => repeat [] G) out log Hlin)
    as (al & logs & Es & Hrel & HR).
  - split.
    + intros s Hs. split; [easy|]. intros i. now rewrite nth_nils.
    + intros i k j. rewrite nth_nils. symmetry.
      rewrite fsum_zero; [now destruct k, j|]. intros s Hs. now destruct k, j.
  - exact Et.
  - exists (fun s => verifier_of (proofs s) query_rand (al s) (logs s)), (verifier_of proof query_rand out log).
    split; [exact Eq|]. split.
    + intros s Hs. destruct Hm as (_ & Hm & _). destruct Hpf as (_ & Hpf & _).
      destruct (query_ok (meass s) (proofs s) query_rand joint_rand n (Hm s Hs) (Hpf s Hs) Hq Hj Hn Hn')
        as (out' & log' & _ & Et' & _ & Eq'). rewrite Hbad in Eq'. rewrite Eq'.
      specialize (Es s Hs). cbv beta in Es.
      change (fun (i k : nat) (_ : list F) => query_oracle (proofs s) i k []) with (query_oracle (proofs s)) in Es.
      rewrite Es in Et'. injection Et' as <- <-. reflexivity.
    + rewrite verifier_len_eq. unfold verifier_of.
      apply (shares_app n 1 _ (fun s => [red (al s) query_rand])
        (fun s => concat (map (vblock (proofs s) query_rand (logs s)) (seq 0 G)))
        [red out query_rand] (concat (map (vblock proof query_rand log) (seq 0 G)))).
      * apply shares_one. now apply red_sum.
      * apply (shares_concat n G _ (fun s => vblock (proofs s) query_rand (logs s))).
        intros i Hi. unfold vblock. destruct (ext_log _ _ _ _ _ Hext Hi) as [Hll _].
        apply shares_app with (vs := fun s => map (fun c => peval c (tp query_rand i))
           (wpolys i (qseeds (proofs s) i) (nth i (logs s) []))) (ws := fun s => [peval (gpoly (proofs s) i) (tp query_rand i)]).
        -- split; [|split].
           ++ rewrite map_length, wpolys_length. apply qseeds_length; [easy | apply Hpf].
           ++ intros s Hs. rewrite map_length, wpolys_length. apply qseeds_length; [easy | now apply Hpf].
           ++ intros j. destruct (le_lt_dec (ARITY (gd i)) j) as [Hge|Hlt].
              ** rewrite nth_overflow by (rewrite map_length, wpolys_length, qseeds_length; easy || apply Hpf).
                 symmetry. apply fsum_zero. intros s Hs. apply nth_overflow.
                 rewrite map_length, wpolys_length, qseeds_length; try easy. now apply Hpf.
              ** unfold wpolys. rewrite map_map.
                 rewrite (nth_map' _ _ _ []) by (rewrite fill_length, qseeds_length; easy || apply Hpf).
                 rewrite (wires_sum n proofs proof logs log i j) by easy.
                 apply fsum_ext. intros s Hs. rewrite map_map.
                 rewrite (nth_map' _ _ _ []); [easy|]. rewrite fill_length, qseeds_length; try easy. now apply Hpf.
        -- apply shares_one. apply gpoly_sum. exact Hpf.
Qed.

(** ** Soundness *)
Lemma diff_poly (c d : list F) m : length c <= m -> length d <= m ->
  {e | length e <= m /\ forall x, peval e x = fsub (peval c x) (peval d x)}.
Proof.
  intros Hc Hd. exists (padd c (map (fmul (fneg f1)) d)). split.
  - rewrite padd_length, map_length. lia.
  - intros x. rewrite peval_padd, peval_map_scale. ring.
Qed.

Lemma good_dec proof log : length proof = proof_len v ->
  extends (GADGETS v) (GADGET_CALLS v) (repeat [] G) log ->
  good proof log \/
  exists i e, i < G /\ length e <= ln i /\ ~ allzero e /\
    forall x, peval e x = fsub (peval (gcomp (gd i) (wpolys i (qseeds proof i) (nth i log []))) x)
                             (peval (gpoly proof i) x).
Proof.
  intros Hpl He.
  enough (H : forall m, m <= G -> (forall i x, i < m -> peval (gpoly proof i) x =
      peval (gcomp (gd i) (wpolys i (qseeds proof i) (nth i log []))) x) \/
    exists i e, i < G /\ length e <= ln i /\ ~ allzero e /\
    forall x, peval e x = fsub (peval (gcomp (gd i) (wpolys i (qseeds proof i) (nth i log []))) x)
                             (peval (gpoly proof i) x)) by (now apply H).
  induction m as [|m IH]; intros Hm; [left; lia|].
  destruct (IH ltac:(lia)) as [H|H]; [|now right].
  destruct (diff_poly (gcomp (gd m) (wpolys m (qseeds proof m) (nth m log []))) (gpoly proof m) (ln m))
    as (e & Hl & Hx).
  - destruct (ext_log _ _ _ m _ He ltac:(lia)) as [Hll _].
    apply gcomp_wpolys_length; try lia. apply qseeds_length; [lia|easy].
  - unfold gpoly. rewrite <- (gvals_length proof m) by (lia || easy). apply (ipoly_spec HP).
    + apply g_M. lia.
    + rewrite gvals_length by (lia || easy). apply glog_bound.
  - destruct (allzero_dec e) as [Hz|Hz].
    + left. intros i x Hi. destruct (Nat.eq_dec i m) as [->|]; [|apply H; lia].
      symmetry. apply fsub_eq_0. rewrite <- Hx. now apply peval_allzero.
    + right. exists m, e. split; [lia|]. easy.
Qed.

Lemma fsum_upd n j (r o : list F) x : j < n -> j < length r ->
  fsum n (fun i => fmul (nth i (upd r j x) f0) (nth i o f0)) =
  fadd (fsum n (fun i => if i =? j then f0 else fmul (nth i r f0) (nth i o f0))) (fmul x (nth j o f0)).
Proof.
  intros Hj Hr.
  replace (fmul x (nth j o f0)) with (fsum n (fun i => if i =? j then fmul x (nth i o f0) else f0)).
  - rewrite <- fsum_add. apply fsum_ext. intros i Hi. rewrite nth_upd by easy. rewrite (Nat.eqb_sym j i).
    destruct (i =? j); ring.
  - rewrite (fsum_single n j); [now rewrite Nat.eqb_refl | easy |].
    intros i _ Hne. now rewrite (proj2 (Nat.eqb_neq i j) Hne).
Qed.

Lemma nz_nth (out : list F) : Exists (fun x => x <> f0) out -> exists j, j < length out /\ nth j out f0 <> f0.
Proof.
  intros H. apply Exists_exists in H as (x & Hx & Hne). apply (In_nth _ _ f0) in Hx as (j & Hj & <-).
  now exists j.
Qed.

Lemma upd_nth_self {A} (l : list A) j d : upd l j (nth j l d) = l.
Proof. revert j. induction l; intros [|j]; cbn; try easy. now rewrite IHl. Qed.

Theorem sound meas proof joint_rand out d (Q : list (list F)) :
  length meas = vMEAS_LEN v -> length joint_rand = vJOINT_RAND_LEN v -> length proof = proof_len v ->
  valid_eval_plain v meas joint_rand 1 = Ok out -> Exists (fun x => x <> f0) out ->
  1 <= d -> (forall i, i < G -> DEGREE (gd i) * (wire_poly_len (cl i) - 1) <= d) ->
  NoDup Q ->
  (forall q, In q Q -> length q = query_rand_len v /\
     exists ver, bbcggi19_query v meas proof q joint_rand 1 = Ok ver /\ bbcggi19_decide v ver = Ok true) ->
  (Z.of_nat (length Q) <= Z.of_nat d * MODULUS P ^ (Z.of_nat (query_rand_len v) - 1))%Z.
Proof.
  intros Hm Hj Hpl Eout Hnz Hd Hdeg HQ Hacc.
  destruct Q as [|q0 Q0] eqn:EQ.
  { cbn [length Z.of_nat]. pose proof (prime_ge_2 _ Hp). apply Z.mul_nonneg_nonneg; [lia|]. apply Z.pow_nonneg. lia. }
  rewrite <- EQ in *.
  (* the query run *)
  assert (Hq0 : length q0 = query_rand_len v) by (apply (Hacc q0); rewrite EQ; now left).
  destruct (query_ok meas proof q0 joint_rand 1 Hm Hpl Hq0 Hj (le_n 1) one_lt_modulus)
    as (qout & log & Ho & Et & Hext & _).
  assert (Hall : forall q, In q Q -> length q = query_rand_len v /\ red qout q = f0 /\
            forall i, i < G -> peval (gcomp (gd i) (wpolys i (qseeds proof i) (nth i log []))) (tp q i)
                             = peval (gpoly proof i) (tp q i)).
  { intros q Hq. destruct (Hacc q Hq) as (Hlq & ver & Ev & Ed). split; [easy|].
    destruct (query_ok meas proof q joint_rand 1 Hm Hpl Hlq Hj (le_n 1) one_lt_modulus)
      as (qout' & log' & _ & Et' & _ & Eq). rewrite Et in Et'. injection Et' as <- <-.
    rewrite Ev in Eq. destruct (existsb _ _); [discriminate|]. injection Eq as ->.
    rewrite decide_ok in Ed by easy. injection Ed as Ed. apply andb_true_iff in Ed as [Ed1 Ed2].
    split; [now apply feqb_eq|]. intros i Hi. rewrite forallb_forall in Ed2.
    specialize (Ed2 i ltac:(apply in_seq; lia)). now apply feqb_eq in Ed2. }
  assert (Hn1 : (Z.of_nat (query_rand_len v) - 1 = Z.of_nat (query_rand_len v - 1))%Z \/ query_rand_len v = 0) by lia.
  destruct (good_dec proof log Hpl Hext) as [Hg|(i & e & Hi & Hle & Hnze & Hx)].
  - (* every gadget polynomial is right: the circuit output itself is tested *)
    destruct (plain_run meas joint_rand 1 Hm Hj (le_n 1) one_lt_modulus) as (out' & log' & Ep & _ & Et' & _).
    rewrite Eout in Ep. injection Ep as <-.
    apply (good_run_eq meas joint_rand proof) in Et; try easy. rewrite Et in Et'. injection Et' as <- <-.
    apply nz_nth in Hnz as (j & Hjl & Hjne). rewrite Ho in Hjl.
    unfold red in Hall. destruct (Nat.ltb_spec 1 EO) as [H1|H1].
    + assert (Hqr : query_rand_len v = EO + G).
      { unfold query_rand_len. destruct (Nat.ltb_spec 1 EO); lia. }
      destruct Hn1 as [->|]; [|lia].
      apply (count_poly Hp (query_rand_len v) d j Q (fun q =>
        [fsum EO (fun i => if i =? j then f0 else fmul (nth i q f0) (nth i qout f0)); nth j qout f0])).
      * lia.
      * easy.
      * intros q Hq. split; [|cbn; lia]. intros C. inversion_clear C as [|? ? _ C']. now inversion_clear C'.
      * intros q x Hq. f_equal. apply fsum_ext. intros k Hk. rewrite nth_upd by lia.
        rewrite (Nat.eqb_sym j k). destruct (k =? j); easy.
      * intros q Hq. destruct (Hall q Hq) as (Hlq & Hred & _). split; [easy|].
        rewrite <- (upd_nth_self q j f0) in Hred. rewrite fsum_upd in Hred by lia.
        cbn [peval]. etransitivity; [|exact Hred]. ring.
    + exfalso. destruct (Hall q0 ltac:(rewrite EQ; now left)) as (_ & Hred & _).
      assert (j = 0) by lia. subst j. now apply Hjne.
  - (* some gadget polynomial is wrong: the test point must be a root of the difference *)
    destruct Hn1 as [->|Hz].
    2: { exfalso. pose proof query_rand_len_eq. lia. }
    apply (count_poly Hp (query_rand_len v) d (roff + i) Q (fun _ => e)).
    + rewrite query_rand_len_eq. lia.
    + easy.
    + intros q Hq. split; [easy|]. eapply Nat.le_trans; [exact Hle|]. rewrite g_ln.
      specialize (Hdeg i Hi). rewrite wire_poly_len_pow in Hdeg. lia.
    + easy.
    + intros q Hq. destruct (Hall q Hq) as (Hlq & _ & Hch). split; [easy|].
      fold (tp q i). rewrite Hx, (Hch i Hi). ring.
Qed.

End Flp.
