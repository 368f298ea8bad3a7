(** Facts about the circuits of the test suite. *)
From Coq Require Import Znumtheory.
From Verif Require Import TestCircuits BaseFacts CommonFacts FieldFacts FieldProofs Roots Spec CircuitSpec CircuitFacts CircuitInstances GadgetFacts FlpSpec FlpFacts FlpInstances
  MeasSpec MeasFacts Prio3Props Prio3Inst Prio3Run Prio3Facts VdafFacts VecFacts PolyAlg RunSpec XofSpec XofFacts PostFacts FlpProofs.
Open Scope nat_scope.

Lemma wf_Field64 : wf_field Field64.
Proof. repeat split; vm_compute; (discriminate || lia). Qed.
Lemma wf_Field128 : wf_field Field128.
Proof. repeat split; vm_compute; (discriminate || lia). Qed.

Add Ring FringTC : (@F_ring Field64).

Lemma MultiGadget_ok : ValidOk MultiGadget.
Proof.
  split.
  - reflexivity.
  - intros [|[|i]] Hi; [| |cbn in Hi; lia]; vm_compute; repeat split; (lia || discriminate).
  - cbn. lia.
  - intros meas jr n Hm Hj _ _. cbn [vMEAS_LEN vJOINT_RAND_LEN MultiGadget] in Hm, Hj. cbn [valid_eval MultiGadget].
    rewrite cve by easy. cbn [plift pbind]. rewrite (get_nth _ _ f0) by lia. cbn. repeat split; lia.
  - intros meass meas jr n Hj Hn Hn' Hsh. cbn [vMEAS_LEN vJOINT_RAND_LEN EVAL_OUTPUT_LEN MultiGadget] in *.
    destruct Hsh as (H1 & H2 & H3). cbn [valid_eval MultiGadget].
    assert (Z0 : forall j, fsum n (fun _ => match j with O | _ => f0 end) = f0 :> F Field64) by (intros j; apply fsum_zero; intros; now destruct j).
    assert (TW : forall (a b : nat -> F Field64) x y, x = fsum n a -> y = fsum n b -> forall j, nth j [x; y] f0 = fsum n (fun s => nth j [a s; b s] f0)).
    { intros a b x y -> -> [|[|j]]; try reflexivity. cbn [nth]. symmetry. rewrite fsum_zero; [now destruct j|]. intros; now destruct j. }
    rewrite cve by easy. cbn [plift pbind]. rewrite (get_nth _ _ f0) by lia. cbn [plift pbind pcall lin].
    exists (fun s => [nth 0 (meass s) f0; nth 0 (meass s) f0]),
      (fun s x => Call 1 [nth 0 (meass s) f0; x] (fun y => Call 1 [x; y] (fun z => Ret [z]))).
    split; [|split].
    + intros s Hs. rewrite cve by (try apply H2; easy). cbn [plift pbind].
      rewrite (get_nth _ _ f0) by (rewrite H2; lia). cbn. now split.
    + apply TW; apply H3.
    + intros xs. exists (fun s => [nth 0 (meass s) f0; xs s]), (fun s y => Call 1 [xs s; y] (fun z => Ret [z])).
      split; [easy|]. split; [apply TW; [apply H3|reflexivity]|].
      intros ys. exists (fun s => [xs s; ys s]), (fun s z => Ret [z]). split; [easy|]. split; [now apply TW|].
      intros zs. exists (fun s => [zs s]). split; [easy|]. now apply shares_single.
Qed.

Lemma MultiGadget_truncate : truncate_linear MultiGadget.
Proof. intros n meass meas H. now apply trunc_id. Qed.

Lemma MultiGadget_eval (meas : list (F Field64)) n : length meas = 1 ->
  valid_eval_plain MultiGadget meas [] n = Ok [npow (nth 0 meas f0) 5].
Proof.
  intros Hm. destruct meas as [|x [|]]; try discriminate. unfold valid_eval_plain. cbn [valid_eval MultiGadget GADGETS].
  assert (G : forall x : F Field64, fmul (fmul x x) (fmul x (fmul x x)) = npow x 5) by (intros; rewrite !npow_S, npow_0; ring).
  cbn -[fmul npow]. do 2 f_equal. exact (G x).
Qed.

Lemma HigherDegree_gwf : gwf Field64 (wlog 1) HigherDegree_gadget.
Proof.
  unfold HigherDegree_gadget. cbn [gwf length]. split; [reflexivity|]. split; [lia|]. split.
  - repeat constructor; vm_compute; reflexivity.
  - intros C. inversion_clear C as [|? ? _ C']. inversion_clear C' as [|? ? C _]. apply (f_equal val) in C. vm_compute in C. discriminate.
Qed.

Lemma HigherDegree_ok : ValidOk HigherDegree.
Proof.
  split.
  - reflexivity.
  - intros [|i] Hi; [|cbn in Hi; lia]. cbv zeta. split; [cbn; lia|]. split; [exact HigherDegree_gwf|]. vm_compute. discriminate.
  - cbn. lia.
  - intros meas jr n Hm Hj _ _. cbn [vMEAS_LEN vJOINT_RAND_LEN HigherDegree] in Hm, Hj. cbn [valid_eval HigherDegree].
    rewrite cve by easy. cbn [plift pbind]. rewrite (get_nth _ _ f0) by lia. cbn. repeat split; lia.
  - intros meass meas jr n Hj Hn Hn' Hsh. cbn [vMEAS_LEN vJOINT_RAND_LEN EVAL_OUTPUT_LEN HigherDegree] in *.
    destruct Hsh as (H1 & H2 & H3). cbn [valid_eval HigherDegree].
    rewrite cve by easy. cbn [plift pbind]. rewrite (get_nth _ _ f0) by lia. cbn [plift pbind pcall lin].
    exists (fun s => [nth 0 (meass s) f0]), (fun s y => Ret [y]). split; [|split].
    + intros s Hs. rewrite cve by (try apply H2; easy). cbn [plift pbind].
      rewrite (get_nth _ _ f0) by (rewrite H2; lia). cbn. now split.
    + intros [|j]; cbn; try apply H3. symmetry. rewrite fsum_zero; [now destruct j|]. intros; now destruct j.
    + intros ys. cbn [lin]. exists (fun s => [ys s]). split; [easy|]. now apply shares_single.
Qed.

Lemma HigherDegree_truncate : truncate_linear HigherDegree.
Proof. intros n meass meas H. now apply trunc_id. Qed.

Lemma HigherDegree_eval (meas : list (F Field64)) n : length meas = 1 ->
  valid_eval_plain HigherDegree meas [] n
  = Ok [let x := nth 0 meas f0 in fmul x (fmul (fsub x f1) (fsub x (fadd f1 f1)))].
Proof.
  intros Hm. destruct meas as [|x [|]]; try discriminate. unfold valid_eval_plain. cbn [valid_eval HigherDegree GADGETS].
  rewrite cve by easy. cbn [plift pbind get nth_error pcall run]. unfold plain_handler. cbn [get nth_error bind].
  rewrite (gadget_eval_gval (wlog 1)) by (try reflexivity; exact HigherDegree_gwf). cbn [bind gval nth HigherDegree_gadget map]. do 2 f_equal. cbn [peval].
  replace (fof 2 : F Field64) with (fadd f1 f1 : F Field64) by (apply F_eq; vm_compute; reflexivity).
  replace (fof (-3) : F Field64) with (fneg (fadd f1 (fadd f1 f1)) : F Field64) by (apply F_eq; vm_compute; reflexivity).
  change (fof 1 : F Field64) with (f1 : F Field64). change (fof 0 : F Field64) with (f0 : F Field64). ring.
Qed.

Lemma TestAverage_ok (P : NttFieldClass) (HP : NttOk P) max : (0 < max)%Z -> (2 ^ Z.of_nat (bit_length max) < MODULUS P)%Z ->
  fits P (Sum_gadget (bit_length max)) (bit_length max) -> ValidOk (TestAverage P max).
Proof. intros H1 H2 H3. destruct (Sum_ok HP max H1 H3). now split. Qed.
Lemma TestAverage_truncate (P : NttFieldClass) (HP : NttOk P) max : (0 < max)%Z -> (2 ^ Z.of_nat (bit_length max) < MODULUS P)%Z -> truncate_linear (TestAverage P max).
Proof. intros H1 H2. exact (Sum_truncate max (max_small max H1 H2)). Qed.

Section Runs.
Context (P : NttFieldClass) (HP : NttOk P) (HW : wf_field P) (ID : Z) (HID : (0 <= ID < 2 ^ 32)%Z) (ts : TurboShake) (bound shares proofs : nat).
Context (Hs : 2 <= shares < 256) (HsM : (Z.of_nat shares < MODULUS P)%Z) (Hpr : proofs < 256).
Notation F := (F P).
Notation obj v := (prio3_obj P ID v ts bound shares proofs).
Context (key ctx : bytes) (Hc : ctx_ok ctx) (Hk : length key = 32).

Lemma valid_run v (ms : list (vMeasurement v * bytes * bytes)) vs :
  ValidOk v -> truncate_linear v -> sizes_ok (obj v) ms ->
  Forall2 (fun m x => exists enc, valid_encode v m = Ok enc /\ length enc = vMEAS_LEN v /\ accepts v enc /\
     valid_truncate v enc = Ok (map (fun x => fof x : F) x) /\ length x = vOUTPUT_LEN v) (map meas_of ms) vs ->
  run_vdaf (Prio3Vdaf (obj v)) key tt ctx ms = valid_decode v (map (fun x => fof x : F) (col_totals (vOUTPUT_LEN v) vs)) (length ms) \/
  (run_vdaf (Prio3Vdaf (obj v)) key tt ctx ms = Raise OutOfFuel /\ ran_out (obj v)) \/
  (exists msg, run_vdaf (Prio3Vdaf (obj v)) key tt ctx ms = Raise (ValueError msg) /\
     exists m nonce rand, In (m, nonce, rand) ms /\ bad_query (obj v) (test_points_ok v) key ctx nonce).
Proof.
  intros HV HT Hsz HF.
  destruct (run_ok (obj v) (obj_lim P bound) (obj_ok P HW ID HID ts bound shares proofs Hs HsM Hpr v) _ _ (flp_ok HP v HV HT) key ctx ms
     (map (map (fun x => fof x : F)) vs) Hc Hk Hsz) as [H|H].
  - apply Forall2_maps with (1 := HF). intros m x (enc & E1 & E2 & E3 & E4 & E5). exists enc.
    split; [exact E1|]. split; [exact E2|]. split; [exact E3|]. split; [exact E4|].
    rewrite map_length. exact E5.
  - left. rewrite H.
    assert (L : Forall (fun x => length x = vOUTPUT_LEN v) vs).
    { clear -HF. remember (map meas_of ms) as mm. clear Heqmm.
      induction HF as [|a b l l' (enc & _ & _ & _ & _ & Hl) _ IH]; constructor; easy. }
    cbn [p3_flp prio3_obj OUTPUT_LEN flp_decode FlpBBCGGI19].
    rewrite vsum_fof by easy. reflexivity.
  - right. exact H.
Qed.

Lemma run_average max ms : (0 < max)%Z -> (2 ^ Z.of_nat (bit_length max) < MODULUS P)%Z ->
  fits P (Sum_gadget (bit_length max)) (bit_length max) ->
  sizes_ok (obj (TestAverage P max)) ms -> ms <> [] ->
  Forall (fun m => 0 <= m <= max)%Z (map meas_of ms) ->
  run_result (obj (TestAverage P max)) (test_points_ok (TestAverage P max)) key ctx ms
    (zsuml (map meas_of ms) mod MODULUS P / Z.of_nat (length ms))%Z.
Proof.
  intros Hmax Hmax' Hf Hsz Hne Hm.
  destruct (valid_run (TestAverage P max) ms (map (fun m => [m]) (map meas_of ms))
    (TestAverage_ok P HP max Hmax Hmax' Hf) (TestAverage_truncate P HP max Hmax Hmax') Hsz) as [E|E].
  - apply Forall2_same. eapply Forall_impl; [|exact Hm]. intros m H.
    destruct (Sum_encode HP max Hmax Hmax' m H) as (enc & A & B & C & D). exists enc. repeat split; easy.
  - left. eapply eq_trans; [exact E|]. change (vOUTPUT_LEN (TestAverage P max)) with 1. rewrite total1.
    cbn [valid_decode TestAverage Sum map get nth_error bind]. destruct ms; [easy|]. reflexivity.
  - now right.
Qed.

Lemma run_average_empty max :
  run_vdaf (Prio3Vdaf (obj (TestAverage P max))) key tt ctx [] = Raise ZeroDivisionError.
Proof.
  unfold run_vdaf. change (vd_VERIFY_KEY_SIZE (Prio3Vdaf (obj (TestAverage P max)))) with 32.
  rewrite (proj2 (Nat.eqb_eq _ _) Hk). cbn [check bind foldM].
  assert (Ei : mapM (fun _ : nat => vd_agg_init (Prio3Vdaf (obj (TestAverage P max))) tt) (range 0 shares)
               = Ok (map (fun _ => repeat f0 1) (range 0 shares))) by now apply mapM_map.
  eapply eq_trans; [apply (f_equal (fun x => bind x _)); exact Ei|]. cbn [bind].
  set (sh := map (fun _ => repeat f0 1) (range 0 shares)).
  change (p3_unshard (obj (TestAverage P max)) tt sh 0 = Raise ZeroDivisionError).
  rewrite (unshard_total (obj (TestAverage P max)) (map (fun _ => []) (range 0 shares)) sh 0).
  - cbn. reflexivity.
  - subst sh. clear. induction (range 0 shares) as [|x l IH]; [apply aga_nil|]. apply aga_cons; [|exact IH]. now apply ag_init.
  - apply Forall_forall. intros o Ho. apply in_map_iff in Ho as (x & <- & _). constructor.
Qed.
End Runs.

Lemma prio3_average ts bound shares bits key ctx (ms : list (Z * bytes * bytes)) :
  2 <= shares < 256 -> (0 < bits)%Z -> (2 ^ Z.of_nat (bit_length bits) < MODULUS Field128)%Z ->
  fits Field128 (Sum_gadget (bit_length bits)) (bit_length bits) ->
  let p := Prio3Average ts bound shares bits in
  ctx_ok ctx -> length key = 32 -> sizes_ok p ms -> Forall (fun m => 0 <= m <= bits)%Z (map meas_of ms) -> ms <> [] ->
  (zsuml (map meas_of ms) < MODULUS Field128)%Z ->
  run_result p (test_points_ok (TestAverage Field128 bits)) key ctx ms (zsuml (map meas_of ms) / Z.of_nat (length ms))%Z.
Proof.
  intros Hs H0 H1 Hf p Hc Hk SZ OK NE LT.
  assert (HsM : (Z.of_nat shares < MODULUS Field128)%Z) by (change (MODULUS Field128) with 340282366920938462946865773367900766209%Z; lia).
  assert (NN : (0 <= zsuml (map meas_of ms))%Z).
  { clear -OK. induction OK as [|x l H _ IH]; [easy|]. change (zsuml (x :: l)) with (x + zsuml l)%Z. lia. }
  rewrite <- (Z.mod_small (zsuml (map meas_of ms)) (MODULUS Field128)) by lia.
  exact (run_average Field128 NttOk_Field128 wf_Field128 0xFFFFFFFF ltac:(lia) ts bound shares 1 Hs HsM ltac:(lia) key ctx Hc Hk bits ms H0 H1 Hf SZ NE OK).
Qed.
Lemma prio3_average_empty ts bound shares bits key ctx : length key = 32 ->
  run_vdaf (Prio3Vdaf (Prio3Average ts bound shares bits)) key tt ctx [] = Raise ZeroDivisionError.
Proof. intros Hk. exact (run_average_empty Field128 0xFFFFFFFF ts bound shares 1 key ctx Hk bits). Qed.

Lemma field64_cancel (x y : F Field64) : fmul x y = f0 <-> x = f0 \/ y = f0.
Proof. split; [apply (fmul_0 prime_Field64)|]. intros [->| ->]; ring. Qed.

Lemma single_accepts (v : Valid Field64) (g : F Field64 -> F Field64) x : vJOINT_RAND_LEN v = 0 ->
  valid_eval_plain v [x] [] 1 = Ok [g x] -> accepts v [x] <-> g x = f0.
Proof.
  intros J E. unfold accepts. rewrite J. split.
  - intros H. destruct (H [] eq_refl) as (out & E' & Z). rewrite E in E'. injection E' as <-. now inversion Z.
  - intros H jr Hj. destruct jr; [|discriminate]. exists [g x]. split; [exact E|]. now constructor.
Qed.

Lemma HigherDegree_accepts (x : F Field64) : accepts HigherDegree [x] <-> (0 <= val x <= 2)%Z.
Proof.
  rewrite (single_accepts HigherDegree (fun x => fmul x (fmul (fsub x f1) (fsub x (fadd f1 f1)))) x eq_refl (HigherDegree_eval [x] 1 eq_refl)).
  rewrite !field64_cancel.
  assert (A : forall c : F Field64, fsub x c = f0 <-> val x = val c).
  { intros c. split; [|intros E; apply F_eq in E; subst; ring]. intros E. f_equal. replace x with (fadd (fsub x c) c) by ring. rewrite E. ring. }
  rewrite !A. assert (B : x = f0 <-> val x = 0%Z) by (split; [now intros ->|intros E; now apply F_eq]). rewrite B.
  replace (val (f1 : F Field64)) with 1%Z by (vm_compute; reflexivity). replace (val (fadd f1 f1 : F Field64)) with 2%Z by (vm_compute; reflexivity).
  lia.
Qed.

Lemma npow_zero (x : F Field64) n : npow x (S n) = f0 -> x = f0.
Proof.
  induction n as [|n IH]; rewrite npow_S; [rewrite npow_0|]; intros H.
  - apply field64_cancel in H as [H|H]; [exact H|]. now apply (f1_neq_f0 prime_Field64) in H.
  - apply field64_cancel in H as [H|H]; [exact H|]. now apply IH.
Qed.

Lemma MultiGadget_accepts (x : F Field64) : accepts MultiGadget [x] <-> x = f0.
Proof.
  rewrite (single_accepts MultiGadget (fun x => npow x 5) x eq_refl (MultiGadget_eval [x] 1 eq_refl)).
  split; [apply npow_zero|]. intros ->. rewrite !npow_S, npow_0. ring.
Qed.

Section Higher.
Context (ts : TurboShake) (bound shares : nat) (Hs : 2 <= shares < 256) (key ctx : bytes) (Hc : ctx_ok ctx) (Hk : length key = 32).
Lemma run_higher ms : sizes_ok (Prio3HigherDegree ts bound shares) ms -> Forall (fun m => 0 <= m <= 2)%Z (map meas_of ms) ->
  run_result (Prio3HigherDegree ts bound shares) (test_points_ok HigherDegree) key ctx ms (zsuml (map meas_of ms) mod MODULUS Field64)%Z.
Proof.
  intros Hsz Hm.
  assert (HsM : (Z.of_nat shares < MODULUS Field64)%Z) by (change (MODULUS Field64) with 18446744069414584321%Z; lia).
  destruct (valid_run Field64 NttOk_Field64 wf_Field64 0xFFFFFFFF ltac:(lia) ts bound shares 1 Hs HsM ltac:(lia) key ctx Hc Hk
    HigherDegree ms (map (fun m => [m]) (map meas_of ms)) HigherDegree_ok HigherDegree_truncate Hsz) as [E|E].
  - apply Forall2_same. eapply Forall_impl; [|exact Hm]. intros m H. exists [fof m]. 
    assert (L : (m < 18446744069414584321)%Z) by (cbv beta in H; lia). cbn [valid_encode HigherDegree valid_truncate].
    unfold field_init. change (MODULUS Field64) with 18446744069414584321%Z. rewrite (proj2 (Z.ltb_lt _ _) L), (proj2 (Z.ltb_lt _ _)) by (cbv beta in H; lia).
    cbn [andb bind]. repeat apply conj; try reflexivity. apply HigherDegree_accepts.
    change (val (fof m : F Field64)) with (m mod 18446744069414584321)%Z. rewrite Z.mod_small by (cbv beta in H; lia). exact H.
  - left. eapply eq_trans; [exact E|]. change (vOUTPUT_LEN HigherDegree) with 1. rewrite total1. reflexivity.
  - now right.
Qed.
End Higher.

(** FlpTest *)
Lemma flptest_ok (P : FieldClass) (HM : (4 < MODULUS P)%Z) jl :
  FlpOk (FlpTest P jl) (fun _ => True) (fun meas _ => exists m, (0 <= m < 5)%Z /\ meas = [fof m; fof m]).
Proof.
  split; cbn [flp_prove flp_query flp_decide flp_truncate MEAS_LEN PROOF_LEN VERIFIER_LEN OUTPUT_LEN FlpTest].
  - intros meas pr jr Hm _ _. now exists meas.
  - now left.
  - intros n ms ps q jr _ _ _ Hp _ _ _. exists ps. split; [exact Hp|]. split; reflexivity.
  - intros n meas proof q jr _ _ _ _ _ _ H. now destruct H.
  - intros [|a [|b [|]]] H; try discriminate. cbn [length Nat.eqb negb get nth_error bind]. destruct (feqb a b); eexists; reflexivity.
  - intros meas pr jr q proof ver Hm _ _ _ (m & Hr & ->) [= <-] [= <-]. cbn [length Nat.eqb negb get nth_error bind].
    rewrite (proj2 (feqb_eq _ _) eq_refl). cbn [negb]. unfold fint. change (val (fof m : F P)) with (m mod MODULUS P)%Z. rewrite Z.mod_small by lia.
    now rewrite (proj2 (Z.leb_le _ _)), (proj2 (Z.ltb_lt _ _)) by lia.
  - intros n ms (Hn & Hl). exists (map (fun v => [nth 0 v f0]) ms). split; [|split].
    + split; [now rewrite map_length|]. apply Forall_forall. intros x Hx. apply in_map_iff in Hx as (y & <- & _). reflexivity.
    + apply mapM_map. intros x Hx. rewrite Forall_forall in Hl. specialize (Hl x Hx). destruct x; [discriminate|]. reflexivity.
    + cbn. rewrite map_map. reflexivity.
Qed.

Section FlpT.
Context (ts : TurboShake) (bound jl : nat) (key ctx : bytes) (Hc : ctx_ok ctx) (Hk : length key = 32).
Notation p := (Prio3FlpTest ts bound jl).
Lemma flptest_run ms : sizes_ok p ms -> Forall (fun m => 0 <= m < 5)%Z (map meas_of ms) ->
  run_vdaf (Prio3Vdaf p) key tt ctx ms = Ok (zsuml (map meas_of ms) mod MODULUS Field128)%Z \/
  (run_vdaf (Prio3Vdaf p) key tt ctx ms = Raise OutOfFuel /\ ran_out p).
Proof.
  intros Hsz Hm. assert (M5 : (5 < MODULUS Field128)%Z) by (vm_compute; reflexivity).
  assert (HO : Prio3Ok p (obj_lim Field128 bound)).
  { constructor; unfold obj_lim; cbn [p3_xof p3_field p3_SHARES p3_PROOFS p3_VERIFY_KEY_SIZE p3_ID Prio3FlpTest]; try easy; try lia.
    - apply turboshake_ok.
    - simpl loop_bound. lia.
    - simpl SEED_SIZE. lia.
    - simpl SEED_SIZE. lia.
    - exact wf_Field128. }
  destruct (run_ok p _ HO _ _ (flptest_ok Field128 ltac:(lia) jl) key ctx ms (map (fun m => [fof m]) (map meas_of ms)) Hc Hk Hsz) as [H|[H|H]].
  - clear Hsz. induction ms as [|((m & no) & ra) ms IH]; [constructor|]. cbn [map] in *. apply Forall_cons_iff in Hm as (H1 & Hm).
    constructor; [|now apply IH]. change (meas_of (m, no, ra)) with m in *. exists [fof m; fof m].
    cbn [p3_flp Prio3FlpTest flp_encode FlpTest flp_truncate MEAS_LEN OUTPUT_LEN fst].
    unfold field_init. rewrite (proj2 (Z.ltb_lt _ _)), (proj2 (Z.ltb_lt _ _)) by lia. cbn [andb bind].
    repeat apply conj; try reflexivity. intros _ _. now exists m.
  - left. rewrite H. change (OUTPUT_LEN (p3_flp p)) with 1.
    assert (EV : vsum 1 (map (fun m => [fof m : F Field128]) (map meas_of ms)) = [fof (zsuml (map meas_of ms))]).
    { replace (map (fun m => [fof m : F Field128]) (map meas_of ms)) with (map (map (fun x => fof x : F Field128)) (map (fun m => [m]) (map meas_of ms)))
        by (rewrite (map_map (fun m => [m])); reflexivity).
      rewrite (vsum_fof (P := Field128)); [now rewrite total1|]. apply Forall_forall. intros x Hx. apply in_map_iff in Hx as (y & <- & _). reflexivity. }
    eapply eq_trans; [exact (f_equal (fun v => flp_decode (FlpTest Field128 jl) v (length ms)) EV)|reflexivity].
  - right. exact H.
  - destruct H as (msg & _ & m & no & ra & _ & B). exfalso. unfold bad_query in B. firstorder.
Qed.
End FlpT.

(** It is insecure: any measurement can be "proved", and the verifier is the
    measurement. *)
Lemma flptest_insecure (P : FieldClass) jl meas :
  exists proof, forall q jr n, exists v, flp_query (FlpTest P jl) meas proof q jr n = Ok v /\ flp_decide (FlpTest P jl) v = Ok true.
Proof. exists [f0; f0]. intros q jr n. exists [f0; f0]. split; reflexivity. Qed.
Lemma flptest_reveals (P : FieldClass) jl meas prove_rand q jr n :
  (let* proof := flp_prove (FlpTest P jl) meas prove_rand jr in flp_query (FlpTest P jl) meas proof q jr n) = Ok meas.
Proof. reflexivity. Qed.

(** TestDaf *)
Lemma foldM_Ok {A B} (f : A -> B -> res A) x l a b : f a x = Ok b -> foldM f (x :: l) a = foldM f l b.
Proof. intros E. cbn [foldM]. now rewrite E. Qed.
Lemma foldM_Raise {A B} (f : A -> B -> res A) x l a e : f a x = Raise e -> foldM f (x :: l) a = Raise e.
Proof. intros E. cbn [foldM]. now rewrite E. Qed.
Section TDaf.
Context (ts : TurboShake) (bound : nat).
Notation X := (XofTurboShake128 ts bound).
Notation M := (MODULUS Field128).
Add Ring FringTD : (@F_ring Field128).
Definition daf_ran_out : Prop := exists seed, expand_into_vec X Field128 seed [] [] 1 = Raise OutOfFuel.

Lemma daf_report ctx m rand a b : (- M < m < M)%Z -> length rand = 32 ->
  (exists h, run_daf_report (TestDaf ts bound) ctx tt [a; b] (m, [], rand) = Ok [fadd a (fsub (fof m) h); fadd b h]) \/
  (run_daf_report (TestDaf ts bound) ctx tt [a; b] (m, [], rand) = Raise OutOfFuel /\ daf_ran_out).
Proof.
  intros Hm Hr. unfold run_daf_report. cbn [df_shard TestDaf]. cbn [length Nat.eqb check bind]. rewrite (proj2 (Nat.eqb_eq _ _) Hr). cbn [check bind].
  destruct (expand_cases X Field128 (obj_lim Field128 bound) rand [] [] 1 (turboshake_ok ts bound _)) as [(v & E & Hv)|E].
  - unfold obj_lim. simpl loop_bound. lia.
  - exact Hr.
  - cbn. lia.
  - left. change (2 - 1) with 1. destruct v as [|h [|]]; try discriminate. exists h. rewrite E. cbn [bind]. unfold field_init.
    rewrite (proj2 (Z.ltb_lt _ _)), (proj2 (Z.ltb_lt _ _)) by lia. reflexivity.
  - right. change (2 - 1) with 1. rewrite E. split; [reflexivity|]. now exists rand.
Qed.

Lemma daf_run ctx ms : Forall (fun '(m, nonce, rand) => (- M < m < M)%Z /\ nonce = [] /\ length rand = 32) ms ->
  run_daf (TestDaf ts bound) ctx tt ms = Ok (zsuml (map meas_of ms) mod M)%Z \/
  (run_daf (TestDaf ts bound) ctx tt ms = Raise OutOfFuel /\ daf_ran_out).
Proof.
  intros HF. unfold run_daf.
  assert (L : forall (a b : F Field128), (exists a' b', foldM (run_daf_report (TestDaf ts bound) ctx tt) ms [a; b] = Ok [a'; b'] /\
       fadd a' b' = fadd (fadd a b) (fof (zsuml (map meas_of ms)))) \/
     (foldM (run_daf_report (TestDaf ts bound) ctx tt) ms [a; b] = Raise OutOfFuel /\ daf_ran_out)).
  { induction ms as [|((m & nonce) & rand) ms IH]; intros a b.
    - left. exists a, b. split; [reflexivity|]. change (fof (zsuml (map meas_of []))) with (f0 : F Field128). ring.
    - apply Forall_cons_iff in HF as ((Hm & -> & Hr) & HF).
      destruct (daf_report ctx m rand a b Hm Hr) as [(h & E)|(E & O)]; [|right; split; [exact (foldM_Raise _ _ _ _ _ E)|exact O]].
      rewrite (foldM_Ok _ _ _ _ _ E). destruct (IH HF (fadd a (fsub (fof m) h)) (fadd b h)) as [(a' & b' & E2 & Es)|E2]; [left|now right].
      exists a', b'. split; [exact E2|]. rewrite Es. cbn [map]. change (zsuml (meas_of (m, [], rand) :: map meas_of ms)) with (m + zsuml (map meas_of ms))%Z.
      rewrite fof_add. ring. }
  destruct (L (fof 0) (fof 0)) as [(a & b & E & Es)|(E & O)].
  - left. eapply eq_trans; [apply (f_equal (fun x => bind x (fun agg_shares => df_unshard (TestDaf ts bound) tt agg_shares (length ms)))); exact E|].
    cbn [bind df_unshard TestDaf reduce_add fold_left]. rewrite Es. unfold fint. f_equal.
    replace (fadd (fadd (fof 0) (fof 0)) (fof (zsuml (map meas_of ms)))) with (fof (zsuml (map meas_of ms)) : F Field128); [reflexivity|].
    change (fof 0) with (f0 : F Field128). ring.
  - right. split; [|exact O].
    eapply eq_trans; [apply (f_equal (fun x => bind x (fun agg_shares => df_unshard (TestDaf ts bound) tt agg_shares (length ms)))); exact E|]. reflexivity.
Qed.
End TDaf.
