(** Proofs about the program that writes the test vectors and the tests that read
    them.  Nothing here models a /repo function. *)
From Coq Require Import Strings.String.
From Verif Require Export GenMain TestVecSpec.
From Verif Require Import Vdaf TestVecFacts TestVecGen TestVecInst NegFacts NegProofs NegPrio3 RunSpec
  Prio3Inst FlpSpec FlpProofs RobustSpec MeasSpec MeasFacts Roots Poplar1Spec TestCircuitFacts XofTestsFacts BaseFacts
  Props_Prio3 Props_Tests Props_Poplar1 Props_TestVec Props_Neg.
Open Scope nat_scope.

(** The class of tests for a class of VDAFs. *)
Definition class_of (i : instance) : test_class :=
  match i with
  | ICount _ => TestPrio3Count
  | ISum _ _ => TestPrio3Sum
  | ISumVec _ _ _ _ => TestPrio3SumVec
  | IHistogram _ _ _ => TestPrio3Histogram
  | IMultiproof _ _ _ _ _ _ => TestPrio3SumVecWithMultiproof
  | IMultihot _ _ _ _ => TestPrio3MultihotCountVec
  | IHigherDegree _ => TestPrio3HigherDegree
  | IPoplar1 _ => TestPoplar1
  end.

(** The parameters that a test vector does not record have the values that the
    tests assume. *)
Definition recorded (i : instance) : Prop :=
  match i with IMultiproof _ field proofs _ _ _ => field = Field64 /\ proofs = 3 | _ => True end.

Lemma Ok_inj {A} (x y : A) : Ok x = Ok y -> x = y.
Proof. congruence. Qed.

Lemma init_shares field X ID vks shares flp n p : Prio3_init field X ID vks shares flp n = Ok p -> Z.of_nat (p3_SHARES p) = shares.
Proof.
  unfold Prio3_init. destruct (_ && _)%bool eqn:E; [|discriminate]. intros H. apply Ok_inj in H. subst p. cbn [p3_SHARES].
  apply andb_true_iff in E as [E _]. apply Z.leb_le in E. lia.
Qed.

Section L.
Context (ts : TurboShake) (aes : BlockCipher) (bound : nat).
Notation construct := (construct ts aes bound).
Notation load := (load ts aes bound).

Lemma shares_recorded i o : construct i = Ok o ->
  match i with
  | IPoplar1 _ => True
  | ICount s | ISum s _ | ISumVec s _ _ _ | IHistogram s _ _ | IMultiproof s _ _ _ _ _ | IMultihot s _ _ _ | IHigherDegree s =>
    Z.of_nat (vd_SHARES (object_vdaf o)) = s
  end.
Proof.
  destruct i; cbn [GenMain.construct]; intros H; try exact I;
    (apply bind_Ok in H as (p & H & E); apply Ok_inj in E; subst o; change (Z.of_nat (p3_SHARES p) = shares));
    unfold Prio3Count, Prio3Sum, Prio3SumVec, Prio3Histogram, Prio3SumVecWithMultiproof, Prio3MultihotCountVec in H;
    try (apply bind_Ok in H as (v & _ & H)); exact (init_shares _ _ _ _ _ _ _ _ H).
Qed.

Lemma load_document i o : construct i = Ok o -> recorded i -> load (class_of i) (document i o) = Ok o.
Proof.
  intros H HR. pose proof (shares_recorded i o H) as HS.
  destruct i; unfold document; cbn [recorded] in HR; try (match type of HR with _ /\ _ => destruct HR as [-> ->] end);
    cbn -[GenMain.construct Z.of_nat vd_SHARES object_vdaf]; rewrite ?HS; exact H.
Qed.

Lemma multiproof_not_recorded shares len max chunk field n o o' :
  construct (IMultiproof shares Field64 3 len max chunk) = Ok o -> construct (IMultiproof shares field n len max chunk) = Ok o' ->
  document (IMultiproof shares field n len max chunk) o' = document (IMultiproof shares Field64 3 len max chunk) o.
Proof.
  intros H H'. pose proof (shares_recorded _ _ H) as E. pose proof (shares_recorded _ _ H') as E'. cbn iota beta in E, E'.
  unfold document. now rewrite E, E'.
Qed.
End L.

(** The parameters do not overwrite other entries. *)
Lemma dict_get_set d k v k' : dict_get (dict_set d k v) k' = if String.eqb k k' then Ok v else dict_get d k'.
Proof.
  induction d as [|[a b] d IH]; unfold dict_get in *; cbn [dict_set find fst].
  - destruct (String.eqb k k'); reflexivity.
  - destruct (String.eqb a k) eqn:E; cbn [find fst].
    + apply String.eqb_eq in E. subst a. destruct (String.eqb k k') eqn:E'; reflexivity.
    + destruct (String.eqb a k') eqn:E'; [|exact IH]. apply String.eqb_eq in E'. subst a.
      rewrite String.eqb_sym, E. reflexivity.
Qed.

Lemma type_param_keys i d k : ~ In k (snd (test_vec_set_type_param i d)) ->
  dict_get (fst (test_vec_set_type_param i d)) k = dict_get d k.
Proof.
  intros H. destruct i; cbn [test_vec_set_type_param fst snd] in *; try reflexivity; rewrite !dict_get_set;
    repeat match goal with
           | |- context [String.eqb ?a k] => destruct (String.eqb a k) eqn:?E;
             [apply String.eqb_eq in E; subst k; exfalso; apply H; cbn; tauto|clear E]
           end; reflexivity.
Qed.

(** The other keys of a test vector. *)
Definition vector_keys : list string :=
  ["operations"; "shares"; "verify_key"; "agg_param"; "ctx"; "reports"; "agg_shares"; "agg_result"]%string.
Lemma type_params_apart i d k : In k (snd (test_vec_set_type_param i d)) -> ~ In k vector_keys.
Proof.
  destruct i; cbn; intuition; subst; discriminate.
Qed.

(** Files that the tests of their class accept. *)
Section F.
Context (ts : TurboShake) (aes : BlockCipher) (bound : nat).
Definition file_passes (f : file) : Prop :=
  exists c, In (c, f_name f) files_read /\ load ts aes bound c (f_params f) = Ok (f_object f) /\
  forall result_eqb, (forall x, result_eqb x x = true) -> check_test_vector (object_vdaf (f_object f)) result_eqb (f_vec f) = Ok tt.

Lemma file_intro i o show tv suffix : construct ts aes bound i = Ok o -> recorded i -> In (class_of i, file_name i suffix) files_read ->
  (forall result_eqb, (forall x, result_eqb x x = true) -> check_test_vector (object_vdaf o) result_eqb tv = Ok tt) ->
  file_passes (vec_file i o show tv suffix).
Proof.
  intros H HR HI HC. exists (class_of i). cbn [vec_file f_name f_params f_object f_vec]. split; [exact HI|]. split; [|exact HC].
  now apply load_document.
Qed.

(** What is known of one call in main(). *)
Definition gives (m : res file) (name : string) (result : json_result) (excuse : Prop) : Prop :=
  (forall f, m = Ok f -> file_passes f /\ f_name f = name /\ f_result f = Some result) /\
  ((exists f, m = Ok f) \/ excuse).

(** The reports that gen_test_vec_for_vdaf() shards. *)
Lemma gen_reports_meas (vdaf : Vdaf) ms : map meas_of (gen_reports vdaf ms) = ms.
Proof. unfold gen_reports. rewrite map_map. apply map_id. Qed.
Lemma gen_rand_length n : length (test_vec_gen_rand n) = n.
Proof. unfold test_vec_gen_rand, range. rewrite map_length, seq_length. lia. Qed.

Definition enc_ok (p : Prio3) (m : Measurement (p3_flp p)) : bool :=
  match flp_encode (p3_flp p) m with Ok meas => length meas =? MEAS_LEN (p3_flp p) | Raise _ => false end.

Definition main_key : bytes := test_vec_gen_rand 32.
Definition main_nonce : bytes := test_vec_gen_rand 16.

(** The model's bound is hit, or the query randomness is rejected. *)
Definition p3_excuse (p : Prio3) (good : list (F (p3_field p)) -> Prop) : Prop :=
  ran_out p \/ bad_query p good main_key main_ctx main_nonce.

Lemma main_ctx_ok : ctx_ok main_ctx.
Proof. reflexivity. Qed.

Lemma prio3_positive (p : Prio3) lim good valid i show ms n r :
  Prio3Ok p lim -> FlpOk (p3_flp p) good valid -> construct ts aes bound i = Ok (OPrio3 p) -> recorded i ->
  In (class_of i, file_name i (str_nat (Z.of_nat n))) files_read -> p3_VERIFY_KEY_SIZE p = 32 -> 1 <= p3_SHARES p ->
  forallb (enc_ok p) ms = true ->
  (forall reports, sizes_ok p reports -> map meas_of reports = ms -> run_result p good main_key main_ctx reports r) ->
  gives (gen_positive ts aes bound i (OPrio3 p) show tt main_ctx ms n) (file_name i (str_nat (Z.of_nat n))) (show r) (p3_excuse p good).
Proof.
  intros HO HF HC HR HI HK HS HE HRun. unfold gen_positive. rewrite HC. cbn [bind].
  assert (EK : test_vec_gen_rand (vd_VERIFY_KEY_SIZE (Prio3Vdaf p)) = main_key) by (unfold main_key; rewrite <- HK; reflexivity).
  assert (HSz : sizes_ok p (gen_reports (Prio3Vdaf p) ms)).
  { apply Forall_forall. intros [[m nonce] rand] Hin. apply in_map_iff in Hin as (m' & E & _). injection E as _ <- <-.
    split; apply gen_rand_length. }
  assert (Henc : Forall (encodable p) (gen_reports (Prio3Vdaf p) ms)).
  { apply Forall_forall. intros [[m nonce] rand] Hin. apply in_map_iff in Hin as (m' & E & Hm'). injection E as <- <- <-.
    split; [apply gen_rand_length|]. split; [apply gen_rand_length|].
    apply (proj1 (forallb_forall _ _) HE) in Hm'. unfold enc_ok in Hm'. cbn [fst].
    destruct (flp_encode (p3_flp p) m') as [meas|e] eqn:EE; [|discriminate]. exists meas. split; [reflexivity|]. now apply Nat.eqb_eq. }
  pose proof (C71_Prio3 p lim good valid HO HF main_key main_ctx main_ctx_ok ltac:(unfold main_key; rewrite gen_rand_length; easy) _ Henc) as CO.
  destruct (C71_generated (Prio3Vdaf p) main_ctx tt (fun _ sh => verifier_share_wf p sh) ms) as [G1 G2].
  { rewrite EK. exact CO. } { exact HS. } { change (1 <= 1). lia. }
  rewrite EK in G1.
  pose proof (HRun _ HSz (gen_reports_meas (Prio3Vdaf p) ms)) as RR.
  assert (HU : (exists r', run_vdaf (Prio3Vdaf p) main_key tt main_ctx (gen_reports (Prio3Vdaf p) ms) = Ok r') ->
    run_vdaf (Prio3Vdaf p) main_key tt main_ctx (gen_reports (Prio3Vdaf p) ms) = Ok r).
  { intros (r' & E). destruct RR as [RR|[[RR _]|(msg & RR & _)]]; [exact RR| |]; exfalso; rewrite E in RR; discriminate. }
  change (object_vdaf (OPrio3 p)) with (Prio3Vdaf p).
  split.
  - intros f E. apply bind_Ok in E as (tv & E & Ef). apply Ok_inj in Ef. subst f.
    assert (ER : tv_agg_result tv = Some r).
    { destruct (tv_agg_result tv) as [r'|] eqn:Er.
      - pose proof (proj2 (G1 r') (ex_intro _ tv (conj E Er))) as X. rewrite (HU (ex_intro _ r' X)) in X. apply Ok_inj in X. now subst r'.
      - exfalso. unfold gen_test_vec_for_vdaf in E.
        repeat (apply bind_Ok in E as ([[? ?] ?] & _ & E) || apply bind_Ok in E as (? & _ & E)). apply Ok_inj in E. subst tv. discriminate Er. }
    split; [|split; [reflexivity|]].
    + apply file_intro; [exact HC|exact HR|exact HI|]. intros eqb He. exact (G2 tv eqb He E).
    + unfold vec_file. cbn [f_result]. match goal with |- option_map _ ?x = _ => change x with (tv_agg_result tv) end. now rewrite ER.
  - destruct RR as [RR|[[_ RR]|(msg & _ & m & nonce & rand & Hin & RR)]].
    + left. destruct (proj1 (G1 r) RR) as (tv & E & _). change (exists f, (let* tv := gen_test_vec_for_vdaf (Prio3Vdaf p) tt main_ctx ms in Ok (vec_file i (OPrio3 p) show tv (str_nat (Z.of_nat n)))) = Ok f).
      rewrite E. eexists. reflexivity.
    + right. now left.
    + right. right. apply in_map_iff in Hin as (m' & E & _). injection E as _ <- _. exact RR.
Qed.
End F.

Section Std.
Context (ts : TurboShake) (aes : BlockCipher) (bound : nat).

(** A call for an object with a given circuit. *)
Lemma circuit_positive (P : NttFieldClass) (HP : NttOk P) (HW : wf_field P) ID v shares proofs i show ms n r
  (HID : (0 <= ID < 2 ^ 32)%Z) (Hs : 2 <= shares < 256) (HsM : (Z.of_nat shares < MODULUS P)%Z) (Hpr : proofs < 256)
  (HV : ValidOk v) (HT : truncate_linear v) :
  let p := prio3_obj P ID v ts bound shares proofs in
  construct ts aes bound i = Ok (OPrio3 p) -> recorded i ->
  In (class_of i, file_name i (str_nat (Z.of_nat n))) files_read ->
  forallb (enc_ok p) ms = true ->
  (forall reports, sizes_ok p reports -> map meas_of reports = ms -> run_result p (test_points_ok v) main_key main_ctx reports r) ->
  gives ts aes bound (gen_positive ts aes bound i (OPrio3 p) show tt main_ctx ms n) (file_name i (str_nat (Z.of_nat n))) (show r) (p3_excuse p (test_points_ok v)).
Proof.
  intros p HC HR HI HE HRun.
  apply (prio3_positive ts aes bound p (obj_lim P bound) (test_points_ok v) (circuit_zero v)); try assumption.
  - now apply obj_ok.
  - exact (flp_ok HP v HV HT).
  - reflexivity.
  - cbn. lia.
Qed.

Lemma poplar1_positive bits level prefixes ms n (Ha : forall k b, length b = 16 -> length (aes k b) = 16) (Hb : (Z.of_nat bound < 2 ^ 120)%Z) :
  let p := p1_obj ts aes bound bits in
  0 < bits -> NoDup prefixes -> Forall (fun x => length x = S level) prefixes -> level < bits -> (Z.of_nat level < 65536)%Z ->
  (Z.of_nat (length prefixes) < 2 ^ 32)%Z -> Forall (fun m => length m = bits) ms -> (Z.of_nat (length ms) < 1000)%Z ->
  In (TestPoplar1, file_name (IPoplar1 (Z.of_nat bits)) (str_nat (Z.of_nat n))) files_read ->
  gives ts aes bound (gen_positive ts aes bound (IPoplar1 (Z.of_nat bits)) (OPoplar1 p) JInts (Z.of_nat level, prefixes) main_ctx ms n)
    (file_name (IPoplar1 (Z.of_nat bits)) (str_nat (Z.of_nat n)))
    (JInts (map (fun x => Z.of_nat (count_prefix x ms)) prefixes)) (p1_ran_out p (length prefixes)).
Proof.
  intros p H0 ND HL Hlv H16 H32 HM Hn HI.
  assert (HC : construct ts aes bound (IPoplar1 (Z.of_nat bits)) = Ok (OPoplar1 p)).
  { cbn [construct]. rewrite p1_init_cases, (proj2 (Z.ltb_lt 0 (Z.of_nat bits))), Nat2Z.id by lia. reflexivity. }
  destruct (p1_obj_ok ts aes bound bits Ha Hb H0) as (lim & HO). fold p in HO.
  assert (HSz : p1_sizes_ok p (gen_reports (p1_vdaf p) ms)).
  { apply Forall_forall. intros [[m nonce] rand] Hin. apply in_map_iff in Hin as (m' & E & _). injection E as _ <- <-.
    split; apply gen_rand_length. }
  assert (HM' : Forall (fun r => length (fst (fst r)) = id_BITS (p1_idpf p)) (gen_reports (p1_vdaf p) ms)).
  { apply Forall_map. exact HM. }
  assert (EM : map (fun r : list bool * bytes * bytes => fst (fst r)) (gen_reports (p1_vdaf p) ms) = ms) by exact (gen_reports_meas (p1_vdaf p) ms).
  assert (HK : length main_key = p1_VERIFY_KEY_SIZE p) by (unfold main_key; rewrite gen_rand_length; reflexivity).
  assert (Hn' : (Z.of_nat (length (gen_reports (p1_vdaf p) ms)) < level_modulus p level)%Z).
  { unfold gen_reports. rewrite map_length. eapply Z.lt_trans; [exact Hn|]. unfold level_modulus. destruct (_ <? _); reflexivity. }
  pose proof (C37_exact p lim HO main_key main_ctx level prefixes (gen_reports (p1_vdaf p) ms) ND HL main_ctx_ok HK Hlv H16 HSz HM' Hn') as RR.
  rewrite EM in RR.
  assert (HAP : agg_param_wf (Z.of_nat level, prefixes)).
  { split; [cbn [fst]; lia|]. split; [exact H32|]. eapply Forall_impl; [|exact HL]. intros x E. cbn [fst]. cbv beta in E. lia. }
  assert (HR3 : Forall (fun '(alpha, nonce, rand) => length alpha = id_BITS (p1_idpf p) /\ length nonce = p1_NONCE_SIZE /\ length rand = p1_RAND_SIZE p)
    (gen_reports (p1_vdaf p) ms)).
  { apply Forall_forall. intros [[m nonce] rand] Hin. pose proof (proj1 (Forall_forall _ _) HSz _ Hin) as [A B].
    pose proof (proj1 (Forall_forall _ _) HM' _ Hin) as C. cbn [fst] in C. easy. }
  pose proof (C71_Poplar1 p lim HO (proj1 IdpfInst.idpf_fields_wf) (proj2 IdpfInst.idpf_fields_wf) main_key main_ctx main_ctx_ok (Z.of_nat level, prefixes) HAP _ HR3) as CO.
  destruct (C71_generated (p1_vdaf p) main_ctx (Z.of_nat level, prefixes) (p1_level_inv p (Z.of_nat level, prefixes)) ms) as [G1 G2].
  { exact CO. } { change (1 <= 2). lia. } { change (1 <= 2). lia. }
  change (test_vec_gen_rand (vd_VERIFY_KEY_SIZE (p1_vdaf p))) with main_key in G1.
  set (r := map (fun x => Z.of_nat (count_prefix x ms)) prefixes) in *.
  set (run := run_vdaf (p1_vdaf p) main_key (Z.of_nat level, prefixes) main_ctx (gen_reports (p1_vdaf p) ms)) in *.
  unfold gen_positive. rewrite HC. cbn [bind]. change (object_vdaf (OPoplar1 p)) with (p1_vdaf p).
  split.
  - intros f E. apply bind_Ok in E as (tv & E & Ef). apply Ok_inj in Ef. subst f.
    assert (ER : tv_agg_result tv = Some r).
    { destruct (tv_agg_result tv) as [r'|] eqn:Er.
      - pose proof (proj2 (G1 r') (ex_intro _ tv (conj E Er))) as X. destruct RR as [RR|[RR _]].
        + assert (Y : Ok r = Ok r') by (etransitivity; [symmetry; exact RR|exact X]). apply Ok_inj in Y. now subst r'.
        + exfalso. assert (Y : Raise OutOfFuel = Ok r') by (etransitivity; [symmetry; exact RR|exact X]). discriminate Y.
      - exfalso. unfold gen_test_vec_for_vdaf in E.
        repeat (apply bind_Ok in E as ([[? ?] ?] & _ & E) || apply bind_Ok in E as (? & _ & E)). apply Ok_inj in E. subst tv. discriminate Er. }
    split; [|split; [reflexivity|]].
    + apply file_intro; [exact HC|exact I|exact HI|]. intros eqb He. exact (G2 tv eqb He E).
    + unfold vec_file. cbn [f_result]. match goal with |- option_map _ ?x = _ => change x with (tv_agg_result tv) end. now rewrite ER.
  - destruct RR as [RR|[_ RR]].
    + left. destruct (proj1 (G1 r) RR) as (tv & E & _).
      change (exists f, (let* tv := gen_test_vec_for_vdaf (p1_vdaf p) (Z.of_nat level, prefixes) main_ctx ms in Ok (vec_file (IPoplar1 (Z.of_nat bits)) (OPoplar1 p) JInts tv (str_nat (Z.of_nat n)))) = Ok f).
      rewrite E. eexists. reflexivity.
    + now right.
Qed.
End Std.

(** [mapM] of a function that returns or raises [e]. *)
Lemma mapM_cases {A B} (f : A -> res B) (e : exn) (bad : A -> Prop) l :
  (forall x, In x l -> (exists y, f x = Ok y) /\ ~ bad x \/ f x = Raise e /\ bad x) ->
  (exists ys, mapM f l = Ok ys) /\ (forall x, In x l -> ~ bad x) \/ mapM f l = Raise e /\ exists x, In x l /\ bad x.
Proof.
  induction l as [|x l IH]; intros H.
  - left. split; [eexists; reflexivity|]. intros x [].
  - cbn [mapM]. destruct (H x (or_introl eq_refl)) as [[(y & E) N]|[E N]]; rewrite E; cbn [bind].
    + destruct (IH (fun x' Hx => H x' (or_intror Hx))) as [[(ys & E') N']|[E' (x' & Hx & N')]]; rewrite E'; cbn [bind].
      * left. split; [eexists; reflexivity|]. intros x' [->|Hx]; auto.
      * right. split; [reflexivity|]. exists x'. split; [now right|exact N'].
    + right. split; [reflexivity|]. exists x. split; [now left|exact N].
Qed.
Lemma in_enum {A} (l : list A) i x : In (i, x) (combine (range 0 (length l)) l) -> In x l.
Proof. intros H. apply in_combine_r in H. exact H. Qed.
Lemma enum_in {A} (l : list A) x : In x l -> exists i, In (i, x) (combine (range 0 (length l)) l).
Proof.
  unfold range. rewrite Nat.sub_0_r. generalize 0. induction l as [|y l IH]; intros k; [intros []|].
  intros [->|H]; cbn [length seq combine].
  - exists k. now left.
  - destruct (IH (S k) H) as (i & Hi). exists i. now right.
Qed.
Lemma print_each_cases {A} (l : list A) print e (bad : A -> Prop) :
  (forall i x, In x l -> (exists y, print i x = Ok y) /\ ~ bad x \/ print i x = Raise e /\ bad x) ->
  (exists lines, print_each l print = Ok lines) /\ (forall x, In x l -> ~ bad x) \/ print_each l print = Raise e /\ exists x, In x l /\ bad x.
Proof.
  intros H. unfold print_each.
  destruct (mapM_cases (fun '(i, x) => print i x) e (fun ix => bad (snd ix)) (combine (range 0 (length l)) l)) as [[(ys & E) N]|[E ((i & x) & Hx & N)]].
  - intros (i & x) Hx. apply H. eapply in_enum. exact Hx.
  - rewrite E. left. split; [eexists; reflexivity|]. intros x Hx. destruct (enum_in l x Hx) as (i & Hi). exact (N _ Hi).
  - rewrite E. right. split; [reflexivity|]. exists x. split; [eapply in_enum; exact Hx|exact N].
Qed.
Lemma print_each_ok {A} (l : list A) print : (forall i x, In x l -> exists y, print i x = Ok y) -> exists lines, print_each l print = Ok lines.
Proof.
  intros H. destruct (print_each_cases l print TypeError (fun _ => False)) as [[X _]|[_ (x & _ & [])]]; [|exact X].
  intros i x Hx. left. split; [now apply H|easy].
Qed.
Lemma print_entry_ok header line tab : tab < 72 -> exists lines, print_entry header line tab = Ok lines.
Proof. intros H. unfold print_entry. destruct (XofTestsFacts.wrapped_lines line tab H) as (l & E & _). rewrite E. eexists. reflexivity. Qed.
Lemma zip_longest_none {A B} (a : list A) (b : list B) : (exists y, In (None, y) (zip_longest a b)) <-> length a < length b.
Proof.
  revert b. induction a as [|x a IH]; intros [|y b]; cbn [zip_longest length].
  - split; [intros (? & [])|lia].
  - split; [lia|]. intros _. exists (Some y). now left.
  - split; [|lia]. intros (y & [E|H]); [discriminate|]. exfalso. pose proof (proj1 (IH []) (ex_intro _ y H)). cbn [length] in *. lia.
  - split.
    + intros (y' & [E|H]); [discriminate|]. pose proof (proj1 (IH b) (ex_intro _ y' H)). lia.
    + intros H. destruct (proj2 (IH b) ltac:(lia)) as (y' & H'). exists y'. now right.
Qed.

Section R.
Context {M R : Type} (str_meas : M -> string) (str_result : option R -> string).
(** Every verifier message belongs to a round that has verifier shares. *)
Definition rounds_ok (report : report_vec M) : Prop := length (rv_verifier_messages report) <= length (rv_verifier_shares report).
Lemma print_report_cases n report :
  (exists lines, print_report str_meas n report = Ok lines) /\ rounds_ok report \/
  print_report str_meas n report = Raise TypeError /\ ~ rounds_ok report.
Proof.
  unfold print_report, rounds_ok.
  destruct (print_entry_ok "  public_share: >-"%string (rv_public_share report) 4 ltac:(lia)) as (l1 & E1). rewrite E1. cbn [bind].
  destruct (print_each_ok (rv_input_shares report) (fun i share => print_entry ("  input_share_" ++ str_n i ++ ": >-") share 4)%string) as (l2 & E2).
  { intros i x _. apply print_entry_ok. lia. }
  rewrite E2. cbn [bind].
  set (z := zip_longest (rv_verifier_shares report) (rv_verifier_messages report)).
  match goal with |- context [print_each z ?f] => destruct (print_each_cases z f TypeError (fun x => fst x = None)) as [[(l & E) N]|[E N]] end.
  - intros i ([shares|] & message) _; [left|right; now split]. split; [|discriminate].
    destruct (print_each_ok shares (fun j share => print_entry ("    verifier_share_" ++ str_n j ++ ": >-") share 6)%string) as (l3 & E3).
    { intros j x _. apply print_entry_ok. lia. }
    rewrite E3. cbn [bind]. destruct message as [message|]; [|eexists; reflexivity].
    destruct (print_entry_ok "    verifier_message: >-"%string message 6 ltac:(lia)) as (l4 & E4). rewrite E4. eexists. reflexivity.
  - rewrite E. left. split; [eexists; reflexivity|]. destruct (Nat.le_gt_cases (length (rv_verifier_messages report)) (length (rv_verifier_shares report))) as [H|H]; [exact H|].
    exfalso. apply (zip_longest_none (rv_verifier_shares report)) in H as (y & Hy). exact (N _ Hy eq_refl).
  - rewrite E. right. split; [reflexivity|]. destruct N as ([o y] & Hy & N). cbn [fst] in N. subst o.
    pose proof (proj1 (zip_longest_none (rv_verifier_shares report) (rv_verifier_messages report)) (ex_intro _ y Hy)). lia.
Qed.
Lemma pretty_print_cases name params type_params (tv : test_vec M R) : (forall k, In k type_params -> exists x, dict_get params k = Ok x) ->
  match pretty_print_vdaf_test_vec str_meas str_result name params type_params tv with
  | Ok _ => Forall rounds_ok (tv_reports tv)
  | Raise e => e = TypeError /\ exists report, In report (tv_reports tv) /\ ~ rounds_ok report
  end.
Proof.
  intros HT. unfold pretty_print_vdaf_test_vec.
  destruct (mapM_cases (fun key => let* x := dict_get params key in Ok (key ++ ": " ++ str_int x)%string) TypeError (fun _ => False) type_params) as [[(l & E) _]|[_ (x & _ & [])]].
  { intros k Hk. left. split; [|easy]. destruct (HT k Hk) as (x & E). rewrite E. eexists. reflexivity. }
  rewrite E. cbn [bind].
  destruct (print_each_cases (tv_reports tv) (print_report str_meas) TypeError (fun r => ~ rounds_ok r)) as [[(l2 & E2) N]|[E2 N]].
  { intros i r _. destruct (print_report_cases i r) as [[X Y]|X]; [left|right; exact X]. split; [exact X|]. now intros Z. }
  - rewrite E2. cbn [bind].
    destruct (print_each_ok (tv_agg_shares tv) (fun j share => print_entry ("agg_share_" ++ str_n j ++ ": >-") share 2)%string) as (l3 & E3).
    { intros j x _. apply print_entry_ok. lia. }
    rewrite E3. cbn [bind]. apply Forall_forall. intros r Hr. specialize (N r Hr). unfold rounds_ok in *. lia.
  - rewrite E2. cbn [bind]. split; [reflexivity|exact N].
Qed.
End R.

(** Loops that keep an invariant. *)
Lemma loop_inv {A B} (I : B -> Prop) (f : B -> A -> res B) l acc r :
  I acc -> (forall b a b', I b -> f b a = Ok b' -> I b') -> foldM f l acc = Ok r -> I r.
Proof.
  intros H0 Hs. revert acc H0. induction l as [|a l IH]; intros acc H0 E; cbn [foldM] in E.
  - apply Ok_inj in E. now subst r.
  - apply bind_Ok in E as (b & Eb & E). exact (IH b (Hs _ _ _ H0 Eb) E).
Qed.
Lemma gen_report_rounds (vdaf : Vdaf) key ctx ap idx nonce m r : gen_report vdaf key ctx ap idx nonce m = Ok r ->
  rounds_ok (snd (fst r)).
Proof.
  unfold gen_report. intros E.
  apply bind_Ok in E as (? & _ & E). apply bind_Ok in E as ([ps iss] & _ & E). apply bind_Ok in E as (psh & _ & E).
  apply bind_Ok in E as (ish & _ & E). apply bind_Ok in E as ([[sts shs] ops] & _ & E). apply bind_Ok in E as (row & _ & E).
  apply bind_Ok in E as ([[[[sts' shs'] msgs] rows] ops'] & EL & E).
  apply bind_Ok in E as (msg & _ & E). apply bind_Ok in E as (mh & _ & E). apply bind_Ok in E as ([[outs oh] ops2] & _ & E).
  apply Ok_inj in E. subst r. cbn [fst snd]. unfold rounds_ok. cbn [rv_verifier_messages rv_verifier_shares].
  unfold for_range in EL.
  assert (H : length rows = S (length msgs)).
  { apply (loop_inv (fun x => length (snd (fst x)) = S (length (snd (fst (fst x))))) _ _ _ _) in EL; [exact EL|reflexivity|].
    intros [[[[s0 h0] m0] r0] o0] a b' HI EB. cbn [fst snd] in HI.
    apply bind_Ok in EB as (m1 & _ & EB). apply bind_Ok in EB as (m2 & _ & EB). apply bind_Ok in EB as ([[[s1 h1] r1] o1] & _ & EB).
    apply Ok_inj in EB. subst b'. cbn [fst snd]. rewrite !app_length. cbn [length]. lia. }
  rewrite app_length. cbn [length]. lia.
Qed.
Lemma generated_rounds (vdaf : Vdaf) ap ctx ms tv : gen_test_vec_for_vdaf vdaf ap ctx ms = Ok tv -> Forall rounds_ok (tv_reports tv).
Proof.
  unfold gen_test_vec_for_vdaf. intros E. apply bind_Ok in E as (aph & _ & E). apply bind_Ok in E as ([[ops reports] outs] & EL & E).
  apply bind_Ok in E as ([[aggs aggh] ops2] & _ & E). apply bind_Ok in E as (r & _ & E). apply Ok_inj in E. subst tv. cbn [tv_reports].
  apply (loop_inv (fun x => Forall rounds_ok (snd (fst x))) _ _ _ _) in EL; [exact EL|apply Forall_nil|].
  intros [[o0 r0] u0] [idx [nonce m]] b' HI EB. cbn [fst snd] in HI. apply bind_Ok in EB as ([[o1 r1] u1] & ER & EB).
  apply Ok_inj in EB. subst b'. cbn [fst snd]. apply Forall_app. split; [exact HI|]. apply Forall_cons; [|apply Forall_nil].
  exact (gen_report_rounds _ _ _ _ _ _ _ _ ER).
Qed.
