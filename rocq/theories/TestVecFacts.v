(** Facts about the generation and the check of test vectors. *)
From Coq Require Import Strings.String Strings.Ascii.
From Verif Require Export TestVecSpec BaseFacts RunFacts.
Open Scope nat_scope.

Ltac binv H := let x := fresh "x" in let E := fresh "E" in apply bind_Ok in H; destruct H as (x & E & H).

Lemma hex_char_value n : (0 <= n < 16)%Z -> hex_value (hex_char n) = Some n /\ hex_space (hex_char n) = false.
Proof.
  intros H.
  assert (C : (n = 0 \/ n = 1 \/ n = 2 \/ n = 3 \/ n = 4 \/ n = 5 \/ n = 6 \/ n = 7 \/ n = 8 \/ n = 9 \/ n = 10 \/ n = 11 \/ n = 12 \/ n = 13 \/ n = 14 \/ n = 15)%Z) by lia.
  repeat (destruct C as [C|C]; [rewrite C; split; vm_compute; reflexivity|]). rewrite C; split; vm_compute; reflexivity.
Qed.
Lemma fromhex_to_hex b : fromhex (to_hex b) = Ok b.
Proof.
  induction b as [|x b IH]; [reflexivity|].
  pose proof (b2z_range x) as R.
  destruct (hex_char_value (b2z x / 16)) as [V1 S1]; [split; [apply Z.div_pos; lia|apply Z.div_lt_upper_bound; lia]|].
  destruct (hex_char_value (b2z x mod 16)) as [V2 _]; [apply Z.mod_pos_bound; lia|].
  cbn [to_hex fromhex]. rewrite S1, V1, V2, IH. cbn [bind].
  now rewrite <- Z.div_mod, z2b_b2z by lia.
Qed.
Lemma mapM_fromhex l : mapM fromhex (map to_hex l) = Ok l.
Proof. induction l as [|x l IH]; [reflexivity|]. cbn [map mapM]. rewrite fromhex_to_hex. cbn [bind]. now rewrite IH. Qed.

Lemma assert_equal_Ok x y u : assert_equal x y = Ok u <-> x = y.
Proof. unfold assert_equal. rewrite check_Ok. apply bytes_eqb_eq. Qed.
Lemma assert_equal_refl x : assert_equal x x = Ok tt.
Proof. unfold assert_equal. now rewrite bytes_eqb_refl. Qed.

(** The loop of assertions of check_shard_success. *)
Lemma assert_loop {A} (enc : A -> res bytes) : forall l es u, length l = length es ->
  foldM (fun _ '(x, e) => let* b := enc x in assert_equal b e) (combine l es) u = Ok tt <-> mapM enc l = Ok es.
Proof.
  induction l as [|x l IH]; intros [|e es] [] L; try discriminate; [split; reflexivity|].
  cbn [combine foldM mapM]. injection L as L. split; intros H.
  - binv H. binv E. apply assert_equal_Ok in E. subst x1. rewrite E0. cbn [bind].
    destruct x0. apply IH in H; [|exact L]. now rewrite H.
  - binv H. binv H. injection H as -> ->. rewrite E. cbn [bind]. rewrite assert_equal_refl. cbn [bind]. now apply IH.
Qed.

Lemma nth_error_upd {A} (l : list A) i j v : nth_error (upd l i v) j = if i =? j then (if i <? length l then Some v else None) else nth_error l j.
Proof.
  revert i j. induction l as [|x l IH]; intros i j.
  - cbn [upd length]. destruct (Nat.ltb_spec i 0); [lia|]. destruct j; now destruct (i =? _).
  - destruct i as [|i], j as [|j]; try reflexivity. cbn [upd nth_error]. rewrite IH. reflexivity.
Qed.

Section TF.
Context (vdaf : Vdaf).
Notation State := (vd_VerifyState vdaf).
Notation VShare := (vd_VerifierShare vdaf).
Notation Out := (vd_OutShare vdaf).
Notation Report := (vd_Measurement vdaf * bytes * bytes)%type.
Notation N := (vd_SHARES vdaf).
Notation states := (states vdaf).
Notation states_get := (states_get vdaf).
Notation states_set := (states_set vdaf).

Definition shape (n : nat) (vs : states) : Prop := length vs = n /\ forall r x, nth_error vs r = Some x -> length x = N.

Lemma states_set_ok n vs r j k st : shape n vs -> r < n -> j < N -> exists vs', states_set vs r j k st = Ok vs'.
Proof.
  intros (L & W) Hr Hj. unfold TestVectors.states_set.
  destruct (nth_error vs r) as [x|] eqn:E; [|apply nth_error_None in E; lia].
  unfold get at 1. rewrite E. cbn [bind]. pose proof (W _ _ E) as LX.
  destruct (nth_error x j) as [d|] eqn:E'; [|apply nth_error_None in E'; lia].
  unfold get. rewrite E'. cbn [bind]. rewrite set_lt by lia. cbn [bind]. rewrite set_lt by lia. eauto.
Qed.
Lemma states_set_spec n vs r j k st vs' : shape n vs -> states_set vs r j k st = Ok vs' ->
  shape n vs' /\ states_get vs' r j k = Ok st /\
  forall j' k', j' <> j \/ k' <> k -> states_get vs' r j' k' = states_get vs r j' k'.
Proof.
  intros (L & W) H. unfold TestVectors.states_set in H. binv H. binv H. binv H.
  apply set_Ok in E1 as (L1 & ->). apply set_Ok in H as (L2 & ->).
  apply get_Ok in E. apply get_Ok in E0. split; [|split].
  - split; [now rewrite length_upd|]. intros r' y. rewrite nth_error_upd. destruct (Nat.eqb_spec r r') as [<-|]; [|apply W].
    destruct (Nat.ltb_spec r (length vs)); [|discriminate]. intros [= <-]. rewrite length_upd. apply (W _ _ E).
  - unfold TestVectors.states_get, get. rewrite nth_error_upd, Nat.eqb_refl. destruct (Nat.ltb_spec r (length vs)); [|lia].
    cbn [bind]. rewrite nth_error_upd, Nat.eqb_refl. destruct (Nat.ltb_spec j (length x)); [|lia].
    cbn [bind find fst snd]. now rewrite Nat.eqb_refl.
  - intros j' k' NE. unfold TestVectors.states_get, get. rewrite nth_error_upd, Nat.eqb_refl. destruct (Nat.ltb_spec r (length vs)); [|lia].
    cbn [bind]. rewrite E. cbn [bind]. rewrite nth_error_upd. destruct (Nat.eqb_spec j j') as [<-|]; [|reflexivity].
    destruct (Nat.ltb_spec j (length x)); [|lia]. cbn [bind find fst snd]. rewrite E0. cbn [bind].
    destruct (Nat.eqb_spec k k') as [<-|]; [|reflexivity]. destruct NE; congruence.
Qed.

(** A loop of operations over the Aggregators that store a state each. *)
Lemma write_loop {X} (proj : X -> State) (C : states -> operation -> res states) (ops : nat -> operation) (n r k : nat)
  (Pre : states -> Prop) (Q : nat -> X -> Prop) : r < n ->
  (forall vs vs' j st, Pre vs -> shape n vs -> states_set vs r j k st = Ok vs' -> Pre vs') ->
  (forall vs vs' j, Pre vs -> shape n vs -> j < N -> C vs (ops j) = Ok vs' <-> exists x, Q j x /\ states_set vs r j k (proj x) = Ok vs') ->
  forall m j vs, j + m <= N -> shape n vs -> Pre vs ->
  (forall vs', foldM C (map ops (seq j m)) vs = Ok vs' ->
     shape n vs' /\ Pre vs' /\ (forall j' k', j' < j \/ k' <> k -> states_get vs' r j' k' = states_get vs r j' k') /\
     exists xs, length xs = m /\ forall i x, nth_error xs i = Some x -> Q (j + i) x /\ states_get vs' r (j + i) k = Ok (proj x)) /\
  (forall xs, length xs = m -> (forall i x, nth_error xs i = Some x -> Q (j + i) x) ->
     exists vs', foldM C (map ops (seq j m)) vs = Ok vs').
Proof.
  intros Hr HP HC. induction m as [|m IH]; intros j vs Hj SH PR.
  - split.
    + intros vs' [= <-]. repeat (split; [assumption || reflexivity|]). exists []. split; [reflexivity|]. intros [|i] x; discriminate.
    + intros [|x xs] L _; [|discriminate]. exists vs. reflexivity.
  - cbn [seq map foldM]. split.
    + intros vs' H. binv H. apply HC in E as (y & Qy & E); [|assumption..|lia].
      destruct (states_set_spec n _ _ _ _ _ _ SH E) as (SH' & G & O).
      assert (PR' := HP _ _ _ _ PR SH E).
      destruct (IH (S j) x ltac:(lia) SH' PR') as [F _]. destruct (F _ H) as (SH'' & PR'' & O' & xs & L & W).
      repeat (split; [assumption|]). split.
      * intros j' k' D. rewrite O' by lia. apply O. lia.
      * exists (y :: xs). split; [cbn; lia|]. intros [|i] z Z.
        -- injection Z as <-. rewrite Nat.add_0_r. split; [exact Qy|]. rewrite O' by lia. exact G.
        -- cbn [nth_error] in Z. replace (j + S i) with (S j + i) by lia. now apply W.
    + intros [|y xs] L W; [discriminate|]. injection L as L.
      destruct (states_set_ok n vs r j k (proj y) SH Hr ltac:(lia)) as (vs1 & E).
      assert (E1 : C vs (ops j) = Ok vs1). { apply HC; [assumption..|lia|]. exists y. split; [|exact E]. specialize (W 0 y eq_refl). now rewrite Nat.add_0_r in W. }
      rewrite E1. cbn [bind]. destruct (states_set_spec n _ _ _ _ _ _ SH E) as (SH' & _ & _).
      destruct (IH (S j) vs1 ltac:(lia) SH' (HP _ _ _ _ PR SH E)) as [_ B].
      apply (B xs L). intros i z Z. replace (S j + i) with (j + S i) by lia. now apply W.
Qed.

(** A loop of operations that store nothing. *)
Lemma read_loop (C : states -> operation -> res states) (ops : nat -> operation) (Q : nat -> Prop) vs : forall m j,
  (forall i vs', j <= i < j + m -> C vs (ops i) = Ok vs' <-> vs' = vs /\ Q i) -> forall vs',
  foldM C (map ops (seq j m)) vs = Ok vs' <-> vs' = vs /\ forall i, j <= i < j + m -> Q i.
Proof.
  induction m as [|m IH]; intros j HC vs'.
  - cbn. split; [intros [= <-]; split; [reflexivity|lia]|now intros [-> _]].
  - cbn [seq map foldM]. rewrite bind_Ok. split.
    + intros (x & E & H). apply HC in E as [-> Q0]; [|lia]. apply IH in H as [-> QR]; [|intros; apply HC; lia].
      split; [reflexivity|]. intros i Hi. destruct (Nat.eq_dec i j) as [->|]; [exact Q0|apply QR; lia].
    + intros [-> QA]. exists vs. split; [apply HC; [lia|split; [reflexivity|apply QA; lia]]|].
      apply IH; [intros; apply HC; lia|]. split; [reflexivity|]. intros i Hi. apply QA. lia.
Qed.

Context (ctx key : bytes) (ap : vd_AggParam vdaf) (I : State -> VShare -> Prop) (reports : list Report).
Context (CO : CodecOk vdaf ctx key ap I reports) (HN : 1 <= N) (HR : 1 <= vd_ROUNDS vdaf).
Context (result_eqb : vd_AggResult vdaf -> vd_AggResult vdaf -> bool).
Context (tv : test_vec (vd_Measurement vdaf) (vd_AggResult vdaf)) (VI : vector_inputs vdaf ctx key ap reports tv).
Notation C := (check_operation vdaf result_eqb tv).
Notation n := (length (tv_reports tv)).
Notation R := (vd_ROUNDS vdaf).

Lemma fk : fromhex (tv_verify_key tv) = Ok key. Proof. apply VI. Qed.
Lemma fc : fromhex (tv_ctx tv) = Ok ctx. Proof. apply VI. Qed.

Section Report.
Context (r : nat) (rv : report_vec (vd_Measurement vdaf)) (HRV : nth_error (tv_reports tv) r = Some rv).
Context (m : vd_Measurement vdaf) (nonce rand : bytes) (RI : report_inputs vdaf (m, nonce, rand) rv) (IN : In (m, nonce, rand) reports).

Lemma fm : rv_measurement rv = m. Proof. apply RI. Qed.
Lemma fn : fromhex (rv_nonce rv) = Ok nonce. Proof. apply RI. Qed.
Lemma fr : fromhex (rv_rand rv) = Ok rand. Proof. apply RI. Qed.

Lemma rv_get {A} (k : report_vec (vd_Measurement vdaf) -> res A) : (let* report := get (tv_reports tv) r in k report) = k rv.
Proof. unfold get. now rewrite HRV. Qed.
Lemma r_lt : r < n.
Proof. apply nth_error_Some. now rewrite HRV. Qed.

Lemma shard_op vs vs' : C vs (op_shard r) = Ok vs' <-> vs' = vs /\
  exists ps iss public inputs, vd_shard vdaf ctx m nonce rand = Ok (ps, iss) /\
    vd_encode_public_share vdaf ps = Ok public /\ fromhex (rv_public_share rv) = Ok public /\
    mapM (vd_encode_input_share vdaf) iss = Ok inputs /\ mapM fromhex (rv_input_shares rv) = Ok inputs.
Proof.
  unfold check_operation, op_shard. cbn [op_operation op_report_index op_success String.eqb Ascii.eqb Bool.eqb field_of].
  cbn [bind]. rewrite rv_get, fc, fn, fr, fm. cbn [bind]. unfold check_shard_success. split.
  - intros H. binv H. binv H. binv H. injection H as <-. split; [reflexivity|].
    binv E1. destruct x2 as (ps, iss). binv E1. binv E1. apply assert_equal_Ok in E4. subst x2. binv E1. apply check_Ok, Nat.eqb_eq in E4.
    destruct x1. apply assert_loop in E1; [|exact E4]. exists ps, iss, x, x0. auto.
  - intros (-> & ps & iss & public & inputs & ES & EP & FP & EI & FI). rewrite FP, FI, ES. cbn [bind]. rewrite EP. cbn [bind].
    rewrite assert_equal_refl. cbn [bind]. pose proof (mapM_Ok_length _ _ _ EI) as L. rewrite <- L, Nat.eqb_refl. cbn [bind check].
    rewrite (proj2 (assert_loop (vd_encode_input_share vdaf) iss inputs tt (eq_sym L)) EI). reflexivity.
Qed.

Context (ps : vd_PublicShare vdaf) (iss : list (vd_InputShare vdaf)) (public : bytes) (inputs : list bytes).
Context (ES : vd_shard vdaf ctx m nonce rand = Ok (ps, iss)) (EP : vd_encode_public_share vdaf ps = Ok public)
  (FP : fromhex (rv_public_share rv) = Ok public)
  (EI : mapM (vd_encode_input_share vdaf) iss = Ok inputs) (FI : mapM fromhex (rv_input_shares rv) = Ok inputs).

Lemma dp : vd_decode_public_share vdaf public = Ok ps.
Proof. destruct (co_public _ _ _ _ _ _ CO m nonce rand ps iss IN ES) as (b & E & D). congruence. Qed.

(** Item [j] of row [i] of the verifier shares encodes [sh]. *)
Definition row_item (i j : nat) (sh : VShare) : Prop :=
  exists row s b, nth_error (rv_verifier_shares rv) i = Some row /\ nth_error row j = Some s /\ fromhex s = Ok b /\
    vd_encode_verifier_share vdaf sh = Ok b.
Definition init_item (j : nat) (x : State * VShare) : Prop :=
  (let* is := get iss j in vd_verify_init vdaf key ctx j ap nonce ps is) = Ok x /\ row_item 0 j (snd x).

Lemma init_op vs vs' j : C vs (op_verify_init r j) = Ok vs' <-> exists x, init_item j x /\ states_set vs r j 0 (fst x) = Ok vs'.
Proof.
  unfold check_operation, op_verify_init. cbn [op_operation op_report_index op_aggregator_id op_success String.eqb Ascii.eqb Bool.eqb field_of].
  cbn [bind]. rewrite rv_get. cbn [bind]. rewrite fk, fc, fn, FP. cbn [bind].
  destruct VI as (_ & _ & (apb & FA & DA) & _). rewrite FA. cbn [bind]. unfold check_verify_init_success.
  assert (IS : forall s b, nth_error (rv_input_shares rv) j = Some s -> fromhex s = Ok b ->
    exists is, nth_error iss j = Some is /\ vd_decode_input_share vdaf j b = Ok is).
  { intros s b Es Eb. assert (LI := mapM_Ok_length _ _ _ FI). assert (LE := mapM_Ok_length _ _ _ EI).
    destruct (nth_error inputs j) as [b'|] eqn:Ej.
    2: { apply nth_error_None in Ej. assert (nth_error (rv_input_shares rv) j = None) by (apply nth_error_None; lia). congruence. }
    assert (b' = b). { destruct (mapM_nth_Ok fromhex (rv_input_shares rv) inputs) as [H _]. destruct (H FI) as [_ H']. rewrite (H' _ _ _ Es Ej) in Eb. congruence. }
    subst b'. destruct (nth_error iss j) as [is|] eqn:Ei.
    2: { apply nth_error_None in Ei. assert (nth_error inputs j = None) by (apply nth_error_None; lia). congruence. }
    exists is. split; [reflexivity|]. destruct (co_input _ _ _ _ _ _ CO m nonce rand ps iss j is IN ES Ei) as (b' & E1 & D1).
    destruct (mapM_nth_Ok (vd_encode_input_share vdaf) iss inputs) as [H _]. destruct (H EI) as [_ H']. rewrite (H' _ _ _ Ei Ej) in E1. congruence. }
  split.
  - intros H. binv H. binv H. binv H. binv H. binv H. binv H. apply get_Ok in E, E1, E2.
    destruct (IS _ _ E E0) as (is & Ei & Di). rewrite DA, dp, Di in E4. cbn [bind] in E4.
    binv E4. destruct x5 as (st, sh). binv E4. binv E4. apply assert_equal_Ok in E7. subst x5. injection E4 as ->.
    exists (x4, sh). split; [|exact H]. split.
    + unfold get. rewrite Ei. exact E5.
    + exists x1, x2, x3. auto.
  - intros ((st, sh) & (EV & row & s & b & Er & Es & Eb & Ee) & SS). cbn [fst snd] in *.
    binv EV. apply get_Ok in E.
    assert (LI := mapM_Ok_length _ _ _ FI). assert (LE := mapM_Ok_length _ _ _ EI).
    destruct (nth_error (rv_input_shares rv) j) as [si|] eqn:Esi.
    2: { apply nth_error_None in Esi. assert (nth_error iss j = None) by (apply nth_error_None; lia). congruence. }
    destruct (nth_error inputs j) as [bi|] eqn:Ebi.
    2: { apply nth_error_None in Ebi. assert (nth_error iss j = None) by (apply nth_error_None; lia). congruence. }
    destruct (mapM_nth_Ok fromhex (rv_input_shares rv) inputs) as [HH _]. destruct (HH FI) as [_ H']. pose proof (H' _ _ _ Esi Ebi) as Fbi.
    destruct (IS _ _ eq_refl Fbi) as (is & Ei & Di). assert (is = x) by congruence. subst is.
    unfold get. rewrite Esi. cbn [bind]. rewrite Fbi. cbn [bind]. rewrite Er. cbn [bind]. rewrite Es. cbn [bind]. rewrite Eb. cbn [bind].
    rewrite DA, dp, Di. cbn [bind]. rewrite EV. cbn [bind]. rewrite Ee. cbn [bind]. rewrite assert_equal_refl. cbn [bind]. exact SS.
Qed.

(** The states of all Aggregators in round [i]. *)
Definition at_round (i : nat) (sts : list State) (vs : states) : Prop :=
  forall j st, nth_error sts j = Some st -> states_get vs r j i = Ok st.
Lemma at_round_get i sts vs : length sts = N -> at_round i sts vs -> mapM (fun j => states_get vs r j i) (range 0 N) = Ok sts.
Proof. intros L A. apply mapM_range_Ok. auto. Qed.

Definition message_item (i : nat) (msg : vd_VerifierMessage vdaf) (b : bytes) : Prop :=
  vd_encode_verifier_message vdaf msg = Ok b /\ exists s, nth_error (rv_verifier_messages rv) i = Some s /\ fromhex s = Ok b.

(** The row [i] can be decoded and begins with the encodings of [shs]. *)
Definition row_begins (i : nat) (shs : list VShare) : Prop := exists l row extra, nth_error (rv_verifier_shares rv) i = Some l /\
  mapM fromhex l = Ok (row ++ extra) /\ mapM (vd_encode_verifier_share vdaf) shs = Ok row.

Lemma row_begins_item i shs j sh : row_begins i shs -> nth_error shs j = Some sh -> row_item i j sh.
Proof.
  intros (l & row & extra & El & Fl & Es) Ej. assert (LE := mapM_Ok_length _ _ _ Es). assert (LL := mapM_Ok_length _ _ _ Fl). rewrite app_length in LL.
  assert (j < length shs) by (apply nth_error_Some; congruence).
  destruct (nth_error row j) as [b|] eqn:Eb; [|apply nth_error_None in Eb; lia].
  destruct (nth_error l j) as [s|] eqn:Esj; [|apply nth_error_None in Esj; lia].
  exists l, s, b. split; [exact El|]. split; [exact Esj|]. split.
  - destruct (mapM_nth_Ok fromhex l (row ++ extra)) as [H1 _]. destruct (H1 Fl) as [_ H2]. apply (H2 j); [exact Esj|]. rewrite nth_error_app1 by lia. exact Eb.
  - destruct (mapM_nth_Ok (vd_encode_verifier_share vdaf) shs row) as [H1 _]. destruct (H1 Es) as [_ H2]. now apply (H2 j).
Qed.
Lemma items_row_begins i shs l bs : (forall j sh, nth_error shs j = Some sh -> row_item i j sh) ->
  nth_error (rv_verifier_shares rv) i = Some l -> mapM fromhex l = Ok bs -> row_begins i shs.
Proof.
  intros IT El Fl. exists l, (firstn (length shs) bs), (skipn (length shs) bs). split; [exact El|]. rewrite firstn_skipn. split; [exact Fl|].
  assert (LL := mapM_Ok_length _ _ _ Fl). apply mapM_nth_Ok.
  assert (LS : length shs <= length bs).
  { destruct (Nat.le_gt_cases (length shs) (length bs)); [assumption|]. exfalso.
    destruct (nth_error shs (length bs)) as [sh|] eqn:E; [|apply nth_error_None in E; lia].
    destruct (IT _ _ E) as (l' & s & b & E1 & E2 & _). assert (l' = l) by congruence. subst l'.
    assert (nth_error l (length bs) = None) by (apply nth_error_None; lia). congruence. }
  split; [rewrite firstn_length; lia|]. intros j sh b Ej Eb.
  destruct (IT _ _ Ej) as (l' & s & b' & E1 & E2 & E3 & E4). assert (l' = l) by congruence. subst l'.
  assert (Eb' : nth_error bs j = Some b).
  { rewrite <- (firstn_skipn (length shs) bs). rewrite nth_error_app1; [exact Eb|]. apply nth_error_Some. congruence. }
  destruct (mapM_nth_Ok fromhex l bs) as [H1 _]. destruct (H1 Fl) as [_ H2]. rewrite (H2 _ _ _ E2 Eb') in E3. congruence.
Qed.

(** Decoding a row gives the verifier shares back. *)
Lemma row_decode sts shs row extra : Forall2 I sts shs -> mapM (vd_encode_verifier_share vdaf) shs = Ok row ->
  mapM (fun '(st, b) => vd_decode_verifier_share vdaf st b) (combine sts (row ++ extra)) = Ok shs.
Proof.
  intros F. revert row. induction F as [|st sh sts shs H _ IH]; intros row E.
  - injection E as <-. destruct extra; reflexivity.
  - cbn [mapM] in E. binv E. binv E. injection E as <-. cbn [app combine mapM].
    destruct (co_share _ _ _ _ _ _ CO st sh H) as (b & Eb & Db). assert (b = x) by congruence. subst b. rewrite Db. cbn [bind].
    rewrite (IH _ E1). reflexivity.
Qed.

Lemma message_op i vs vs' sts shs : at_round i sts vs -> length sts = N -> Forall2 I sts shs ->
  (forall j sh, nth_error shs j = Some sh -> row_item i j sh) ->
  C vs (op_to_message r i) = Ok vs' <-> vs' = vs /\ row_begins i shs /\
    exists msg b, vd_verifier_shares_to_message vdaf ctx ap shs = Ok msg /\ message_item i msg b.
Proof.
  intros AT LS FI2 IT.
  unfold check_operation, op_to_message. cbn [op_operation op_report_index op_round op_success String.eqb Ascii.eqb Bool.eqb field_of].
  cbn [bind]. rewrite rv_get. cbn [bind]. rewrite fc. cbn [bind].
  destruct VI as (_ & _ & (apb & FA & DA) & _). rewrite FA. cbn [bind]. rewrite (at_round_get _ _ _ LS AT). cbn [bind].
  unfold check_verifier_shares_to_message_success. rewrite DA. cbn [bind]. split.
  - intros H. binv H. binv H. binv H. binv H. binv H. injection H as <-. split; [reflexivity|].
    apply get_Ok in E, E1. assert (RB := items_row_begins i shs x x0 IT E E0). split; [exact RB|].
    destruct RB as (l & row & extra & El & Fl & Es). assert (l = x) by congruence. subst l. assert (x0 = row ++ extra) by congruence. subst x0.
    rewrite (row_decode _ _ _ _ FI2 Es) in E3. cbn [bind] in E3. binv E3. binv E3. apply assert_equal_Ok in E3. subst x4.
    exists x0, x2. split; [exact E4|]. split; [exact E5|]. exists x1. auto.
  - intros (-> & (l & row & extra & El & Fl & Es) & msg & b & EM & EE & s & Em & Fm).
    unfold get. rewrite El. cbn [bind]. rewrite Fl. cbn [bind]. rewrite Em. cbn [bind]. rewrite Fm. cbn [bind].
    rewrite (row_decode _ _ _ _ FI2 Es). cbn [bind]. rewrite EM. cbn [bind]. rewrite EE. cbn [bind]. now rewrite assert_equal_refl.
Qed.

Definition next_item (i : nat) (msg : vd_VerifierMessage vdaf) (sts : list State) (j : nat) (x : State * VShare) : Prop :=
  (let* st := get sts j in let* r := vd_verify_next vdaf ctx st msg in match r with inl x => Ok x | inr _ => Raise AssertionError end) = Ok x /\
  row_item (S i) j (snd x).
Lemma next_op i vs vs' sts shs msg b j : S i < R -> at_round i sts vs -> length sts = N -> Forall2 I sts shs ->
  vd_verifier_shares_to_message vdaf ctx ap shs = Ok msg -> message_item i msg b -> j < N ->
  C vs (op_verify_next r (S i) j) = Ok vs' <-> exists x, next_item i msg sts j x /\ states_set vs r j (S i) (fst x) = Ok vs'.
Proof.
  intros Hi AT LS FI2 EM (EE & s & Em & Fm) Hj.
  unfold check_operation, op_verify_next. cbn [op_operation op_report_index op_aggregator_id op_round op_success String.eqb Ascii.eqb Bool.eqb field_of].
  cbn [bind]. rewrite rv_get. cbn [bind]. rewrite fc. cbn [bind]. replace (0 <? S i) with true by reflexivity. cbn [check bind].
  rewrite Nat.sub_succ, Nat.sub_0_r.
  destruct (nth_error sts j) as [st|] eqn:Ej; [|apply nth_error_None in Ej; lia]. rewrite (AT _ _ Ej). cbn [bind].
  unfold get at 1. rewrite Em. cbn [bind]. rewrite Fm. cbn [bind]. rewrite (proj2 (Nat.ltb_lt _ _) Hi).
  destruct (co_message _ _ _ _ _ _ CO sts shs msg st FI2 EM (nth_error_In _ _ Ej)) as (b' & Eb' & Db). assert (b' = b) by congruence. subst b'.
  unfold check_verify_next_success. rewrite Db. cbn [bind]. rewrite (proj2 (Nat.ltb_lt _ _) Hi). unfold next_item. unfold get at 3. rewrite Ej. cbn [bind]. split.
  - intros H. binv H. binv H. binv H. binv H. apply get_Ok in E, E0. binv E2. rewrite E3. cbn [bind]. destruct x3 as [(st', sh')|o]; [|discriminate].
    binv E2. binv E2. apply assert_equal_Ok in E5. subst x3. injection E2 as <-. exists (st', sh'). cbn [fst snd]. split; [|exact H]. split; [reflexivity|].
    exists x, x0, x1. auto.
  - intros ((st', sh') & (EV & row & sr & br & Er & Es & Fb & Ee) & SS). cbn [fst snd] in *.
    binv EV. destruct x as [x|o]; [|discriminate]. injection EV as ->.
    unfold get. rewrite Er. cbn [bind]. rewrite Es. cbn [bind]. rewrite Fb. cbn [bind]. rewrite E. cbn [bind]. rewrite Ee. cbn [bind].
    rewrite assert_equal_refl. cbn [bind]. exact SS.
Qed.

Definition last_item (msg : vd_VerifierMessage vdaf) (sts : list State) (j : nat) : Prop :=
  exists o s b, (let* st := get sts j in let* r := vd_verify_next vdaf ctx st msg in match r with inr o => Ok o | inl _ => Raise AssertionError end) = Ok o /\
    nth_error (rv_out_shares rv) j = Some s /\ fromhex s = Ok b /\ vd_encode_out_share vdaf o = Ok b.
Lemma last_op i vs vs' sts shs msg b j : S i = R -> at_round i sts vs -> length sts = N -> Forall2 I sts shs ->
  vd_verifier_shares_to_message vdaf ctx ap shs = Ok msg -> message_item i msg b -> j < N ->
  C vs (op_verify_next r (S i) j) = Ok vs' <-> vs' = vs /\ last_item msg sts j.
Proof.
  intros Hi AT LS FI2 EM (EE & s & Em & Fm) Hj.
  unfold check_operation, op_verify_next. cbn [op_operation op_report_index op_aggregator_id op_round op_success String.eqb Ascii.eqb Bool.eqb field_of].
  cbn [bind]. rewrite rv_get. cbn [bind]. rewrite fc. cbn [bind]. replace (0 <? S i) with true by reflexivity. cbn [check bind].
  rewrite Nat.sub_succ, Nat.sub_0_r.
  destruct (nth_error sts j) as [st|] eqn:Ej; [|apply nth_error_None in Ej; lia]. rewrite (AT _ _ Ej). cbn [bind].
  unfold get at 1. rewrite Em. cbn [bind]. rewrite Fm. cbn [bind].
  assert (LT : (S i <? R) = false) by (apply Nat.ltb_ge; lia). rewrite LT.
  destruct (co_message _ _ _ _ _ _ CO sts shs msg st FI2 EM (nth_error_In _ _ Ej)) as (b' & Eb' & Db). assert (b' = b) by congruence. subst b'.
  unfold check_verify_next_success. rewrite Db. cbn [bind]. rewrite LT. unfold last_item. unfold get at 2. rewrite Ej. cbn [bind]. split.
  - intros H. binv H. binv H. binv H. injection H as <-. split; [reflexivity|]. apply get_Ok in E. binv E1. rewrite E2. cbn [bind].
    destruct x2 as [(st', sh')|o]; [discriminate|]. binv E1. binv E1. apply assert_equal_Ok in E4. subst x2. exists o, x, x0. auto.
  - intros (-> & o & so & bo & EV & Es & Fb & Ee). binv EV. destruct x as [x|o']; [discriminate|]. injection EV as ->.
    unfold get. rewrite Es. cbn [bind]. rewrite Fb. cbn [bind]. rewrite E. cbn [bind]. rewrite Ee. cbn [bind]. now rewrite assert_equal_refl.
Qed.

(** ** All rounds of one report *)
Lemma round_messages_eq k sts shs : round_messages vdaf ctx ap k sts shs =
  let* row := mapM (vd_encode_verifier_share vdaf) shs in
  let* msg := vd_verifier_shares_to_message vdaf ctx ap shs in
  let* b := vd_encode_verifier_message vdaf msg in
  match k with
  | O =>
    let* outs := mapM (last_state vdaf ctx msg) sts in
    let* outs := mapM (vd_encode_out_share vdaf) outs in
    Ok ([row], [b], outs)
  | S k =>
    let* next := mapM (next_state vdaf ctx msg) sts in
    let* (rows, msgs, outs) := round_messages vdaf ctx ap k (map fst next) (map snd next) in
    Ok (row :: rows, b :: msgs, outs)
  end.
Proof. destruct k; reflexivity. Qed.

Definition row_shown (i : nat) (row : list bytes) : Prop := exists l extra, nth_error (rv_verifier_shares rv) i = Some l /\ mapM fromhex l = Ok (row ++ extra).
Definition rows_shown (i : nat) (rows : list (list bytes)) : Prop := forall k row, nth_error rows k = Some row -> row_shown (i + k) row.
Definition msgs_shown (i : nat) (msgs : list bytes) : Prop :=
  forall k b, nth_error msgs k = Some b -> exists s, nth_error (rv_verifier_messages rv) (i + k) = Some s /\ fromhex s = Ok b.
Lemma rows_shown_cons i row rows : rows_shown i (row :: rows) <-> row_shown i row /\ rows_shown (S i) rows.
Proof.
  split.
  - intros H. split; [specialize (H 0 row eq_refl); now rewrite Nat.add_0_r in H|]. intros k r' E. specialize (H (S k) r' E). now rewrite <- Nat.add_succ_comm in H.
  - intros [H1 H2] [|k] r' E; [injection E as <-; now rewrite Nat.add_0_r|]. rewrite <- Nat.add_succ_comm. now apply H2.
Qed.
Lemma msgs_shown_cons i b msgs : msgs_shown i (b :: msgs) <-> (exists s, nth_error (rv_verifier_messages rv) i = Some s /\ fromhex s = Ok b) /\ msgs_shown (S i) msgs.
Proof.
  split.
  - intros H. split; [specialize (H 0 b eq_refl); now rewrite Nat.add_0_r in H|]. intros k r' E. specialize (H (S k) r' E). now rewrite <- Nat.add_succ_comm in H.
  - intros [H1 H2] [|k] r' E; [injection E as <-; now rewrite Nat.add_0_r|]. rewrite <- Nat.add_succ_comm. now apply H2.
Qed.
Lemma row_begins_shown i shs : row_begins i shs <-> exists row, mapM (vd_encode_verifier_share vdaf) shs = Ok row /\ row_shown i row.
Proof. split; [intros (l & row & extra & E & F & H)|intros (row & H & l & extra & E & F)]; [exists row; split; [exact H|]; exists l, extra; auto|exists l, row, extra; auto]. Qed.

Definition round_ops (i : nat) : list operation := op_to_message r i :: map (op_verify_next r (S i)) (range 0 N).

Lemma range0 k : range 0 k = seq 0 k.
Proof. unfold range. now rewrite Nat.sub_0_r. Qed.
Lemma foldM_app {A B} (f : A -> B -> res A) l1 l2 a : foldM f (l1 ++ l2) a = let* a := foldM f l1 a in foldM f l2 a.
Proof. revert a. induction l1 as [|x l1 IH]; intros a; [reflexivity|]. cbn [app foldM]. destruct (f a x) as [y|e]; cbn [bind]; [apply IH|reflexivity]. Qed.

Lemma rounds_ops : forall k i vs sts shs, i + S k = R -> shape n vs -> at_round i sts vs -> length sts = N -> Forall2 I sts shs ->
  (forall j sh, nth_error shs j = Some sh -> row_item i j sh) ->
  (forall vs', foldM C (flat_map round_ops (seq i (S k))) vs = Ok vs' -> shape n vs') /\
  ((exists vs', foldM C (flat_map round_ops (seq i (S k))) vs = Ok vs') <->
   exists rows msgs outs, round_messages vdaf ctx ap k sts shs = Ok (rows, msgs, outs) /\
     rows_shown i rows /\ msgs_shown i msgs /\ shows_at (rv_out_shares rv) outs).
Proof.
  induction k as [|k IH]; intros i vs sts shs Hi SH AT LS F2 IT.
  - assert (Hi' : S i = R) by lia.
    cbn [seq flat_map]. rewrite app_nil_r. unfold round_ops. rewrite range0. cbn [foldM].
    assert (M := fun vs' => message_op i vs vs' sts shs AT LS F2 IT).
    assert (LP : forall msg b vs', vd_verifier_shares_to_message vdaf ctx ap shs = Ok msg -> message_item i msg b ->
      foldM C (map (op_verify_next r (S i)) (seq 0 N)) vs = Ok vs' <-> vs' = vs /\ forall j, 0 <= j < 0 + N -> last_item msg sts j).
    { intros msg b vs' EM MI. apply (read_loop C (op_verify_next r (S i)) (last_item msg sts) vs N 0). intros j w Hj.
      apply (last_op i vs w sts shs msg b j Hi' AT LS F2 EM MI). lia. }
    split.
    + intros vs' H. binv H. apply M in E as (-> & _ & msg & b & EM & MI). apply (LP msg b) in H as [-> _]; assumption.
    + rewrite round_messages_eq. split.
      * intros (vs' & H). binv H. apply M in E as (-> & RB & msg & b & EM & MI). apply (LP msg b) in H as [_ H]; [|assumption..].
        apply row_begins_shown in RB as (row & ER & RS). destruct MI as (EE & MS).
        assert (OUT : exists outs bs, mapM (last_state vdaf ctx msg) sts = Ok outs /\ mapM (vd_encode_out_share vdaf) outs = Ok bs /\ shows_at (rv_out_shares rv) bs).
        { destruct (mapM_total (fun st => let* o := last_state vdaf ctx msg st in Ok o) sts) as (outs & EO).
          { intros st Hin. apply In_nth_error in Hin as (j & Ej). assert (j < N) by (rewrite <- LS; apply nth_error_Some; congruence).
            destruct (H j ltac:(lia)) as (o & s & bo & Eo & _). unfold get in Eo. rewrite Ej in Eo. cbn [bind] in Eo. exists o. unfold last_state. now rewrite Eo. }
          assert (EO' : mapM (last_state vdaf ctx msg) sts = Ok outs).
          { rewrite <- EO. apply mapM_ext. intros. destruct (last_state vdaf ctx msg _); reflexivity. }
          pose proof (proj1 (mapM_nth_Ok _ _ _) EO') as [LO HO].
          assert (IT' : forall j o, nth_error outs j = Some o -> exists s bo, vd_encode_out_share vdaf o = Ok bo /\ nth_error (rv_out_shares rv) j = Some s /\ fromhex s = Ok bo).
          { intros j o Ej. assert (j < N) by (rewrite <- LS, <- LO; apply nth_error_Some; congruence).
            destruct (H j ltac:(lia)) as (o' & s & bo & Eo & Es & Fb & Ee). destruct (nth_error sts j) as [st|] eqn:Est; [|apply nth_error_None in Est; lia].
            unfold get in Eo. rewrite Est in Eo. cbn [bind] in Eo. pose proof (HO _ _ _ Est Ej) as X. unfold last_state in X. assert (o' = o) by congruence. subst o'.
            exists s, bo. auto. }
          destruct (mapM_total (vd_encode_out_share vdaf) outs) as (bs & EB).
          { intros o Hin. apply In_nth_error in Hin as (j & Ej). destruct (IT' _ _ Ej) as (s & bo & X & _). eauto. }
          exists outs, bs. split; [exact EO'|]. split; [exact EB|].
          pose proof (proj1 (mapM_nth_Ok _ _ _) EB) as [LB HB]. intros j bo Ej.
          destruct (nth_error outs j) as [o|] eqn:Eo.
          2: { apply nth_error_None in Eo. assert (j < length bs) by (apply nth_error_Some; congruence). lia. }
          destruct (IT' _ _ Eo) as (s & bo' & X & Y & Z). exists s. split; [exact Y|]. rewrite (HB _ _ _ Eo Ej) in X. congruence. }
        destruct OUT as (outs & bs & EO & EB & SO). exists [row], [b], bs. rewrite ER, EM. cbn [bind]. rewrite EE. cbn [bind]. rewrite EO. cbn [bind]. rewrite EB. cbn [bind].
        split; [reflexivity|]. split; [apply rows_shown_cons; split; [exact RS|intros [|?] ? [=]]|].
        split; [apply msgs_shown_cons; split; [exact MS|intros [|?] ? [=]]|exact SO].
      * intros (rows & msgs & outs & H & RS & MS & SO). binv H. binv H. binv H. binv H. binv H. injection H as <- <- <-.
        apply rows_shown_cons in RS as (RS & _). apply msgs_shown_cons in MS as (MS & _).
        assert (MI : message_item i x0 x1) by (split; assumption).
        exists vs. apply bind_Ok. exists vs. split.
        -- apply M. split; [reflexivity|]. split; [apply row_begins_shown; eauto|eauto].
        -- apply (LP x0 x1); [assumption..|]. split; [reflexivity|]. intros j Hj.
           pose proof (proj1 (mapM_nth_Ok _ _ _) E2) as [LO HO]. pose proof (proj1 (mapM_nth_Ok _ _ _) E3) as [LB HB].
           destruct (nth_error sts j) as [st|] eqn:Est; [|apply nth_error_None in Est; lia].
           destruct (nth_error x2 j) as [o|] eqn:Eo; [|apply nth_error_None in Eo; lia].
           destruct (nth_error x3 j) as [bo|] eqn:Ebo; [|apply nth_error_None in Ebo; lia].
           destruct (SO _ _ Ebo) as (s & Es & Fb). exists o, s, bo. unfold get. rewrite Est. cbn [bind].
           split; [exact (HO _ _ _ Est Eo)|]. split; [exact Es|]. split; [exact Fb|]. exact (HB _ _ _ Eo Ebo).
  - assert (Hi' : S i < R) by lia.
    change (flat_map round_ops (seq i (S (S k)))) with (round_ops i ++ flat_map round_ops (seq (S i) (S k))).
    assert (M := fun vs' => message_op i vs vs' sts shs AT LS F2 IT).
    (* one round *)
    assert (RD : forall msg b, vd_verifier_shares_to_message vdaf ctx ap shs = Ok msg -> message_item i msg b ->
      (forall vs', foldM C (map (op_verify_next r (S i)) (seq 0 N)) vs = Ok vs' -> shape n vs' /\
         exists next, mapM (next_state vdaf ctx msg) sts = Ok next /\ at_round (S i) (map fst next) vs' /\
           forall j sh, nth_error (map snd next) j = Some sh -> row_item (S i) j sh) /\
      (forall next, mapM (next_state vdaf ctx msg) sts = Ok next -> (forall j sh, nth_error (map snd next) j = Some sh -> row_item (S i) j sh) ->
         exists vs', foldM C (map (op_verify_next r (S i)) (seq 0 N)) vs = Ok vs')).
    { intros msg b EM MI.
      destruct (write_loop (fst : State * VShare -> State) C (op_verify_next r (S i)) n r (S i) (at_round i sts) (next_item i msg sts) r_lt) with (m := N) (j := 0) (vs := vs) as [W1 W2].
      - intros w w' j st A S0 SS j' st' E'. destruct (states_set_spec n _ _ _ _ _ _ S0 SS) as (_ & _ & O). rewrite O by lia. now apply A.
      - intros w w' j A S0 Hj. apply (next_op i w w' sts shs msg b j Hi' A LS F2 EM MI Hj).
      - lia.
      - exact SH.
      - exact AT.
      - split.
        + intros vs' H. destruct (W1 _ H) as (SH' & _ & _ & xs & LX & HX). split; [exact SH'|]. exists xs. split; [|split].
          * apply mapM_nth_Ok. split; [congruence|]. intros j st x Est Ex. destruct (HX _ _ Ex) as ((Q1 & _) & _). cbn [Nat.add] in Q1.
            unfold get in Q1. rewrite Est in Q1. exact Q1.
          * intros j st Ej. rewrite nth_error_map in Ej. destruct (nth_error xs j) as [x|] eqn:Ex; [|discriminate]. injection Ej as <-.
            now destruct (HX _ _ Ex) as (_ & G).
          * intros j sh Ej. rewrite nth_error_map in Ej. destruct (nth_error xs j) as [x|] eqn:Ex; [|discriminate]. injection Ej as <-.
            now destruct (HX _ _ Ex) as ((_ & G) & _).
        + intros next EN RI'. pose proof (proj1 (mapM_nth_Ok _ _ _) EN) as [LO HO]. apply (W2 next); [congruence|].
          intros j x Ex. cbn [Nat.add]. split.
          * destruct (nth_error sts j) as [st|] eqn:Est.
            2: { apply nth_error_None in Est. assert (j < length next) by (apply nth_error_Some; congruence). lia. }
            unfold get. rewrite Est. exact (HO _ _ _ Est Ex).
          * apply RI'. rewrite nth_error_map, Ex. reflexivity. }
    (* invariant *)
    assert (NI : forall msg next, vd_verifier_shares_to_message vdaf ctx ap shs = Ok msg -> mapM (next_state vdaf ctx msg) sts = Ok next ->
      length (map fst next) = N /\ Forall2 I (map fst next) (map snd next)).
    { intros msg next EM EN. pose proof (proj1 (mapM_nth_Ok _ _ _) EN) as [LO HO]. split; [rewrite map_length; congruence|].
      assert (A : forall x, In x next -> I (fst x) (snd x)).
      { intros (st', sh') Hin. apply In_nth_error in Hin as (j & Ej).
        destruct (nth_error sts j) as [st|] eqn:Est.
        2: { apply nth_error_None in Est. assert (j < length next) by (apply nth_error_Some; congruence). lia. }
        pose proof (HO _ _ _ Est Ej) as X. unfold next_state in X. binv X. destruct x as [x|o]; [|discriminate]. injection X as ->.
        exact (co_next _ _ _ _ _ _ CO sts shs msg st st' sh' F2 EM (nth_error_In _ _ Est) E). }
      clear - A. induction next as [|x l IHl]; [constructor|]. cbn [map]. constructor; [apply A; now left|apply IHl; intros; apply A; now right]. }
    split.
    + intros vs' H. rewrite foldM_app in H. binv H. unfold round_ops in E. rewrite range0 in E. cbn [foldM] in E. binv E.
      apply M in E0 as (-> & _ & msg & b & EM & MI). destruct (RD msg b EM MI) as [R1 _]. destruct (R1 _ E) as (SH' & next & EN & AT' & RI').
      destruct (NI _ _ EM EN) as (LN & FN). exact (proj1 (IH (S i) x _ _ ltac:(lia) SH' AT' LN FN RI') _ H).
    + rewrite round_messages_eq. split.
      * intros (vs' & H). rewrite foldM_app in H. binv H. unfold round_ops in E. rewrite range0 in E. cbn [foldM] in E. binv E.
        apply M in E0 as (-> & RB & msg & b & EM & MI). destruct (RD msg b EM MI) as [R1 _]. destruct (R1 _ E) as (SH' & next & EN & AT' & RI').
        destruct (NI _ _ EM EN) as (LN & FN).
        destruct (proj1 (proj2 (IH (S i) x _ _ ltac:(lia) SH' AT' LN FN RI')) (ex_intro _ _ H)) as (rows & msgs & outs & ER & RS & MS & SO).
        apply row_begins_shown in RB as (row & ERow & RSh). destruct MI as (EE & MSh).
        exists (row :: rows), (b :: msgs), outs. rewrite ERow, EM. cbn [bind]. rewrite EE. cbn [bind]. rewrite EN. cbn [bind]. rewrite ER. cbn [bind].
        split; [reflexivity|]. rewrite rows_shown_cons, msgs_shown_cons. auto.
      * intros (rows & msgs & outs & H & RS & MS & SO). binv H. binv H. binv H. binv H. binv H. destruct x3 as ((rows', msgs'), outs'). injection H as <- <- <-.
        apply rows_shown_cons in RS as (RS & RS'). apply msgs_shown_cons in MS as (MS & MS').
        assert (MI : message_item i x0 x1) by (split; assumption).
        destruct (NI _ _ E0 E2) as (LN & FN).
        assert (RI' : forall j sh, nth_error (map snd x2) j = Some sh -> row_item (S i) j sh).
        { assert (RB : row_begins (S i) (map snd x2)).
          { rewrite round_messages_eq in E3. binv E3. apply row_begins_shown. exists x3. split; [exact E4|].
            binv E3. binv E3. assert (Z : nth_error rows' 0 = Some x3).
            { destruct k; [binv E3; binv E3; injection E3 as <- _ _; reflexivity|]. binv E3. binv E3. destruct x7 as ((?, ?), ?). injection E3 as <- _ _. reflexivity. }
            specialize (RS' _ _ Z). now rewrite Nat.add_0_r in RS'. }
          intros j sh. now apply row_begins_item. }
        destruct (RD x0 x1 E0 MI) as [R1 R2]. destruct (R2 _ E2 RI') as (vs1 & L1). destruct (R1 _ L1) as (SH' & next & EN & AT' & _).
        assert (next = x2) by congruence. subst next.
        destruct (proj2 (proj2 (IH (S i) vs1 _ _ ltac:(lia) SH' AT' LN FN RI'))) as (vs' & L2); [exists rows', msgs', outs'; auto|].
        exists vs'. rewrite foldM_app. apply bind_Ok. exists vs1. split; [|exact L2]. unfold round_ops. rewrite range0. cbn [foldM].
        apply bind_Ok. exists vs. split; [|exact L1]. apply M. split; [reflexivity|]. split; [apply row_begins_shown; eauto|eauto].
Qed.
End Report.

(** ** One report *)
Lemma Forall2_nth {A B} (P : A -> B -> Prop) l l' : length l = length l' ->
  (forall j x y, nth_error l j = Some x -> nth_error l' j = Some y -> P x y) -> Forall2 P l l'.
Proof.
  revert l'. induction l as [|x l IH]; intros [|y l'] L H; try discriminate; [constructor|].
  constructor; [exact (H 0 x y eq_refl eq_refl)|]. apply IH; [now injection L|]. intros j u v. exact (H (S j) u v).
Qed.
Lemma init_inv m nonce rand ps iss init : In (m, nonce, rand) reports -> vd_shard vdaf ctx m nonce rand = Ok (ps, iss) ->
  mapM (fun j => let* is := get iss j in vd_verify_init vdaf key ctx j ap nonce ps is) (range 0 N) = Ok init ->
  length (map fst init) = N /\ Forall2 I (map fst init) (map snd init).
Proof.
  intros IN ES EI. apply mapM_range_Ok in EI as [L H]. split; [now rewrite map_length|].
  apply Forall2_nth; [now rewrite !map_length|]. intros j st sh E1 E2. rewrite nth_error_map in E1, E2.
  destruct (nth_error init j) as [x|] eqn:Ex; [|discriminate]. injection E1 as <-. injection E2 as <-. specialize (H _ _ Ex).
  binv H. apply get_Ok in E. destruct x as (st, sh). exact (co_init _ _ _ _ _ _ CO m nonce rand ps iss j x0 st sh IN ES E H).
Qed.
Lemma round_messages_first k sts shs rows msgs outs : round_messages vdaf ctx ap k sts shs = Ok (rows, msgs, outs) ->
  exists row, mapM (vd_encode_verifier_share vdaf) shs = Ok row /\ nth_error rows 0 = Some row.
Proof.
  rewrite round_messages_eq. intros H. binv H. exists x. split; [exact E|]. binv H. binv H.
  destruct k; [binv H; binv H; injection H as <- _ _; reflexivity|]. binv H. binv H. destruct x3 as ((?, ?), ?). injection H as <- _ _. reflexivity.
Qed.

Lemma report_ops r rv m nonce rand vs : nth_error (tv_reports tv) r = Some rv -> report_inputs vdaf (m, nonce, rand) rv -> In (m, nonce, rand) reports ->
  shape n vs ->
  (forall vs', foldM C (report_operations vdaf r) vs = Ok vs' -> shape n vs') /\
  ((exists vs', foldM C (report_operations vdaf r) vs = Ok vs') <-> report_recorded vdaf ctx key ap (m, nonce, rand) rv).
Proof.
  intros HRV RI IN SH.
  assert (OPS : report_operations vdaf r = op_shard r :: map (op_verify_init r) (seq 0 N) ++ flat_map (round_ops r) (seq 0 (S (R - 1)))).
  { unfold report_operations. rewrite (range0 N), (range0 R). replace (S (R - 1)) with R by lia. unfold round_ops. now rewrite (range0 N). }
  rewrite OPS. cbn [foldM].
  assert (SO := fun vs' => shard_op r rv HRV m nonce rand RI vs vs').
  assert (LP : forall ps iss public inputs, vd_shard vdaf ctx m nonce rand = Ok (ps, iss) -> vd_encode_public_share vdaf ps = Ok public ->
    fromhex (rv_public_share rv) = Ok public -> mapM (vd_encode_input_share vdaf) iss = Ok inputs -> mapM fromhex (rv_input_shares rv) = Ok inputs ->
    (forall vs', foldM C (map (op_verify_init r) (seq 0 N)) vs = Ok vs' -> shape n vs' /\
       exists init, mapM (fun j => let* is := get iss j in vd_verify_init vdaf key ctx j ap nonce ps is) (range 0 N) = Ok init /\
         at_round r 0 (map fst init) vs' /\ forall j sh, nth_error (map snd init) j = Some sh -> row_item rv 0 j sh) /\
    (forall init, mapM (fun j => let* is := get iss j in vd_verify_init vdaf key ctx j ap nonce ps is) (range 0 N) = Ok init ->
       (forall j sh, nth_error (map snd init) j = Some sh -> row_item rv 0 j sh) ->
       exists vs', foldM C (map (op_verify_init r) (seq 0 N)) vs = Ok vs')).
  { intros ps iss public inputs ES EP FP EI FI.
    destruct (write_loop (fst : State * VShare -> State) C (op_verify_init r) n r 0 (fun _ => True) (init_item rv nonce ps iss) (r_lt _ _ HRV)) with (m := N) (j := 0) (vs := vs) as [W1 W2].
    - trivial.
    - intros w w' j _ _ _. apply (init_op r rv HRV m nonce rand RI IN ps iss public inputs ES EP FP EI FI).
    - lia.
    - exact SH.
    - trivial.
    - split.
      + intros vs' H. destruct (W1 _ H) as (SH' & _ & _ & xs & LX & HX). split; [exact SH'|]. exists xs. split; [|split].
        * apply mapM_range_Ok. split; [exact LX|]. intros j x Ex. now destruct (HX _ _ Ex) as ((Q1 & _) & _).
        * intros j st Ej. rewrite nth_error_map in Ej. destruct (nth_error xs j) as [x|] eqn:Ex; [|discriminate]. injection Ej as <-.
          now destruct (HX _ _ Ex) as (_ & G).
        * intros j sh Ej. rewrite nth_error_map in Ej. destruct (nth_error xs j) as [x|] eqn:Ex; [|discriminate]. injection Ej as <-.
          now destruct (HX _ _ Ex) as ((_ & G) & _).
      + intros init EN RI'. apply mapM_range_Ok in EN as [LO HO]. apply (W2 init LO).
        intros j x Ex. cbn [Nat.add]. split; [exact (HO _ _ Ex)|]. apply RI'. rewrite nth_error_map, Ex. reflexivity. }
  split.
  - intros vs' H. binv H. apply SO in E as (-> & ps & iss & public & inputs & ES & EP & FP & EI & FI). rewrite foldM_app in H. binv H.
    destruct (LP ps iss public inputs ES EP FP EI FI) as [L1 _]. destruct (L1 _ E) as (SH' & init & EIN & AT & RI').
    destruct (init_inv m nonce rand ps iss init IN ES EIN) as (LN & FN).
    exact (proj1 (rounds_ops r rv HRV (R - 1) 0 x _ _ ltac:(lia) SH' AT LN FN RI') _ H).
  - unfold report_recorded, report_messages. split.
    + intros (vs' & H). binv H. apply SO in E as (-> & ps & iss & public & inputs & ES & EP & FP & EI & FI). rewrite foldM_app in H. binv H.
      destruct (LP ps iss public inputs ES EP FP EI FI) as [L1 _]. destruct (L1 _ E) as (SH' & init & EIN & AT & RI').
      destruct (init_inv m nonce rand ps iss init IN ES EIN) as (LN & FN).
      destruct (proj1 (proj2 (rounds_ops r rv HRV (R - 1) 0 x _ _ ltac:(lia) SH' AT LN FN RI')) (ex_intro _ _ H)) as (rows & msgs & outs & EM & RS & MS & SOu).
      exists public, inputs, rows, msgs, outs. rewrite ES. cbn [bind]. rewrite EP. cbn [bind]. rewrite EI. cbn [bind]. rewrite EIN. cbn [bind]. rewrite EM. cbn [bind].
      split; [reflexivity|]. split; [exact FP|]. split; [exact FI|]. split; [exact RS|]. split; [exact MS|exact SOu].
    + intros (public & inputs & rows & msgs & outs & H & FP & FI & RS & MS & SOu). binv H. destruct x as (ps, iss). rename E into ES.
      binv H. rename E into EP. binv H. rename E into EI. binv H. rename E into EIN. rename x1 into init. binv H. destruct x1 as ((rows', msgs'), outs'). rename E into EM.
      injection H as -> -> -> -> ->.
      destruct (init_inv m nonce rand ps iss init IN ES EIN) as (LN & FN).
      assert (RI' : forall j sh, nth_error (map snd init) j = Some sh -> row_item rv 0 j sh).
      { destruct (round_messages_first _ _ _ _ _ _ EM) as (row & ER & Z). intros j sh. apply row_begins_item. apply row_begins_shown. exists row. split; [exact ER|]. exact (RS _ _ Z). }
      destruct (LP ps iss public inputs ES EP FP EI FI) as [L1 L2]. destruct (L2 _ EIN RI') as (vs1 & W1). destruct (L1 _ W1) as (SH' & init' & EIN' & AT & _).
      assert (init' = init) by congruence. subst init'.
      destruct (proj2 (proj2 (rounds_ops r rv HRV (R - 1) 0 vs1 _ _ ltac:(lia) SH' AT LN FN RI'))) as (vs' & W2); [exists rows, msgs, outs; auto|].
      exists vs'. apply bind_Ok. exists vs. split; [apply SO; split; [reflexivity|]; exists ps, iss, public, inputs; auto|].
      rewrite foldM_app, W1. exact W2.
Qed.

(** ** All reports *)
Lemma reports_ops : forall done rest reps vs k, tv_reports tv = done ++ rest -> length done = k -> Forall2 (report_inputs vdaf) reps rest ->
  incl reps reports -> shape n vs ->
  (exists vs', foldM C (flat_map (report_operations vdaf) (seq k (length rest))) vs = Ok vs') <-> Forall2 (report_recorded vdaf ctx key ap) reps rest.
Proof.
  intros done rest. revert done. induction rest as [|rv rest IH]; intros done reps vs k ET LD F IC SH.
  - inversion F; subst. cbn. split; [intros; constructor|intros _; exists vs; reflexivity].
  - inversion F as [|rep ? reps' ? RI F']; subst. destruct rep as ((m, nonce), rand).
    cbn [length seq flat_map]. rewrite foldM_app.
    assert (HRV : nth_error (tv_reports tv) (length done) = Some rv).
    { rewrite ET, nth_error_app2 by lia. now rewrite Nat.sub_diag. }
    destruct (report_ops (length done) rv m nonce rand vs HRV RI (IC _ (or_introl eq_refl)) SH) as [P1 P2].
    assert (NXT : forall w, shape n w -> (exists vs', foldM C (flat_map (report_operations vdaf) (seq (S (length done)) (length rest))) w = Ok vs') <->
      Forall2 (report_recorded vdaf ctx key ap) reps' rest).
    { intros w SW. apply (IH (done ++ [rv]) reps' w); [now rewrite <- app_assoc|rewrite app_length; cbn; lia|exact F'|intros z Hz; apply IC; now right|exact SW]. }
    split.
    + intros (vs' & H). binv H. constructor; [apply P2; eauto|]. apply (NXT x (P1 _ E)). eauto.
    + intros H. inversion H as [|? ? ? ? H1 H2]; subst. apply P2 in H1 as (w & E). apply (NXT w (P1 _ E)) in H2 as (vs' & H2).
      exists vs'. rewrite E. exact H2.
Qed.

(** ** Output shares *)
Lemma round_messages_outputs : forall k sts shs, Forall2 I sts shs ->
  (forall rows msgs bs, round_messages vdaf ctx ap k sts shs = Ok (rows, msgs, bs) ->
    exists outs, verify_rounds vdaf ctx ap k sts shs = Ok outs /\ mapM (vd_encode_out_share vdaf) outs = Ok bs /\ mapM (vd_decode_out_share vdaf ap) bs = Ok outs) /\
  (forall outs, length sts = N -> verify_rounds vdaf ctx ap k sts shs = Ok outs -> exists rows msgs bs, round_messages vdaf ctx ap k sts shs = Ok (rows, msgs, bs)).
Proof.
  assert (NI : forall msg sts shs next, Forall2 I sts shs -> vd_verifier_shares_to_message vdaf ctx ap shs = Ok msg -> mapM (next_state vdaf ctx msg) sts = Ok next ->
      length (map fst next) = length sts /\ Forall2 I (map fst next) (map snd next)).
  { intros msg sts shs next F2 EM EN. pose proof (proj1 (mapM_nth_Ok _ _ _) EN) as [LO HO]. split; [rewrite map_length; congruence|].
    apply Forall2_nth; [now rewrite !map_length|]. intros j st sh E1 E2. rewrite nth_error_map in E1, E2.
    destruct (nth_error next j) as [x|] eqn:Ex; [|discriminate]. injection E1 as <-. injection E2 as <-.
    destruct (nth_error sts j) as [st|] eqn:Est.
    2: { apply nth_error_None in Est. assert (j < length next) by (apply nth_error_Some; congruence). lia. }
    pose proof (HO _ _ _ Est Ex) as X. unfold next_state in X. binv X. destruct x0 as [x0|o]; [|discriminate]. injection X as ->. destruct x as (st', sh').
    exact (co_next _ _ _ _ _ _ CO sts shs msg st st' sh' F2 EM (nth_error_In _ _ Est) E). }
  assert (OB : forall msg sts shs outs, Forall2 I sts shs -> vd_verifier_shares_to_message vdaf ctx ap shs = Ok msg -> mapM (last_state vdaf ctx msg) sts = Ok outs ->
    exists bs, mapM (vd_encode_out_share vdaf) outs = Ok bs /\ mapM (vd_decode_out_share vdaf ap) bs = Ok outs).
  { intros msg sts shs outs F2 EM EN.
    assert (A : forall o, In o outs -> reads_back (vd_encode_out_share vdaf) (vd_decode_out_share vdaf ap) o).
    { intros o Hin. pose proof (proj1 (mapM_nth_Ok _ _ _) EN) as [LO HO]. apply In_nth_error in Hin as (j & Ej).
      destruct (nth_error sts j) as [st|] eqn:Est.
      2: { apply nth_error_None in Est. assert (j < length outs) by (apply nth_error_Some; congruence). lia. }
      pose proof (HO _ _ _ Est Ej) as X. unfold last_state in X. binv X. destruct x as [x|o']; [discriminate|]. injection X as ->.
      exact (co_out _ _ _ _ _ _ CO sts shs msg st o F2 EM (nth_error_In _ _ Est) E). }
    clear - A. induction outs as [|o outs IHl]; [exists []; auto|]. destruct IHl as (bs & E1 & E2); [intros; apply A; now right|].
    destruct (A o (or_introl eq_refl)) as (b & Eb & Db). exists (b :: bs). cbn [mapM]. rewrite Eb, Db. cbn [bind]. rewrite E1, E2. auto. }
  assert (EB : forall sts shs, Forall2 I sts shs -> exists row, mapM (vd_encode_verifier_share vdaf) shs = Ok row).
  { intros sts shs F2. induction F2 as [|st sh sts shs H _ (row & IHl)]; [exists []; reflexivity|].
    destruct (co_share _ _ _ _ _ _ CO _ _ H) as (b & Eb & _). exists (b :: row). cbn [mapM]. rewrite Eb. cbn [bind]. now rewrite IHl. }
  induction k as [|k IH]; intros sts shs F2; (split; [intros rows msgs bs H|intros outs LS H]).
  - rewrite round_messages_eq in H. binv H. binv H. binv H. binv H. binv H. injection H as <- <- <-.
    exists x2. cbn [verify_rounds]. rewrite E0. cbn [bind]. split; [exact E2|]. split; [exact E3|].
    destruct (OB _ _ _ _ F2 E0 E2) as (bs & E4 & E5). congruence.
  - cbn [verify_rounds] in H. binv H. change (mapM (last_state vdaf ctx x) sts = Ok outs) in H.
    destruct (OB _ _ _ _ F2 E H) as (bs & E4 & E5). destruct (EB _ _ F2) as (row & ER).
    destruct sts as [|st sts]; [cbn in LS; lia|]. destruct (co_message _ _ _ _ _ _ CO (st :: sts) shs x st F2 E (or_introl eq_refl)) as (b & Eb & _).
    exists [row], [b], bs. rewrite round_messages_eq, ER, E. cbn [bind]. rewrite Eb. cbn [bind]. rewrite H. cbn [bind]. rewrite E4. reflexivity.
  - rewrite round_messages_eq in H. binv H. binv H. binv H. binv H. binv H. destruct x3 as ((rows', msgs'), bs'). injection H as <- <- <-.
    destruct (NI _ _ _ _ F2 E0 E2) as (LN & FN). destruct (proj1 (IH _ _ FN) _ _ _ E3) as (outs & V & EO & DO).
    exists outs. split; [|auto]. cbn [verify_rounds]. rewrite E0. cbn [bind]. change (mapM _ sts) with (mapM (next_state vdaf ctx x0) sts). rewrite E2. exact V.
  - cbn [verify_rounds] in H. binv H. binv H. change (mapM (next_state vdaf ctx x) sts = Ok x0) in E0.
    destruct (NI _ _ _ _ F2 E E0) as (LN & FN). destruct (proj2 (IH _ _ FN) outs ltac:(congruence) H) as (rows & msgs & bs & E4).
    destruct (EB _ _ F2) as (row & ER).
    destruct sts as [|st sts]; [cbn in LS; lia|]. destruct (co_message _ _ _ _ _ _ CO (st :: sts) shs x st F2 E (or_introl eq_refl)) as (b & Eb & _).
    exists (row :: rows), (b :: msgs), bs. rewrite round_messages_eq, ER, E. cbn [bind]. rewrite Eb. cbn [bind]. rewrite E0. cbn [bind]. rewrite E4. reflexivity.
Qed.
Lemma report_messages_outputs report : In report reports ->
  (forall public inputs rows msgs bs, report_messages vdaf ctx key ap report = Ok (public, inputs, rows, msgs, bs) ->
    exists outs, vdaf_outputs vdaf ctx ap key report = Ok outs /\ mapM (vd_encode_out_share vdaf) outs = Ok bs /\ mapM (vd_decode_out_share vdaf ap) bs = Ok outs) /\
  (forall outs, vdaf_outputs vdaf ctx ap key report = Ok outs -> exists x, report_messages vdaf ctx key ap report = Ok x).
Proof.
  destruct report as ((m, nonce), rand). intros IN. unfold report_messages, vdaf_outputs, verify_report. split.
  - intros public inputs rows msgs bs H. binv H. destruct x as (ps, iss). binv H. binv H. binv H. binv H. destruct x2 as ((rows', msgs'), bs'). injection H as <- <- <- <- <-.
    rewrite E. cbn [bind]. rewrite E2. cbn [bind]. destruct (init_inv m nonce rand ps iss x1 IN E E2) as (LN & FN).
    exact (proj1 (round_messages_outputs _ _ _ FN) _ _ _ E3).
  - intros outs H. binv H. destruct x as (ps, iss). binv H. destruct (init_inv m nonce rand ps iss x IN E E0) as (LN & FN).
    destruct (proj2 (round_messages_outputs _ _ _ FN) outs LN H) as (rows & msgs & bs & EM). rewrite E. cbn [bind].
    destruct (co_public _ _ _ _ _ _ CO m nonce rand ps iss IN E) as (public & EP & _). rewrite EP. cbn [bind].
    destruct (mapM_total (vd_encode_input_share vdaf) iss) as (inputs & EI).
    { intros is Hin. apply In_nth_error in Hin as (j & Ej). destruct (co_input _ _ _ _ _ _ CO m nonce rand ps iss j is IN E Ej) as (b & Eb & _). eauto. }
    rewrite EI. cbn [bind]. rewrite E0. cbn [bind]. rewrite EM. cbn [bind]. eauto.
Qed.

(** ** Aggregation *)
Definition outs_shown (rv : report_vec (vd_Measurement vdaf)) (outs : list Out) : Prop :=
  length outs = N /\ forall j o, nth_error outs j = Some o -> exists s b, nth_error (rv_out_shares rv) j = Some s /\ fromhex s = Ok b /\ vd_decode_out_share vdaf ap b = Ok o.

Lemma recorded_outputs reps rvs : Forall2 (report_recorded vdaf ctx key ap) reps rvs -> incl reps reports ->
  exists outss, mapM (vdaf_outputs vdaf ctx ap key) reps = Ok outss /\ Forall2 outs_shown rvs outss.
Proof.
  induction 1 as [|rep rv reps rvs H _ IH]; intros IC; [exists []; split; [reflexivity|constructor]|].
  destruct IH as (outss & E & F); [intros z Hz; apply IC; now right|].
  destruct H as (public & inputs & rows & msgs & bs & RM & _ & _ & _ & _ & SO).
  destruct (proj1 (report_messages_outputs rep (IC _ (or_introl eq_refl))) _ _ _ _ _ RM) as (outs & EO & EB & DB).
  exists (outs :: outss). cbn [mapM]. rewrite EO. cbn [bind]. rewrite E. split; [reflexivity|]. constructor; [|exact F].
  split; [exact (vdaf_outputs_length _ _ _ _ _ _ EO)|]. intros j o Ej.
  pose proof (proj1 (mapM_nth_Ok _ _ _) EB) as [LB _]. pose proof (proj1 (mapM_nth_Ok _ _ _) DB) as [_ HD].
  destruct (nth_error bs j) as [b|] eqn:Eb.
  2: { apply nth_error_None in Eb. assert (j < length outs) by (apply nth_error_Some; congruence). lia. }
  destruct (SO _ _ Eb) as (s & Es & Fs). exists s, b. split; [exact Es|]. split; [exact Fs|]. exact (HD _ _ _ Eb Ej).
Qed.

Lemma outs_column rvs outss j : j < N -> Forall2 outs_shown rvs outss ->
  exists bs os, mapM (fun report => let* s := get (rv_out_shares report) j in fromhex s) rvs = Ok bs /\ mapM (vd_decode_out_share vdaf ap) bs = Ok os /\
    forall a, foldM (vd_agg_update vdaf ap) os a = foldM (fun a o => let* o := get o j in vd_agg_update vdaf ap a o) outss a.
Proof.
  intros Hj. induction 1 as [|rv outs rvs outss (L & H) _ (bs & os & E1 & E2 & E3)]; [exists [], []; auto|].
  destruct (nth_error outs j) as [o|] eqn:Eo; [|apply nth_error_None in Eo; lia].
  destruct (H _ _ Eo) as (s & b & Es & Fs & Db). exists (b :: bs), (o :: os). cbn [mapM]. unfold get at 1. rewrite Es. cbn [bind]. rewrite Fs. cbn [bind]. rewrite E1. cbn [bind].
  rewrite Db. cbn [bind]. rewrite E2. split; [reflexivity|]. split; [reflexivity|]. intros a. cbn [foldM]. unfold get at 1. rewrite Eo. cbn [bind].
  destruct (vd_agg_update vdaf ap a o); cbn [bind]; [apply E3|reflexivity].
Qed.

Definition agg_item (outss : list (list Out)) (j : nat) : Prop :=
  exists a s b, fold_outputs (vd_agg_init vdaf ap) (vd_agg_update vdaf ap) outss j = Ok a /\ vd_encode_agg_share vdaf a = Ok b /\
    nth_error (tv_agg_shares tv) j = Some s /\ fromhex s = Ok b.
Lemma aggregate_op outss vs vs' j : Forall2 outs_shown (tv_reports tv) outss -> j < N ->
  C vs (op_aggregate j) = Ok vs' <-> vs' = vs /\ agg_item outss j.
Proof.
  intros F Hj. destruct (outs_column _ _ j Hj F) as (bs & os & E1 & E2 & E3).
  unfold check_operation, op_aggregate. cbn [op_operation op_aggregator_id op_success String.eqb Ascii.eqb Bool.eqb field_of].
  cbn [bind]. destruct VI as (_ & _ & (apb & FA & DA) & _). rewrite FA. cbn [bind]. rewrite E1. cbn [bind].
  unfold check_aggregate_success, agg_item, fold_outputs. rewrite DA. cbn [bind]. rewrite E2. cbn [bind]. split.
  - intros H. binv H. binv H. binv H. injection H as <-. split; [reflexivity|]. apply get_Ok in E. binv E4. binv E4. binv E4. apply assert_equal_Ok in E4. subst x4.
    rewrite E3 in E6. exists x3, x, x0. rewrite E5. auto.
  - intros (-> & a & s & b & EF & EE & Es & Fs). unfold get at 1. rewrite Es. cbn [bind]. rewrite Fs. cbn [bind]. binv EF. rewrite E. cbn [bind]. rewrite E3.
    rewrite EF. cbn [bind]. rewrite EE. cbn [bind]. now rewrite assert_equal_refl.
Qed.

Lemma unshard_op vs vs' encs aggs : mapM fromhex (tv_agg_shares tv) = Ok encs -> mapM (vd_decode_agg_share vdaf ap) encs = Ok aggs ->
  C vs op_unshard = Ok vs' <-> vs' = vs /\ exists r expected, vd_unshard vdaf ap aggs n = Ok r /\ tv_agg_result tv = Some expected /\ result_eqb r expected = true.
Proof.
  intros FE DE. unfold check_operation, op_unshard. cbn [op_operation op_success String.eqb Ascii.eqb Bool.eqb field_of].
  cbn [bind]. destruct VI as (_ & _ & (apb & FA & DA) & _). rewrite FA. cbn [bind]. rewrite FE. cbn [bind].
  unfold check_unshard_success. rewrite DA. cbn [bind]. rewrite DE. cbn [bind]. split.
  - intros H. binv H. injection H as <-. split; [reflexivity|]. binv E. apply check_Ok in E. destruct (tv_agg_result tv) as [e|]; [|discriminate]. eauto.
  - intros (-> & r & e & EU & -> & EQ). rewrite EU. cbn [bind]. now rewrite EQ.
Qed.

Lemma aggs_read_back outss aggs : fold_all N (vd_agg_init vdaf ap) (vd_agg_update vdaf ap) outss = Ok aggs ->
  Forall (fun outs => length outs = N) outss -> forall a, In a aggs -> reads_back (vd_encode_agg_share vdaf) (vd_decode_agg_share vdaf ap) a.
Proof.
  intros FA FO. unfold fold_all in FA. apply mapM_range_Ok in FA as [LA HA].
  intros a Hin. apply In_nth_error in Hin as (j & Ej). assert (Hj : j < N) by (rewrite <- LA; apply nth_error_Some; congruence).
  specialize (HA _ _ Ej). unfold fold_outputs in HA. binv HA.
  assert (X : exists os, forall a, foldM (fun a o => let* o := get o j in vd_agg_update vdaf ap a o) outss a = foldM (vd_agg_update vdaf ap) os a).
  { clear - FO Hj. induction FO as [|outs outss L _ (os & IHl)]; [exists []; reflexivity|].
    destruct (nth_error outs j) as [o|] eqn:Eo; [|apply nth_error_None in Eo; lia]. exists (o :: os). intros a. cbn [foldM]. unfold get at 1. rewrite Eo. cbn [bind].
    destruct (vd_agg_update vdaf ap a o); cbn [bind]; [apply IHl|reflexivity]. }
  destruct X as (os & X). apply (co_agg _ _ _ _ _ _ CO os a). rewrite E. cbn [bind]. rewrite <- X. exact HA.
Qed.
Lemma agg_encodings outss aggs : fold_all N (vd_agg_init vdaf ap) (vd_agg_update vdaf ap) outss = Ok aggs ->
  Forall (fun outs => length outs = N) outss -> exists encs, mapM (vd_encode_agg_share vdaf) aggs = Ok encs.
Proof. intros FA FO. apply mapM_total. intros a Ha. destruct (aggs_read_back _ _ FA FO a Ha) as (b & E & _). eauto. Qed.
Lemma decode_aggs outss aggs encs : fold_all N (vd_agg_init vdaf ap) (vd_agg_update vdaf ap) outss = Ok aggs -> mapM (vd_encode_agg_share vdaf) aggs = Ok encs ->
  Forall (fun outs => length outs = N) outss -> mapM (vd_decode_agg_share vdaf ap) encs = Ok aggs.
Proof.
  intros FA EE FO. assert (A := aggs_read_back outss aggs FA FO).
  clear - A EE. revert encs EE. induction aggs as [|a aggs IHl]; intros encs EE; [injection EE as <-; reflexivity|].
  cbn [mapM] in EE. binv EE. binv EE. injection EE as <-. destruct (A a (or_introl eq_refl)) as (b & Eb & Db). assert (b = x) by congruence. subst b.
  cbn [mapM]. rewrite Db. cbn [bind]. rewrite (IHl (fun z Hz => A z (or_intror Hz)) _ E0). reflexivity.
Qed.

(** ** The whole check *)
Theorem check_passes : tv_operations tv = all_operations vdaf n -> length (tv_agg_shares tv) = N ->
  check_test_vector vdaf result_eqb tv = Ok tt <-> vector_records vdaf ctx key ap result_eqb reports tv.
Proof.
  intros OPS LA. unfold check_test_vector, vector_records. rewrite OPS. unfold all_operations.
  set (vs0 := map (fun _ => map (fun _ => []) (range 0 N)) (tv_reports tv)).
  assert (SH : shape n vs0).
  { unfold vs0. split; [apply map_length|]. intros r x E. rewrite nth_error_map in E. destruct (nth_error (tv_reports tv) r); [|discriminate].
    injection E as <-. rewrite map_length, range0. apply seq_length. }
  assert (FR : Forall2 (report_inputs vdaf) reports (tv_reports tv)) by apply VI.
  assert (LR : length reports = n) by (clear - FR; induction FR; cbn; congruence).
  assert (RP := reports_ops [] (tv_reports tv) reports vs0 0 eq_refl eq_refl FR (incl_refl _) SH).
  rewrite (range0 n), (range0 N).
  assert (AG : forall vs outss, Forall2 outs_shown (tv_reports tv) outss -> forall vs',
    foldM C (map op_aggregate (seq 0 N)) vs = Ok vs' <-> vs' = vs /\ forall j, 0 <= j < 0 + N -> agg_item outss j).
  { intros vs outss FO. apply (read_loop C op_aggregate (agg_item outss) vs N 0). intros j w Hj. apply aggregate_op; [exact FO|lia]. }
  assert (AI : forall outss, Forall (fun outs => length outs = N) outss -> (forall j, 0 <= j < 0 + N -> agg_item outss j) <->
    exists aggs encs, fold_all N (vd_agg_init vdaf ap) (vd_agg_update vdaf ap) outss = Ok aggs /\ mapM (vd_encode_agg_share vdaf) aggs = Ok encs /\ mapM fromhex (tv_agg_shares tv) = Ok encs).
  { intros outss FO. split.
    - intros H. destruct (mapM_total (fold_outputs (vd_agg_init vdaf ap) (vd_agg_update vdaf ap) outss) (range 0 N)) as (aggs & EA).
      { intros j Hin. apply in_range in Hin. destruct (H j ltac:(lia)) as (a & s & b & E & _). eauto. }
      pose proof (proj1 (mapM_range_Ok _ _ _) EA) as [L1 H1].
      destruct (mapM_total fromhex (tv_agg_shares tv)) as (encs & EE).
      { intros s Hin. apply In_nth_error in Hin as (j & Ej). assert (j < N) by (rewrite <- LA; apply nth_error_Some; congruence).
        destruct (H j ltac:(lia)) as (a & s' & b & _ & _ & E & F). assert (s' = s) by congruence. subst s'. eauto. }
      pose proof (proj1 (mapM_nth_Ok _ _ _) EE) as [L2 H2].
      exists aggs, encs. split; [exact EA|]. split; [|exact EE]. apply mapM_nth_Ok. split; [congruence|]. intros j a b Ea Eb.
      assert (j < N) by (rewrite <- L1; apply nth_error_Some; congruence). destruct (H j ltac:(lia)) as (a' & s & b' & E1 & E2 & E3 & E4).
      rewrite (H1 _ _ Ea) in E1. rewrite (H2 _ _ _ E3 Eb) in E4. congruence.
    - intros (aggs & encs & EA & EB & EE) j Hj. pose proof (proj1 (mapM_range_Ok _ _ _) EA) as [L1 H1].
      pose proof (proj1 (mapM_nth_Ok _ _ _) EE) as [L2 H2]. pose proof (proj1 (mapM_nth_Ok _ _ _) EB) as [L3 H3].
      destruct (nth_error aggs j) as [a|] eqn:Ea; [|apply nth_error_None in Ea; lia].
      destruct (nth_error encs j) as [b|] eqn:Eb; [|apply nth_error_None in Eb; lia].
      destruct (nth_error (tv_agg_shares tv) j) as [s|] eqn:Es; [|apply nth_error_None in Es; lia].
      exists a, s, b. split; [exact (H1 _ _ Ea)|]. split; [exact (H3 _ _ _ Ea Eb)|]. split; [exact Es|]. exact (H2 _ _ _ Es Eb). }
  rewrite !foldM_app. split.
  - intros H. binv H. binv E. rewrite foldM_app in E. binv E. cbn [foldM] in E. binv E. injection E as ->.
    assert (REC := proj1 RP (ex_intro _ _ E0)). split; [exact REC|].
    destruct (recorded_outputs _ _ REC (incl_refl _)) as (outss & EO & FO).
    assert (FL : Forall (fun outs => length outs = N) outss). { clear - FO. induction FO as [|? ? ? ? [L _] _ IHl]; constructor; assumption. }
    apply (AG x0 outss FO) in E1 as [-> H1]. apply AI in H1 as (aggs & encs & EA & EB & EE); [|exact FL].
    apply (unshard_op _ _ encs aggs EE (decode_aggs _ _ _ EA EB FL)) in E2 as (_ & r & e & EU & ER & EQ).
    exists outss, aggs, encs, r, e. rewrite LR. auto 10.
  - intros (REC & outss & aggs & encs & r & e & EO & EA & EB & EE & EU & ER & EQ). destruct (proj2 RP REC) as (vs1 & W1). rewrite W1. cbn [bind].
    destruct (recorded_outputs _ _ REC (incl_refl _)) as (outss' & EO' & FO). assert (outss' = outss) by congruence. subst outss'.
    assert (FL : Forall (fun outs => length outs = N) outss). { clear - FO. induction FO as [|? ? ? ? [L _] _ IHl]; constructor; assumption. }
    rewrite foldM_app. rewrite (proj2 (AG vs1 outss FO vs1)); [|split; [reflexivity|]; apply AI; [exact FL|]; eauto]. cbn [bind foldM].
    rewrite (proj2 (unshard_op vs1 vs1 encs aggs EE (decode_aggs _ _ _ EA EB FL))); [reflexivity|]. split; [reflexivity|]. rewrite LR in EU. eauto.
Qed.
End TF.
