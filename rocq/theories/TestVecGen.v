(** Facts about the generation of test vectors. *)
From Coq Require Import Strings.String Strings.Ascii.
From Verif Require Export TestVecFacts.
Open Scope nat_scope.

Section G.
Context (vdaf : Vdaf).
Notation State := (vd_VerifyState vdaf).
Notation VShare := (vd_VerifierShare vdaf).
Notation Out := (vd_OutShare vdaf).
Notation Report := (vd_Measurement vdaf * bytes * bytes)%type.
Notation N := (vd_SHARES vdaf).
Notation R := (vd_ROUNDS vdaf).

Lemma hexed_Ok {A} (enc : A -> res bytes) x s : hexed enc x = Ok s <-> exists b, enc x = Ok b /\ s = to_hex b.
Proof. unfold hexed. rewrite bind_Ok. split; [intros (b & E & [= <-])|intros (b & E & ->)]; eauto. Qed.
Lemma mapM_hexed {A} (enc : A -> res bytes) l : mapM (hexed enc) l = let* bs := mapM enc l in Ok (map to_hex bs).
Proof.
  induction l as [|x l IH]; [reflexivity|]. cbn [mapM]. unfold hexed at 1. destruct (enc x); [|reflexivity]. cbn [bind].
  rewrite IH. destruct (mapM enc l); reflexivity.
Qed.

Context (ctx key : bytes) (ap : vd_AggParam vdaf) (r : nat).

Lemma init_loop nonce ps iss : forall l sts shs ops,
  foldM (fun '(verify_states, outbound_verifier_shares, operations) j =>
      let* input_share := get iss j in
      let* (state, share) := vd_verify_init vdaf key ctx j ap nonce ps input_share in
      Ok (verify_states ++ [state], outbound_verifier_shares ++ [share], operations ++ [op_verify_init r j])) l (sts, shs, ops) =
  let* init := mapM (fun j => let* is := get iss j in vd_verify_init vdaf key ctx j ap nonce ps is) l in
  Ok (sts ++ map fst init, shs ++ map snd init, ops ++ map (op_verify_init r) l).
Proof.
  induction l as [|j l IH]; intros sts shs ops; cbn [foldM mapM].
  - cbn [bind map]. now rewrite !app_nil_r.
  - rewrite !bind_assoc. apply bind_ext. intros is _. rewrite !bind_assoc. apply bind_ext. intros [st sh] _. cbn [bind].
    rewrite IH, !bind_assoc. apply bind_ext. intros init _. cbn [bind map fst snd]. now rewrite <- !app_assoc.
Qed.

Lemma row_eq shs : 1 <= R -> mapM (fun share => let* s := hexed (vd_encode_verifier_share vdaf) share in
    let* _ := check (0 <? R) IndexError in Ok s) shs = let* row := mapM (vd_encode_verifier_share vdaf) shs in Ok (map to_hex row).
Proof.
  intros HR. rewrite <- mapM_hexed. apply mapM_ext. intros x _. replace (0 <? R) with true by (symmetry; now apply Nat.ltb_lt).
  cbn [check bind]. destruct (hexed _ x); reflexivity.
Qed.

Definition next_body msg i := (fun '(verify_states, outbound_verifier_shares, row, operations) j =>
  let* state := get verify_states j in
  let* out := vd_verify_next vdaf ctx state msg in
  match out with
  | inl (state, verifier_share) =>
    let* verify_states := set verify_states j state in
    let* s := hexed (vd_encode_verifier_share vdaf) verifier_share in
    Ok (verify_states, outbound_verifier_shares ++ [verifier_share], row ++ [s], operations ++ [op_verify_next r (i + 1) j])
  | inr _ => Raise AssertionError
  end).
Lemma next_loop msg i : forall rest don shs row ops k x, length don = k ->
  foldM (next_body msg i) (seq k (length rest)) (don ++ rest, shs, row, ops) = Ok x <->
  exists next bs, mapM (next_state vdaf ctx msg) rest = Ok next /\ mapM (vd_encode_verifier_share vdaf) (map snd next) = Ok bs /\
    x = (don ++ map fst next, shs ++ map snd next, row ++ map to_hex bs, ops ++ map (op_verify_next r (S i)) (seq k (length rest))).
Proof.
  induction rest as [|st rest IH]; intros don shs row ops k x L; cbn [length seq foldM mapM].
  - cbn [map]. split.
    + intros [= <-]. exists [], []. cbn [map]. rewrite !app_nil_r. auto.
    + intros (next & bs & [= <-] & [= <-] & ->). cbn [map]. now rewrite !app_nil_r.
  - subst k. unfold next_body at 1. rewrite get_mid. cbn [bind]. unfold next_state at 1. split.
    + intros H. binv H. binv E. destruct x1 as [(st', sh')|o]; [|discriminate]. rewrite set_mid in E. cbn [bind] in E. binv E. injection E as <-.
      rewrite E0. cbn [bind]. apply hexed_Ok in E1 as (b & E1 & ->).
      change (don ++ st' :: rest) with (don ++ [st'] ++ rest) in H. rewrite app_assoc in H.
      apply IH in H; [|rewrite app_length; cbn; lia]. destruct H as (next & bs & EN & EB & ->).
      exists ((st', sh') :: next), (b :: bs). rewrite EN. cbn [bind map snd fst mapM]. rewrite E1. cbn [bind]. rewrite EB. cbn [bind].
      rewrite <- !app_assoc. rewrite Nat.add_1_r. auto.
    + intros (next & bs & H & EB & ->). binv H. binv E. destruct x0 as [(st', sh')|o]; [|discriminate]. injection E as <-. binv H. injection H as <-.
      cbn [map snd mapM] in EB. binv EB. binv EB. injection EB as <-.
      rewrite E0. cbn [bind]. rewrite set_mid. cbn [bind]. rewrite (proj2 (hexed_Ok _ _ _) (ex_intro _ x0 (conj E1 eq_refl))). cbn [bind].
      change (don ++ st' :: rest) with (don ++ [st'] ++ rest). rewrite app_assoc.
      apply IH; [rewrite app_length; cbn; lia|]. exists x, x1. split; [exact E|]. split; [exact E2|]. cbn [map fst]. rewrite <- !app_assoc. rewrite Nat.add_1_r. reflexivity.
Qed.

Definition last_body sts msg := (fun '(outbound_out_shares, out_shares_hex, operations) j =>
  let* state := get sts j in
  let* out_share := vd_verify_next vdaf ctx state msg in
  match out_share with
  | inr out_share =>
    let* s := hexed (vd_encode_out_share vdaf) out_share in
    Ok (outbound_out_shares ++ [out_share], out_shares_hex ++ [s], operations ++ [op_verify_next r R j])
  | inl _ => Raise AssertionError
  end).
Lemma last_loop msg : forall rest don outs hex ops k x, length don = k ->
  foldM (last_body (don ++ rest) msg) (seq k (length rest)) (outs, hex, ops) = Ok x <->
  exists os bs, mapM (last_state vdaf ctx msg) rest = Ok os /\ mapM (vd_encode_out_share vdaf) os = Ok bs /\
    x = (outs ++ os, hex ++ map to_hex bs, ops ++ map (op_verify_next r R) (seq k (length rest))).
Proof.
  induction rest as [|st rest IH]; intros don outs hex ops k x L; cbn [length seq foldM mapM].
  - cbn [map]. split.
    + intros [= <-]. exists [], []. cbn [map]. rewrite !app_nil_r. auto.
    + intros (next & bs & [= <-] & [= <-] & ->). cbn [map]. now rewrite !app_nil_r.
  - subst k. unfold last_body at 1. rewrite get_mid. cbn [bind]. unfold last_state at 1.
    assert (IH' := fun outs hex ops => IH (don ++ [st]) outs hex ops (S (length don)) x ltac:(rewrite app_length; cbn; lia)). rewrite <- app_assoc in IH'. cbn [app] in IH'.
    split.
    + intros H. binv H. binv E. destruct x1 as [y|o]; [discriminate|]. binv E. injection E as <-.
      rewrite E0. cbn [bind]. apply hexed_Ok in E1 as (b & E1 & ->).
      apply IH' in H. destruct H as (os & bs & EN & EB & ->).
      exists (o :: os), (b :: bs). rewrite EN. cbn [bind map mapM]. rewrite E1. cbn [bind]. rewrite EB. cbn [bind].
      rewrite <- !app_assoc. auto.
    + intros (os & bs & H & EB & ->). binv H. binv E. destruct x0 as [y|o]; [discriminate|]. injection E as <-. binv H. injection H as <-.
      cbn [mapM] in EB. binv EB. binv EB. injection EB as <-.
      rewrite E0. cbn [bind]. rewrite (proj2 (hexed_Ok _ _ _) (ex_intro _ x0 (conj E1 eq_refl))). cbn [bind].
      apply IH'. exists x, x1. split; [exact E|]. split; [exact E2|]. cbn [map]. now rewrite <- !app_assoc.
Qed.

Definition round_body := (fun '(verify_states, outbound_verifier_shares, messages, rows, operations) i =>
  let* verifier_message := vd_verifier_shares_to_message vdaf ctx ap outbound_verifier_shares in
  let* message_hex := hexed (vd_encode_verifier_message vdaf) verifier_message in
  let operations := operations ++ [op_to_message r i] in
  let* (verify_states, outbound_verifier_shares, row, operations) :=
    for_range 0 N (verify_states, [], [], operations) (next_body verifier_message i) in
  Ok (verify_states, outbound_verifier_shares, messages ++ [message_hex], rows ++ [row], operations)).
Definition finish '(verify_states, outbound_verifier_shares, messages, rows, operations) :=
  let* verifier_message := vd_verifier_shares_to_message vdaf ctx ap outbound_verifier_shares in
  let* message_hex := hexed (vd_encode_verifier_message vdaf) verifier_message in
  let operations := operations ++ [op_to_message r (R - 1)] in
  let* (outs, hex, operations) := for_range 0 N ([], [], operations) (last_body verify_states verifier_message) in
  Ok (operations, rows, messages ++ [message_hex], hex, outs) : res (list operation * list (list string) * list string * list string * list Out).

Lemma rounds_gen : forall k a sts shs msgs rows ops row x, a + S k = R -> length sts = N -> mapM (vd_encode_verifier_share vdaf) shs = Ok row ->
  (let* y := foldM round_body (seq a k) (sts, shs, msgs, rows, ops) in finish y) = Ok x <->
  exists rws ms bs outs, round_messages vdaf ctx ap k sts shs = Ok (row :: rws, ms, bs) /\ verify_rounds vdaf ctx ap k sts shs = Ok outs /\
    x = (ops ++ flat_map (round_ops vdaf r) (seq a (S k)), rows ++ map (map to_hex) rws, msgs ++ map to_hex ms, map to_hex bs, outs).
Proof.
  induction k as [|k IH]; intros a sts shs msgs rows ops row x Ha LS ER; rewrite round_messages_eq; rewrite ER; cbn [bind].
  - cbn [seq foldM bind]. unfold finish. cbn [verify_rounds seq flat_map]. rewrite app_nil_r. unfold for_range, round_ops. rewrite range0, <- LS.
    assert (LL := fun msg ops x => last_loop msg sts [] [] [] ops 0 x eq_refl). cbn [app] in LL. replace (R - 1) with a by lia. split.
    + intros H. binv H. binv H. apply hexed_Ok in E0 as (b & E0 & ->). binv H. apply LL in E1 as (os & bs & EO & EB & ->). injection H as <-.
      rewrite E. cbn [bind]. rewrite E0. cbn [bind]. rewrite EO. cbn [bind]. rewrite EB. cbn [bind]. change (mapM _ sts) with (mapM (last_state vdaf ctx x0) sts). rewrite EO.
      exists [], [b], bs, os. split; [reflexivity|]. split; [reflexivity|]. cbn [map]. rewrite app_nil_r, <- app_assoc. replace (S a) with R by lia. reflexivity.
    + intros (rws & ms & bs & outs & H & V & ->). binv H. binv H. binv H. binv H. injection H as <- <- <-.
      rewrite E in V. cbn [bind] in V. change (mapM (last_state vdaf ctx x) sts = Ok outs) in V. assert (x1 = outs) by congruence. subst x1.
      rewrite E. cbn [bind]. rewrite (proj2 (hexed_Ok _ _ _) (ex_intro _ x0 (conj E0 eq_refl))). cbn [bind].
      rewrite (proj2 (LL _ _ _) (ex_intro _ outs (ex_intro _ x2 (conj V (conj E2 eq_refl))))). cbn [bind map app].
      rewrite app_nil_r, <- app_assoc. replace (S a) with R by lia. reflexivity.
  - cbn [seq foldM verify_rounds]. unfold round_body at 1. unfold for_range. rewrite range0, <- LS.
    assert (LL := fun msg ops x => next_loop msg a sts [] [] [] ops 0 x eq_refl). cbn [app] in LL.
    assert (FM : forall ops, ops ++ flat_map (round_ops vdaf r) (a :: seq (S a) (S k)) =
      ((ops ++ [op_to_message r a]) ++ map (op_verify_next r (S a)) (seq 0 (length sts))) ++ flat_map (round_ops vdaf r) (seq (S a) (S k))).
    { intros o. cbn [flat_map]. unfold round_ops at 1. rewrite range0, <- LS. rewrite <- !app_assoc. reflexivity. }
    change (a :: S a :: seq (S (S a)) k) with (a :: seq (S a) (S k)). rewrite FM.
    split.
    + intros H. binv H. binv E. binv E0. binv E0. apply hexed_Ok in E2 as (b & E2 & ->). binv E0. apply LL in E3 as (next & bs & EN & EB & ->). injection E0 as <-.
      rewrite E1. cbn [bind]. rewrite E2. cbn [bind]. rewrite EN. cbn [bind]. change (mapM _ sts) with (mapM (next_state vdaf ctx x2) sts). rewrite EN. cbn [bind].
      assert (H' := proj2 (bind_Ok _ _ _) (ex_intro _ x0 (conj E H))).
      apply (IH (S a) _ _ _ _ _ bs) in H'; [|lia|rewrite map_length; rewrite (mapM_Ok_length _ _ _ EN); exact LS|exact EB].
      destruct H' as (rws & ms & bs' & outs & EM & EV & ->). exists (map id [bs] ++ rws), (b :: ms), bs', outs. rewrite EM. cbn [bind]. split; [reflexivity|]. split; [exact EV|].
      cbn [map app id]. rewrite <- !app_assoc. reflexivity.
    + intros (rws & ms & bs & outs & H & V & ->). binv H. binv H. binv H. binv H. destruct x2 as ((rws', ms'), bs'). injection H as <- <- <-.
      rewrite E in V. cbn [bind] in V. change (mapM _ sts) with (mapM (next_state vdaf ctx x) sts) in V. rewrite E1 in V. cbn [bind] in V.
      destruct (round_messages_first _ _ _ _ _ _ _ _ _ E2) as (row' & ER' & Z). destruct rws' as [|row0 rws']; [discriminate|]. injection Z as ->.
      rewrite E. cbn [bind]. rewrite (proj2 (hexed_Ok _ _ _) (ex_intro _ x0 (conj E0 eq_refl))). cbn [bind].
      rewrite (proj2 (LL _ _ _) (ex_intro _ x1 (ex_intro _ row' (conj E1 (conj ER' eq_refl))))). cbn [bind].
      apply (IH (S a) _ _ _ _ _ row'); [lia|rewrite map_length; rewrite (mapM_Ok_length _ _ _ E1); exact LS|exact ER'|].
      exists rws', ms', bs', outs. split; [exact E2|]. split; [exact V|]. cbn [map]. rewrite <- !app_assoc. reflexivity.
Qed.

Definition gen_vec (report : Report) public inputs rows msgs outs : report_vec (vd_Measurement vdaf) :=
  let '(m, nonce, rand) := report in
  {| rv_measurement := m; rv_nonce := to_hex nonce; rv_rand := to_hex rand; rv_public_share := to_hex public;
     rv_input_shares := map to_hex inputs; rv_verifier_shares := map (map to_hex) rows; rv_verifier_messages := map to_hex msgs;
     rv_out_shares := map to_hex outs |}.

Lemma gen_report_eq nonce m : gen_report vdaf key ctx ap r nonce m =
  let* _ := check (length nonce =? vd_NONCE_SIZE vdaf) AssertionError in
  let rand := test_vec_gen_rand (vd_RAND_SIZE vdaf) in
  let* (ps, iss) := vd_shard vdaf ctx m nonce rand in
  let* public := hexed (vd_encode_public_share vdaf) ps in
  let* inputs := mapM (hexed (vd_encode_input_share vdaf)) iss in
  let* (sts, shs, ops) := foldM (fun '(verify_states, outbound_verifier_shares, operations) j =>
      let* input_share := get iss j in
      let* (state, share) := vd_verify_init vdaf key ctx j ap nonce ps input_share in
      Ok (verify_states ++ [state], outbound_verifier_shares ++ [share], operations ++ [op_verify_init r j])) (range 0 N) ([], [], [op_shard r]) in
  let* row := mapM (fun share => let* s := hexed (vd_encode_verifier_share vdaf) share in
    let* _ := check (0 <? R) IndexError in Ok s) shs in
  let* (ops, rows, msgs, hex, outs) := (let* y := foldM round_body (range 0 (R - 1)) (sts, shs, [], [row], ops) in finish y) in
  Ok (ops, {| rv_measurement := m; rv_nonce := to_hex nonce; rv_rand := to_hex rand; rv_public_share := public;
     rv_input_shares := inputs; rv_verifier_shares := rows; rv_verifier_messages := msgs; rv_out_shares := hex |}, outs).
Proof.
  unfold gen_report. apply bind_ext. intros _ _. cbv zeta. apply bind_ext. intros (ps, iss) _. apply bind_ext. intros public _. apply bind_ext. intros inputs _.
  apply bind_ext. intros ((sts, shs), ops) _. apply bind_ext. intros row _. rewrite bind_assoc.
  apply bind_ext. intros ((((sts', shs'), msgs), rows), ops') _. unfold finish. rewrite !bind_assoc. apply bind_ext. intros msg _.
  rewrite !bind_assoc. apply bind_ext. intros h _. rewrite !bind_assoc. apply bind_ext. intros ((outs, hex), ops'') _. reflexivity.
Qed.

Lemma gen_report_Ok nonce m x : 1 <= R ->
  gen_report vdaf key ctx ap r nonce m = Ok x <-> length nonce = vd_NONCE_SIZE vdaf /\
  exists public inputs rows msgs bs outs, let report := (m, nonce, test_vec_gen_rand (vd_RAND_SIZE vdaf)) in
    report_messages vdaf ctx key ap report = Ok (public, inputs, rows, msgs, bs) /\
    vdaf_outputs vdaf ctx ap key report = Ok outs /\ x = (report_operations vdaf r, gen_vec report public inputs rows msgs bs, outs).
Proof.
  intros HR. rewrite gen_report_eq. unfold report_messages, vdaf_outputs, verify_report. cbv zeta.
  assert (OPS : report_operations vdaf r = (op_shard r :: map (op_verify_init r) (range 0 N)) ++ flat_map (round_ops vdaf r) (seq 0 (S (R - 1)))).
  { unfold report_operations. rewrite (range0 R). replace (S (R - 1)) with R by lia. reflexivity. }
  rewrite OPS.
  assert (RG := fun sts shs ops row x => rounds_gen (R - 1) 0 sts shs [] [map to_hex row] ops row x ltac:(lia)). split.
  - intros H. binv H. apply check_Ok, Nat.eqb_eq in E. split; [exact E|]. binv H. destruct x1 as (ps, iss). rewrite E0. cbn [bind].
    binv H. apply hexed_Ok in E1 as (public & EP & ->). rewrite EP. cbn [bind]. rewrite mapM_hexed in H. binv H. binv E1. injection E1 as <-. rewrite E2. cbn [bind].
    rewrite init_loop in H. binv H. binv E1. injection E1 as <-. cbn [app] in H. rewrite E3. cbn [bind].
    rewrite (row_eq _ HR) in H. binv H. binv E1. injection E1 as <-. binv H. rewrite range0 in E1.
    apply RG in E1; [|rewrite map_length, (mapM_Ok_length _ _ _ E3), range0; apply seq_length|exact E4].
    destruct E1 as (rws & ms & bs & outs & EM & EV & ->). injection H as <-. rewrite EM, EV. cbn [bind].
    exists public, x2, (x4 :: rws), ms, bs, outs. auto.
  - intros (L & public & inputs & rows & msgs & bs & outs & H & V & ->). binv H. destruct x as (ps, iss). rewrite E in V. cbn [bind] in V.
    binv H. binv H. binv H. rewrite E2 in V. cbn [bind] in V. binv H. destruct x2 as ((rows', msgs'), bs'). injection H as <- <- <- <- <-.
    rewrite L, Nat.eqb_refl. cbn [check bind]. rewrite E. cbn [bind]. rewrite (proj2 (hexed_Ok _ _ _) (ex_intro _ x (conj E0 eq_refl))). cbn [bind].
    rewrite mapM_hexed, E1. cbn [bind]. rewrite init_loop, E2. cbn [bind app]. rewrite (row_eq _ HR).
    destruct (round_messages_first _ _ _ _ _ _ _ _ _ E3) as (row' & ER' & Z). destruct rows' as [|row0 rws]; [discriminate|]. injection Z as ->.
    rewrite ER'. cbn [bind]. rewrite range0.
    rewrite (proj2 (RG _ _ _ row' _ ltac:(rewrite map_length, (mapM_Ok_length _ _ _ E2), range0; apply seq_length) ER')
      (ex_intro _ rws (ex_intro _ msgs' (ex_intro _ bs' (ex_intro _ outs (conj E3 (conj V eq_refl))))))). reflexivity.
Qed.
End G.

Section GV.
Context (vdaf : Vdaf) (ctx : bytes) (ap : vd_AggParam vdaf) (HR : 1 <= vd_ROUNDS vdaf).
Notation Out := (vd_OutShare vdaf).
Notation Report := (vd_Measurement vdaf * bytes * bytes)%type.
Notation N := (vd_SHARES vdaf).
Notation key := (test_vec_gen_rand (vd_VERIFY_KEY_SIZE vdaf)).
Notation nonce := (test_vec_gen_rand (vd_NONCE_SIZE vdaf)).

Lemma length_gen_rand n : length (test_vec_gen_rand n) = n.
Proof. unfold test_vec_gen_rand. rewrite map_length, range0. apply seq_length. Qed.

Lemma gen_loop : forall ms k ops reps outss x,
  foldM (fun '(operations, reports, out_shares) '(report_index, (nonce, measurement)) =>
      let* (ops, report, outs) := gen_report vdaf key ctx ap report_index nonce measurement in
      Ok (operations ++ ops, reports ++ [report], out_shares ++ [outs]))
    (combine (seq k (length ms)) (combine (repeat nonce (length ms)) ms)) (ops, reps, outss) = Ok x <->
  exists msgs outs, mapM (report_messages vdaf ctx key ap) (gen_reports vdaf ms) = Ok msgs /\ mapM (vdaf_outputs vdaf ctx ap key) (gen_reports vdaf ms) = Ok outs /\
    x = (ops ++ flat_map (report_operations vdaf) (seq k (length ms)),
         reps ++ map (fun '(report, (public, inputs, rows, msgs, bs)) => gen_vec vdaf report public inputs rows msgs bs) (combine (gen_reports vdaf ms) msgs), outss ++ outs).
Proof.
  induction ms as [|m ms IH]; intros k ops reps outss x; cbn [length seq repeat combine foldM gen_reports map mapM flat_map].
  - split.
    + intros [= <-]. exists [], []. rewrite !app_nil_r. auto.
    + intros (? & ? & [= <-] & [= <-] & ->). cbn. now rewrite !app_nil_r.
  - split.
    + intros H. binv H. binv E. destruct x1 as ((o1, r1), u1). apply gen_report_Ok in E0 as (_ & public & inputs & rows & msgs & bs & outs & EM & EV & X); [|exact HR].
      injection X as -> -> ->. injection E as <-. apply IH in H as (msgs' & outs' & EM' & EV' & ->).
      rewrite EM, EV. cbn [bind]. fold (gen_reports vdaf ms) in *. rewrite EM', EV'. cbn [bind].
      eexists _, _. split; [reflexivity|]. split; [reflexivity|]. cbn [combine map]. rewrite <- !app_assoc. reflexivity.
    + intros (msgs & outs & H1 & H2 & ->). fold (gen_reports vdaf ms) in *. binv H1. destruct x as ((((public, inputs), rows), msgs1), bs). binv H1. injection H1 as <-.
      binv H2. binv H2. injection H2 as <-.
      rewrite (proj2 (gen_report_Ok vdaf ctx key ap k nonce m _ HR) (conj (length_gen_rand _) (ex_intro _ public (ex_intro _ inputs (ex_intro _ rows (ex_intro _ msgs1 (ex_intro _ bs
        (ex_intro _ x0 (conj E (conj E1 eq_refl)))))))))). cbn [bind].
      apply IH. exists x, x1. split; [exact E0|]. split; [exact E2|]. cbn [combine map]. rewrite <- !app_assoc. reflexivity.
Qed.

Lemma agg_loop outss : forall l aggs hex ops x, 
  foldM (fun '(agg_shares, agg_shares_hex, operations) j =>
      let* out_shares_j := mapM (fun out : list Out => get out j) outss in
      let* agg_share_j := vd_agg_init vdaf ap in
      let* agg_share_j := foldM (vd_agg_update vdaf ap) out_shares_j agg_share_j in
      let* s := hexed (vd_encode_agg_share vdaf) agg_share_j in
      Ok (agg_shares ++ [agg_share_j], agg_shares_hex ++ [s], operations ++ [op_aggregate j])) l (aggs, hex, ops) = Ok x <->
  (forall j, In j l -> exists os, mapM (fun out : list Out => get out j) outss = Ok os) /\
  exists aggs' encs, mapM (fold_outputs (vd_agg_init vdaf ap) (vd_agg_update vdaf ap) outss) l = Ok aggs' /\ mapM (vd_encode_agg_share vdaf) aggs' = Ok encs /\
    x = (aggs ++ aggs', hex ++ map to_hex encs, ops ++ map op_aggregate l).
Proof.
  assert (FO : forall j os, mapM (fun out : list Out => get out j) outss = Ok os -> forall a, foldM (vd_agg_update vdaf ap) os a =
    foldM (fun a o => let* o := get o j in vd_agg_update vdaf ap a o) outss a).
  { intros j. clear. induction outss as [|o l IH]; intros os E a; [injection E as <-; reflexivity|]. cbn [mapM] in E. binv E. binv E. injection E as <-.
    cbn [foldM]. rewrite E0. cbn [bind]. destruct (vd_agg_update vdaf ap a x); cbn [bind]; [now apply IH|reflexivity]. }
  induction l as [|j l IH]; intros aggs hex ops x; cbn [foldM mapM map].
  - split.
    + intros [= <-]. split; [intros ? []|]. exists [], []. cbn. rewrite !app_nil_r. auto.
    + intros (_ & ? & ? & [= <-] & [= <-] & ->). cbn. now rewrite !app_nil_r.
  - split.
    + intros H. binv H. binv E. binv E. binv E. binv E. injection E as <-. apply hexed_Ok in E3 as (b & E3 & ->).
      apply IH in H as (G & aggs' & encs & EA & EE & ->). split; [intros j' [<-|H']; eauto|].
      assert (EJ : fold_outputs (vd_agg_init vdaf ap) (vd_agg_update vdaf ap) outss j = Ok x3) by (unfold fold_outputs; rewrite E1; cbn [bind]; rewrite <- (FO j _ E0); exact E2).
      rewrite EJ. cbn [bind]. rewrite EA. cbn [bind].
      eexists _, (b :: encs). split; [reflexivity|]. cbn [mapM]. rewrite E3. cbn [bind]. rewrite EE. split; [reflexivity|]. cbn [map]. rewrite <- !app_assoc. reflexivity.
    + intros (G & aggs' & encs & H & EE & ->). binv H. binv H. injection H as <-. cbn [mapM] in EE. binv EE. binv EE. injection EE as <-.
      destruct (G j (or_introl eq_refl)) as (os & EO). unfold fold_outputs in E. binv E. apply bind_Ok. exists (aggs ++ [x], hex ++ [to_hex x1], ops ++ [op_aggregate j]). split.
      { rewrite EO. cbn [bind]. rewrite E3. cbn [bind]. rewrite (FO j _ EO), E. cbn [bind]. now rewrite (proj2 (hexed_Ok _ _ _) (ex_intro _ x1 (conj E1 eq_refl))). }
      apply IH. split; [intros; apply G; now right|].
      exists x0, x2. split; [exact E0|]. split; [exact E2|]. cbn [map]. rewrite <- !app_assoc. reflexivity.
Qed.

Lemma gen_Ok ms tv : gen_test_vec_for_vdaf vdaf ap ctx ms = Ok tv <->
  exists apb msgs outs aggs encs res, vd_encode_agg_param vdaf ap = Ok apb /\ mapM (report_messages vdaf ctx key ap) (gen_reports vdaf ms) = Ok msgs /\
    mapM (vdaf_outputs vdaf ctx ap key) (gen_reports vdaf ms) = Ok outs /\ fold_all N (vd_agg_init vdaf ap) (vd_agg_update vdaf ap) outs = Ok aggs /\
    mapM (vd_encode_agg_share vdaf) aggs = Ok encs /\ vd_unshard vdaf ap aggs (length ms) = Ok res /\
    tv = {| tv_operations := all_operations vdaf (length ms); tv_shares := N; tv_verify_key := to_hex key; tv_agg_param := to_hex apb; tv_ctx := to_hex ctx;
            tv_reports := map (fun '(report, (public, inputs, rows, msgs, bs)) => gen_vec vdaf report public inputs rows msgs bs) (combine (gen_reports vdaf ms) msgs);
            tv_agg_shares := map to_hex encs; tv_agg_result := Some res |}.
Proof.
  unfold gen_test_vec_for_vdaf. cbv zeta. rewrite !range0. unfold for_range. rewrite !range0.
  replace (map (fun _ : nat => nonce) (seq 0 (length ms))) with (repeat nonce (length ms)).
  2: { generalize 0. generalize nonce. induction (length ms) as [|k IH]; intros; [reflexivity|]. cbn. f_equal. apply IH. }
  unfold fold_all, all_operations. rewrite !range0. split.
  - intros H. binv H. apply hexed_Ok in E as (apb & EA & ->). binv H. apply gen_loop in E as (msgs & outs & EM & EV & ->). cbn [app] in H.
    binv H. apply agg_loop in E as (_ & aggs & encs & EF & EE & ->). cbn [app] in H. binv H. injection H as <-.
    exists apb, msgs, outs, aggs, encs, x. repeat (split; [assumption|]). rewrite <- app_assoc. reflexivity.
  - intros (apb & msgs & outs & aggs & encs & res & EA & EM & EV & EF & EE & EU & ->).
    rewrite (proj2 (hexed_Ok _ _ _) (ex_intro _ apb (conj EA eq_refl))). cbn [bind].
    rewrite (proj2 (gen_loop _ _ _ _ _ _) (ex_intro _ msgs (ex_intro _ outs (conj EM (conj EV eq_refl))))). cbn [bind app].
    assert (G : forall j, In j (seq 0 N) -> exists os, mapM (fun out : list Out => get out j) outs = Ok os).
    { intros j Hj. apply in_seq in Hj. apply mapM_total. intros o Ho. apply In_nth_error in Ho as (i & Ei).
      pose proof (mapM_Ok_length _ _ _ EV) as L. pose proof (proj1 (mapM_nth_Ok _ _ _) EV) as [_ HV].
      destruct (nth_error (gen_reports vdaf ms) i) as [rep|] eqn:Er.
      2: { apply nth_error_None in Er. assert (i < length outs) by (apply nth_error_Some; congruence). lia. }
      pose proof (vdaf_outputs_length _ _ _ _ _ _ (HV _ _ _ Er Ei)) as LO. unfold get.
      destruct (nth_error o j) as [y|] eqn:Ej; [eauto|]. apply nth_error_None in Ej. lia. }
    rewrite (proj2 (agg_loop _ _ _ _ _ _) (conj G (ex_intro _ aggs (ex_intro _ encs (conj EF (conj EE eq_refl)))))). cbn [bind app].
    rewrite EU. cbn [bind]. rewrite <- app_assoc. reflexivity.
Qed.

Context (I : vd_VerifyState vdaf -> vd_VerifierShare vdaf -> Prop) (HN : 1 <= N).

Lemma length_gen_reports ms : length (gen_reports vdaf ms) = length ms.
Proof. apply map_length. Qed.

(** Generation succeeds exactly if running the VDAF does, and records its result. *)
Theorem gen_iff ms res : CodecOk vdaf ctx key ap I (gen_reports vdaf ms) ->
  run_vdaf vdaf key ap ctx (gen_reports vdaf ms) = Ok res <-> exists tv, gen_test_vec_for_vdaf vdaf ap ctx ms = Ok tv /\ tv_agg_result tv = Some res.
Proof.
  intros CO. rewrite run_vdaf_Ok, length_gen_reports. split.
  - intros (_ & outs & aggs & EV & EF & EU).
    destruct (co_ap _ _ _ _ _ _ CO) as (apb & EA & _).
    assert (EM : exists msgs, mapM (report_messages vdaf ctx key ap) (gen_reports vdaf ms) = Ok msgs).
    { apply mapM_total. intros rep Hin. pose proof (proj1 (mapM_nth_Ok _ _ _) EV) as [L HV].
      destruct (report_messages_outputs vdaf ctx key ap I _ CO HN HR rep Hin) as [_ RB].
      apply In_nth_error in Hin as (j & Ej). destruct (nth_error outs j) as [o|] eqn:Eo.
      - exact (RB _ (HV _ _ _ Ej Eo)).
      - apply nth_error_None in Eo. assert (j < length (gen_reports vdaf ms)) by (apply nth_error_Some; congruence). lia. }
    destruct EM as (msgs & EM).
    assert (FL : Forall (fun o => length o = N) outs).
    { apply Forall_forall. intros o Ho. apply In_nth_error in Ho as (i & Ei).
      pose proof (proj1 (mapM_nth_Ok _ _ _) EV) as [L HV].
      destruct (nth_error (gen_reports vdaf ms) i) as [rep|] eqn:Er.
      2: { apply nth_error_None in Er. assert (i < length outs) by (apply nth_error_Some; congruence). lia. }
      exact (vdaf_outputs_length _ _ _ _ _ _ (HV _ _ _ Er Ei)). }
    destruct (agg_encodings vdaf ctx key ap I _ CO outs aggs EF FL) as (encs & EE).
    eexists. split; [apply gen_Ok; exists apb, msgs, outs, aggs, encs, res; repeat (split; [assumption|]); reflexivity|reflexivity].
  - intros (tv & G & T). apply gen_Ok in G as (apb & msgs & outs & aggs & encs & res' & EA & EM & EV & EF & EE & EU & ->). injection T as ->.
    split; [apply length_gen_rand|]. eauto.
Qed.

(** A generated test vector passes the check. *)
Theorem gen_passes ms tv result_eqb : CodecOk vdaf ctx key ap I (gen_reports vdaf ms) -> (forall x, result_eqb x x = true) ->
  gen_test_vec_for_vdaf vdaf ap ctx ms = Ok tv -> check_test_vector vdaf result_eqb tv = Ok tt.
Proof.
  intros CO HE G. apply gen_Ok in G as (apb & msgs & outs & aggs & encs & res & EA & EM & EV & EF & EE & EU & ->).
  set (rvs := map _ (combine (gen_reports vdaf ms) msgs)).
  assert (LM : length msgs = length ms) by (rewrite (mapM_Ok_length _ _ _ EM); apply length_gen_reports).
  assert (LR : length rvs = length ms) by (unfold rvs; rewrite map_length, combine_length, LM, length_gen_reports; apply Nat.min_id).
  assert (F2 : forall (Q : Report -> report_vec (vd_Measurement vdaf) -> Prop),
    (forall rep public inputs rows msgs bs, report_messages vdaf ctx key ap rep = Ok (public, inputs, rows, msgs, bs) -> Q rep (gen_vec vdaf rep public inputs rows msgs bs)) ->
    Forall2 Q (gen_reports vdaf ms) rvs).
  { intros Q HQ. unfold rvs. clear - EM HQ. revert msgs EM. induction (gen_reports vdaf ms) as [|rep l IH]; intros msgs EM; [injection EM as <-; constructor|].
    cbn [mapM] in EM. binv EM. binv EM. injection EM as <-. destruct x as ((((a, b), c), d), e). cbn [combine map]. constructor; [now apply HQ|now apply IH]. }
  apply (check_passes vdaf ctx key ap I (gen_reports vdaf ms)); cbn [tv_operations tv_reports tv_agg_shares tv_agg_result]; try assumption.
  - split; [apply fromhex_to_hex|]. split; [apply fromhex_to_hex|]. split.
    + exists apb. split; [apply fromhex_to_hex|]. destruct (co_ap _ _ _ _ _ _ CO) as (b & E & D). congruence.
    + cbn [tv_reports]. apply F2. intros ((m, n), rand) public inputs rows mm bs _. split; [reflexivity|]. split; apply fromhex_to_hex.
  - now rewrite LR.
  - rewrite map_length, (mapM_Ok_length _ _ _ EE). unfold fold_all in EF. rewrite (mapM_Ok_length _ _ _ EF), range0. apply seq_length.
  - split; cbn [tv_reports tv_agg_shares tv_agg_result].
    + apply F2. intros rep public inputs rows mm bs E. exists public, inputs, rows, mm, bs. split; [exact E|]. destruct rep as ((m, n), rand). cbn [gen_vec rv_public_share rv_input_shares rv_verifier_shares rv_verifier_messages rv_out_shares].
      split; [apply fromhex_to_hex|]. split; [apply mapM_fromhex|]. split; [|split].
      * intros i row Ei. exists (map to_hex row), []. rewrite nth_error_map, Ei, app_nil_r. split; [reflexivity|]. apply mapM_fromhex.
      * intros j b Ej. exists (to_hex b). rewrite nth_error_map, Ej. split; [reflexivity|]. apply fromhex_to_hex.
      * intros j b Ej. exists (to_hex b). rewrite nth_error_map, Ej. split; [reflexivity|]. apply fromhex_to_hex.
    + exists outs, aggs, encs, res, res. rewrite length_gen_reports. repeat (split; [assumption|]). split; [apply mapM_fromhex|]. auto.
Qed.
End GV.
