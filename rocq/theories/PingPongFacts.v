(** Proofs about the ping-pong functions. *)
From Verif Require Import Vdaf PingPong PingPongSpec Prio3Spec BaseFacts CommonFacts ParseFacts.
Open Scope nat_scope.

(** * The message codec *)
Definition item_bytes (item : bytes) : bytes := rev (le_bytes 4 (Z.of_nat (length item))) ++ item.
Definition fits (item : bytes) : Prop := (Z.of_nat (length item) < 2 ^ 32)%Z.

Definition pp_parse_item (encoded : bytes) : res (bytes * bytes) :=
  let* (encoded_item_len, encoded) := front 4 encoded in
  front (Z.to_nat (from_be_bytes encoded_item_len)) encoded.

Lemma pp_parse_item_Ok b x r : pp_parse_item b = Ok (x, r) <-> fits x /\ b = item_bytes x ++ r.
Proof.
  unfold pp_parse_item, fits, item_bytes; split.
  - intros H; apply bind_Ok in H as ((l & b') & H1 & H); cbv beta iota in H.
    apply front_Ok in H1 as (L1 & ->). apply front_Ok in H as (L2 & ->).
    pose proof (from_be_bytes_range l) as R. rewrite L1 in R; change (8 * Z.of_nat 4)%Z with 32%Z in R.
    split; [lia|].
    pose proof (to_be_from_be l) as T; rewrite L1 in T.
    apply to_be_bytes_Ok in T as (_ & T).
    assert (E : from_be_bytes l = Z.of_nat (length x)) by lia. rewrite E in T.
    now rewrite <- T, <- app_assoc.
  - intros (L & ->). rewrite <- app_assoc.
    assert (T : to_be_bytes (Z.of_nat (length x)) 4 = Ok (rev (le_bytes 4 (Z.of_nat (length x)))))
      by (apply to_be_bytes_ok; change (8 * Z.of_nat 4)%Z with 32%Z; lia).
    apply to_be_bytes_spec in T as (T1 & T2).
    rewrite front_app by exact T1. cbn [bind]. rewrite T2, Nat2Z.id. now rewrite front_app.
Qed.

Lemma pp_encode_ok ty items b : byte_of ty = Ok b -> Forall fits items ->
  pp_encode ty items = Ok (b ++ concat (map item_bytes items)).
Proof.
  intros B F; unfold pp_encode; rewrite B; cbn [bind]. clear B; revert b.
  induction F as [|x l Fx F IH]; intros b; cbn [foldM map concat]; [now rewrite app_nil_r|].
  rewrite to_be_bytes_ok by (change (8 * Z.of_nat 4)%Z with 32%Z; unfold fits in Fx; lia). cbn [bind].
  rewrite IH. unfold item_bytes. now rewrite !app_assoc.
Qed.

Lemma pp_encode_Ok ty items e : pp_encode ty items = Ok e ->
  exists b, byte_of ty = Ok b /\ Forall fits items /\ e = b ++ concat (map item_bytes items).
Proof.
  unfold pp_encode; intros H; apply bind_Ok in H as (b & B & H). exists b; split; [exact B|]. clear B.
  revert b e H; induction items as [|x l IH]; intros b e H; cbn [foldM] in H.
  - injection H as <-. split; [constructor|]. cbn; now rewrite app_nil_r.
  - apply bind_Ok in H as (b' & H1 & H). apply bind_Ok in H1 as (len & T & H1).
    assert (E1 : b' = (b ++ len) ++ x) by congruence. subst b'. clear H1.
    apply to_be_bytes_Ok in T as (R & ->). change (8 * Z.of_nat 4)%Z with 32%Z in R.
    apply IH in H as (F & ->). split; [constructor; [exact (proj2 R)|exact F]|].
    cbn [map concat]. unfold item_bytes. now rewrite !app_assoc.
Qed.

Lemma byte_of_0 : byte_of 0 = Ok [x00]. Proof. reflexivity. Qed.
Lemma byte_of_1 : byte_of 1 = Ok [x01]. Proof. reflexivity. Qed.
Lemma byte_of_2 : byte_of 2 = Ok [x02]. Proof. reflexivity. Qed.

Definition num_items (ty : Z) : option nat :=
  if (ty =? 0)%Z then Some 1 else if (ty =? 1)%Z then Some 2 else if (ty =? 2)%Z then Some 1 else None.

Lemma pp_decode_Ok b ty items : pp_decode b = Ok (ty, items) <->
  exists n h, num_items ty = Some n /\ byte_of ty = Ok [h] /\ length items = n /\ Forall fits items /\
    b = [h] ++ concat (map item_bytes items).
Proof.
  assert (PL := parse_loop (fun _ => pp_parse_item) (fun _ => fits) item_bytes (fun _ => pp_parse_item_Ok)).
  assert (FL : forall n bb,
    for_range 0 n ([], bb) (fun '(items, encoded) _ =>
      let* (encoded_item_len, encoded) := front 4 encoded in
      let item_len := from_be_bytes encoded_item_len in
      let* (item, encoded) := front (Z.to_nat item_len) encoded in
      Ok (items ++ [item], encoded)) =
    for_range 0 n ([], bb) (fun '(xs, b) l => let* (x, b) := pp_parse_item b in Ok (xs ++ [x], b))).
  { intros n bb; apply foldM_ext; intros (xs & bb') _ _. unfold pp_parse_item.
    rewrite bind_assoc. apply bind_ext; intros (u & v) _; reflexivity. }
  assert (FW : forall xs : list bytes, (forall (l : nat) x, nth_error xs l = Some x -> fits x) <-> Forall fits xs).
  { intros xs; rewrite Forall_forall; split.
    - intros H x I; apply In_nth_error in I as (l & I); eauto.
    - intros H l x I; apply H; eapply nth_error_In; eauto. }
  unfold pp_decode; split.
  - intros H; apply bind_Ok in H as ((hd & b') & H1 & H); cbv beta iota in H.
    apply front_Ok in H1 as (L1 & ->). destruct hd as [|h [|? ?]]; try discriminate L1.
    apply bind_Ok in H as (n & N & H). apply bind_Ok in H as ((its & rest) & H2 & H); cbv beta iota in H.
    apply bind_Ok in H as (u & C & H). apply check_Ok in C. injection H as <- <-.
    destruct rest; [|discriminate C].
    rewrite FL in H2. apply PL in H2 as (L & W & ->). rewrite app_nil_r.
    exists n, h. repeat split; try assumption.
    + unfold num_items. destruct (b2z h =? 0)%Z; [congruence|]. destruct (b2z h =? 1)%Z; [congruence|].
      destruct (b2z h =? 2)%Z; congruence.
    + pose proof (b2z_range h) as Rh. unfold byte_of.
      destruct (0 <=? b2z h)%Z eqn:E1; [|apply Z.leb_gt in E1; lia].
      destruct (b2z h <? 256)%Z eqn:E2; [|apply Z.ltb_ge in E2; lia]. cbn [andb]. now rewrite z2b_b2z.
    + now apply FW.
  - intros (n & h & N & B & L & F & ->). rewrite front_app by reflexivity. cbn [bind].
    assert (E : b2z h = ty).
    { revert B. unfold byte_of. destruct (0 <=? ty)%Z eqn:E1; [|discriminate].
      destruct (ty <? 256)%Z eqn:E2; [|discriminate]. cbn [andb]. apply Z.leb_le in E1; apply Z.ltb_lt in E2.
      intros H; assert (E : z2b ty = h) by congruence. rewrite <- E. apply b2z_z2b; lia. }
    rewrite E.
    assert (NN : (if (ty =? 0)%Z then Ok 1 else if (ty =? 1)%Z then Ok 2 else if (ty =? 2)%Z then Ok 1
                  else Raise (ValueError "unexpected message type")) = Ok n).
    { revert N; unfold num_items. destruct (ty =? 0)%Z; [congruence|]. destruct (ty =? 1)%Z; [congruence|].
      destruct (ty =? 2)%Z; congruence. }
    rewrite NN; cbn [bind].
    assert (LP := eq_trans (FL n (concat (map item_bytes items)))
      (proj2 (PL n (concat (map item_bytes items)) items [])
        (conj L (conj (proj2 (FW items) F) (eq_sym (app_nil_r _)))))).
    match goal with |- bind ?m _ = _ => replace m with (Ok (items, @nil byte) : res (list bytes * bytes)) by (symmetry; exact LP) end.
    reflexivity.
Qed.

Lemma pp_message_wf_num ty items : pp_message_wf (ty, items) <->
  (exists n, num_items ty = Some n /\ length items = n) /\ Forall fits items.
Proof.
  unfold pp_message_wf, num_items; cbn [fst snd]; split.
  - intros ([(-> & L)|[(-> & L)|(-> & L)]] & F); (split; [|exact F]); eexists; split; eauto; reflexivity.
  - intros ((n & N & L) & F); split; [|exact F].
    destruct (ty =? 0)%Z eqn:E0; [apply Z.eqb_eq in E0; left; split; [exact E0|congruence]|].
    destruct (ty =? 1)%Z eqn:E1; [apply Z.eqb_eq in E1; right; left; split; [exact E1|congruence]|].
    destruct (ty =? 2)%Z eqn:E2; [apply Z.eqb_eq in E2; right; right; split; [exact E2|congruence]|].
    discriminate N.
Qed.

Lemma num_items_byte ty n : num_items ty = Some n -> exists h, byte_of ty = Ok [h].
Proof.
  unfold num_items. destruct (ty =? 0)%Z eqn:E0; [apply Z.eqb_eq in E0; subst; eexists; reflexivity|].
  destruct (ty =? 1)%Z eqn:E1; [apply Z.eqb_eq in E1; subst; eexists; reflexivity|].
  destruct (ty =? 2)%Z eqn:E2; [apply Z.eqb_eq in E2; subst; eexists; reflexivity|]. discriminate.
Qed.

Lemma pp_codec : canonical_codec pp_message_wf (fun m => pp_encode (fst m) (snd m)) pp_decode.
Proof.
  split.
  - intros (ty & items) W. apply pp_message_wf_num in W as ((n & N & L) & F).
    destruct (num_items_byte ty n N) as (h & B). cbn [fst snd].
    eexists; split; [apply (pp_encode_ok ty items _ B F)|]. apply pp_decode_Ok. exists n, h. auto.
  - intros b (ty & items) H. apply pp_decode_Ok in H as (n & h & N & B & L & F & ->). split.
    + apply pp_message_wf_num; split; [exists n; auto|exact F].
    + cbn [fst snd]. now apply pp_encode_ok.
Qed.

Lemma pp_decode_encode ty items b n : num_items ty = Some n -> length items = n ->
  pp_encode ty items = Ok b -> pp_decode b = Ok (ty, items).
Proof.
  intros N L E. apply pp_encode_Ok in E as (h & B & F & ->).
  destruct (num_items_byte ty n N) as (h' & B'). assert (h = [h']) by congruence; subst h.
  apply pp_decode_Ok. exists n, h'. auto.
Qed.

(** * One call *)
Lemma pp_try_Ok {vdaf} (m : res (PPState vdaf)) s : pp_try m = Ok s ->
  m = Ok s \/ s = Rejected /\ exists e, m = Raise e /\ e <> OutOfFuel.
Proof.
  destruct m as [s'|e]; cbn; [intros H; left; exact H|].
  destruct e; intros H; try discriminate H; right; (split; [congruence|]); eexists; (split; [reflexivity|discriminate]).
Qed.
Lemma pp_try_nr {vdaf} (m : res (PPState vdaf)) s : s <> Rejected -> pp_try m = Ok s <-> m = Ok s.
Proof. intros N; split; [intros H; apply pp_try_Ok in H as [H|(H & _)]; [exact H|contradiction]|intros ->; reflexivity]. Qed.
Lemma pp_try_Raise {vdaf} (m : res (PPState vdaf)) e : pp_try m = Raise e -> e = OutOfFuel /\ m = Raise OutOfFuel.
Proof. destruct m as [s'|e']; cbn; [discriminate|]. destruct e'; intros H; try discriminate H; split; congruence. Qed.

Lemma as_tuple_Ok {A B} (o : A + B) x : as_tuple o = Ok x <-> o = inl x.
Proof. destruct o; cbn; split; congruence. Qed.

Section PPF.
Context (vdaf : Vdaf).
Notation State := (vd_VerifyState vdaf).
Notation VShare := (vd_VerifierShare vdaf).
Notation Out := (vd_OutShare vdaf).
Notation R := (vd_ROUNDS vdaf).

Lemma transition_Ok ctx ap shares st r s : ping_pong_transition vdaf ctx ap shares st r = Ok s <->
  exists msg emsg out,
    vd_verifier_shares_to_message vdaf ctx ap shares = Ok msg /\
    vd_encode_verifier_message vdaf msg = Ok emsg /\
    vd_verify_next vdaf ctx st msg = Ok out /\
    ((r + 1 = R /\ exists ob, pp_encode 2 [emsg] = Ok ob /\ s = FinishedWithOutbound out ob) \/
     (r + 1 <> R /\ exists st' sh' esh ob, out = inl (st', sh') /\ vd_encode_verifier_share vdaf sh' = Ok esh /\
        pp_encode 1 [emsg; esh] = Ok ob /\ s = Continued st' (r + 1) ob)).
Proof.
  unfold ping_pong_transition; split.
  - intros H. apply bind_Ok in H as (msg & M & H). apply bind_Ok in H as (em & EM & H). apply bind_Ok in H as (out & O & H).
    exists msg, em, out. repeat split; try assumption.
    destruct (r + 1 =? R) eqn:E; [apply Nat.eqb_eq in E|apply Nat.eqb_neq in E].
    + left; split; [exact E|]. apply bind_Ok in H as (ob & OB & H). exists ob; split; [exact OB|congruence].
    + right; split; [exact E|]. apply bind_Ok in H as ((st' & sh') & T & H); cbv beta iota in H. apply as_tuple_Ok in T.
      apply bind_Ok in H as (esh & ES & H). apply bind_Ok in H as (ob & OB & H).
      exists st', sh', esh, ob. repeat split; try assumption. congruence.
  - intros (msg & em & out & -> & EM & O & D). cbn [bind]. rewrite EM; cbn [bind]. rewrite O; cbn [bind].
    destruct D as [(E & ob & OB & ->)|(E & st' & sh' & esh & ob & -> & ES & OB & ->)].
    + apply Nat.eqb_eq in E; rewrite E. now rewrite OB.
    + apply Nat.eqb_neq in E; rewrite E. cbn [bind as_tuple]. rewrite ES; cbn [bind]. now rewrite OB.
Qed.

Lemma transition_nr ctx ap shares st r : ping_pong_transition vdaf ctx ap shares st r <> Ok Rejected.
Proof.
  intros H; apply transition_Ok in H as (msg & em & out & _ & _ & _ & [(_ & ob & _ & H)|(_ & st' & sh' & es & ob & _ & _ & _ & H)]);
    discriminate H.
Qed.

Lemma leader_init_Ok key ctx agg_param nonce ps is s : s <> Rejected ->
  ping_pong_leader_init vdaf key ctx agg_param nonce ps is = Ok s <->
  exists ap p i st sh esh ob,
    vd_decode_agg_param vdaf agg_param = Ok ap /\ vd_decode_public_share vdaf ps = Ok p /\
    vd_decode_input_share vdaf 0 is = Ok i /\
    vd_verify_init vdaf key ctx 0 ap nonce p i = Ok (st, sh) /\
    vd_encode_verifier_share vdaf sh = Ok esh /\ pp_encode 0 [esh] = Ok ob /\ s = Continued st 0 ob.
Proof.
  intros N. unfold ping_pong_leader_init. rewrite (pp_try_nr _ _ N). split.
  - intros H. apply bind_Ok in H as (ap & A & H). apply bind_Ok in H as (p & P & H). apply bind_Ok in H as (i & I & H).
    apply bind_Ok in H as ((st & sh) & VI & H); cbv beta iota in H. apply bind_Ok in H as (esh & ES & H). apply bind_Ok in H as (ob & OB & H).
    exists ap, p, i, st, sh, esh, ob. repeat split; try assumption; congruence.
  - intros (ap & p & i & st & sh & esh & ob & -> & P & I & VI & ES & OB & ->). cbn [bind].
    rewrite P; cbn [bind]. rewrite I; cbn [bind]. rewrite VI; cbn [bind]. rewrite ES; cbn [bind]. now rewrite OB.
Qed.

Lemma helper_init_Ok key ctx agg_param nonce ps is inbound s : s <> Rejected ->
  ping_pong_helper_init vdaf key ctx agg_param nonce ps is inbound = Ok s <->
  exists ap p i st sh items es d,
    vd_decode_agg_param vdaf agg_param = Ok ap /\ vd_decode_public_share vdaf ps = Ok p /\
    vd_decode_input_share vdaf 1 is = Ok i /\
    vd_verify_init vdaf key ctx 1 ap nonce p i = Ok (st, sh) /\
    pp_decode inbound = Ok (0%Z, items) /\ get items 0 = Ok es /\
    vd_decode_verifier_share vdaf st es = Ok d /\
    ping_pong_transition vdaf ctx ap [d; sh] st 0 = Ok s.
Proof.
  intros N. unfold ping_pong_helper_init. rewrite (pp_try_nr _ _ N). split.
  - intros H. apply bind_Ok in H as (ap & A & H). apply bind_Ok in H as (p & P & H). apply bind_Ok in H as (i & I & H).
    apply bind_Ok in H as ((st & sh) & VI & H); cbv beta iota in H. apply bind_Ok in H as ((ty & items) & D & H); cbv beta iota in H.
    destruct (ty =? 0)%Z eqn:T; cbn [negb] in H; [|congruence]. apply Z.eqb_eq in T; subst ty.
    apply bind_Ok in H as (es & G & H). apply bind_Ok in H as (d & DV & H). cbv zeta in H. apply bind_Ok in H as (ap' & A' & H).
    assert (ap' = ap) by congruence; subst ap'.
    exists ap, p, i, st, sh, items, es, d. repeat split; assumption.
  - intros (ap & p & i & st & sh & items & es & d & A & P & I & VI & D & G & DV & T). rewrite A. cbn [bind].
    rewrite P; cbn [bind]. rewrite I; cbn [bind]. rewrite VI; cbn [bind]. rewrite D; cbn [bind negb Z.eqb].
    rewrite G; cbn [bind]. rewrite DV; cbn [bind]. cbv zeta. exact T.
Qed.

Lemma continued_Ok b ctx agg_param s inbound s' : s' <> Rejected ->
  ping_pong_continued vdaf b ctx agg_param s inbound = Ok s' <->
  exists st r ob ty items em msg out,
    s = Continued st r ob /\ pp_decode inbound = Ok (ty, items) /\ get items 0 = Ok em /\
    vd_decode_verifier_message vdaf st em = Ok msg /\ vd_verify_next vdaf ctx st msg = Ok out /\
    ((ty = 1%Z /\ r + 1 < R /\ exists st' sh' es d ap, out = inl (st', sh') /\ get items 1 = Ok es /\
        vd_decode_verifier_share vdaf st' es = Ok d /\ vd_decode_agg_param vdaf agg_param = Ok ap /\
        ping_pong_transition vdaf ctx ap (if b then [sh'; d] else [d; sh']) st' (r + 1) = Ok s') \/
     (ty = 2%Z /\ r + 1 = R /\ s' = Finished out)).
Proof.
  intros N. unfold ping_pong_continued. rewrite (pp_try_nr _ _ N). split.
  - intros H. destruct s as [|st r ob|o|o ob|]; try discriminate H.
    apply bind_Ok in H as ((ty & items) & D & H); cbv beta iota in H.
    destruct (ty =? 0)%Z eqn:T0; [congruence|]. apply bind_Ok in H as (em & G & H).
    apply bind_Ok in H as (msg & M & H). apply bind_Ok in H as (out & O & H).
    exists st, r, ob, ty, items, em, msg, out. repeat (split; [assumption || reflexivity|]).
    destruct ((r + 1 <? R) && (ty =? 1)%Z) eqn:C1.
    + apply andb_true_iff in C1 as (C1 & T1). apply Nat.ltb_lt in C1; apply Z.eqb_eq in T1.
      left; split; [exact T1|]; split; [exact C1|].
      apply bind_Ok in H as ((st' & sh') & T & H); cbv beta iota in H. apply as_tuple_Ok in T.
      apply bind_Ok in H as (es & GE & H). apply bind_Ok in H as (d & DV & H). cbv zeta in H. apply bind_Ok in H as (ap & A & H).
      exists st', sh', es, d, ap. repeat (split; [assumption|]). destruct b; exact H.
    + destruct ((r + 1 =? R) && (ty =? 2)%Z) eqn:C2; [|congruence].
      apply andb_true_iff in C2 as (C2 & T2). apply Nat.eqb_eq in C2; apply Z.eqb_eq in T2.
      right; repeat split; try assumption; congruence.
  - intros (st & r & ob & ty & items & em & msg & out & -> & D & G & M & O & C). rewrite D; cbn [bind].
    destruct C as [(-> & L & st' & sh' & es & d & ap & -> & GE & DV & A & T)|(-> & L & ->)]; cbn [Z.eqb].
    + rewrite G; cbn [bind]. rewrite M; cbn [bind]. rewrite O; cbn [bind].
      apply Nat.ltb_lt in L; rewrite L. cbn [andb Z.eqb Pos.eqb as_tuple bind].
      rewrite GE; cbn [bind]. rewrite DV; cbn [bind]. cbv zeta. rewrite A; cbn [bind]. destruct b; exact T.
    + rewrite G; cbn [bind]. rewrite M; cbn [bind]. rewrite O; cbn [bind].
      cbn [andb Z.eqb Pos.eqb]. rewrite andb_false_r. apply Nat.eqb_eq in L; rewrite L. reflexivity.
Qed.

Lemma continued_type0 b ctx agg_param s inbound items :
  pp_decode inbound = Ok (0%Z, items) -> ping_pong_continued vdaf b ctx agg_param s inbound = Ok Rejected.
Proof. intros D; unfold ping_pong_continued. destruct s; try reflexivity. rewrite D. reflexivity. Qed.

Lemma foldM_Raise {A B} (P : exn -> Prop) (f : B -> A -> res B) :
  (forall acc x e, f acc x = Raise e -> P e) -> forall l acc e, foldM f l acc = Raise e -> P e.
Proof.
  intros Hf; induction l as [|x l IH]; intros acc e H; cbn [foldM] in H; [discriminate|].
  apply bind_Raise in H as [H|(acc' & _ & H)]; eauto.
Qed.

Lemma pp_decode_no_fuel inbound e : pp_decode inbound = Raise e -> e <> OutOfFuel.
Proof.
  unfold pp_decode; intros H. apply bind_Raise in H as [H|((hd & b) & _ & H)].
  { unfold front in H. destruct (1 <=? length inbound); cbn in H; [discriminate|congruence]. }
  cbv beta iota in H. destruct hd as [|h [|? ?]]; try congruence.
  apply bind_Raise in H as [H|(n & _ & H)].
  { destruct (b2z h =? 0)%Z; [discriminate|]. destruct (b2z h =? 1)%Z; [discriminate|]. destruct (b2z h =? 2)%Z; [discriminate|congruence]. }
  apply bind_Raise in H as [H|((its & rest) & _ & H)].
  { revert H; apply (foldM_Raise (fun e => e <> OutOfFuel)). clear; intros (xs & bb) _ e H.
    cbv beta iota in H. apply bind_Raise in H as [H|((u & v) & _ & H)].
    { unfold front in H. destruct (4 <=? length bb); cbn in H; [discriminate|congruence]. }
    cbv beta iota zeta in H. apply bind_Raise in H as [H|((u' & v') & _ & H)]; [|discriminate H].
    unfold front in H. destruct (_ <=? length v); cbn in H; [discriminate|congruence]. }
  cbv beta iota in H. apply bind_Raise in H as [H|(u & _ & H)]; [|discriminate H].
  unfold check in H. destruct (_ =? _); congruence.
Qed.

Lemma continued_malformed b ctx agg_param s inbound e :
  pp_decode inbound = Raise e -> ping_pong_continued vdaf b ctx agg_param s inbound = Ok Rejected.
Proof.
  intros D; pose proof (pp_decode_no_fuel _ _ D) as N. unfold ping_pong_continued. destruct s; try reflexivity.
  rewrite D. cbn. destruct e; try reflexivity. contradiction.
Qed.
Lemma continued_other b ctx agg_param s inbound : (forall st r ob, s <> Continued st r ob) ->
  ping_pong_continued vdaf b ctx agg_param s inbound = Ok Rejected.
Proof. intros N; destruct s; try reflexivity. exfalso; eapply N; reflexivity. Qed.
Lemma helper_init_type key ctx agg_param nonce ps is inbound ty items s : pp_decode inbound = Ok (ty, items) -> ty <> 0%Z ->
  ping_pong_helper_init vdaf key ctx agg_param nonce ps is inbound = Ok s -> s = Rejected.
Proof.
  intros D T H. destruct s as [| | | |] eqn:E; try reflexivity;
    (apply helper_init_Ok in H; [|discriminate]; destruct H as (ap & p & i & st & sh & its & es & d & _ & _ & _ & _ & D' & _); congruence).
Qed.
Lemma helper_init_malformed key ctx agg_param nonce ps is inbound e s : pp_decode inbound = Raise e ->
  ping_pong_helper_init vdaf key ctx agg_param nonce ps is inbound = Ok s -> s = Rejected.
Proof.
  intros D H. destruct s as [| | | |] eqn:E; try reflexivity;
    (apply helper_init_Ok in H; [|discriminate]; destruct H as (ap & p & i & st & sh & its & es & d & _ & _ & _ & _ & D' & _); congruence).
Qed.

Lemma leader_init_Raise key ctx agg_param nonce ps is e :
  ping_pong_leader_init vdaf key ctx agg_param nonce ps is = Raise e -> e = OutOfFuel.
Proof. intros H; apply pp_try_Raise in H; tauto. Qed.
Lemma helper_init_Raise key ctx agg_param nonce ps is inbound e :
  ping_pong_helper_init vdaf key ctx agg_param nonce ps is inbound = Raise e -> e = OutOfFuel.
Proof. intros H; apply pp_try_Raise in H; tauto. Qed.
Lemma continued_Raise b ctx agg_param s inbound e :
  ping_pong_continued vdaf b ctx agg_param s inbound = Raise e -> e = OutOfFuel.
Proof. intros H; apply pp_try_Raise in H; tauto. Qed.

(** * Histories *)
Notation holds := (pp_progress vdaf).

Lemma chain_snoc ctx st0 st r msg out :
  (r = 0 /\ st = st0 \/ exists msgs sh, length msgs = r /\ verify_chain vdaf ctx st0 msgs (inl (st, sh))) ->
  vd_verify_next vdaf ctx st msg = Ok out ->
  exists msgs, length msgs = r + 1 /\ verify_chain vdaf ctx st0 msgs out.
Proof.
  intros [(-> & ->)|(msgs & sh & L & C)] N.
  - exists [msg]; split; [reflexivity|now constructor].
  - exists (msgs ++ [msg]); split; [rewrite app_length; cbn; lia|econstructor; eassumption].
Qed.

Lemma transition_holds b ctx ap shares st r s st0 : Nat.even r = negb b -> r < R ->
  (r = 0 /\ st = st0 \/ exists msgs sh, length msgs = r /\ verify_chain vdaf ctx st0 msgs (inl (st, sh))) ->
  ping_pong_transition vdaf ctx ap shares st r = Ok s -> holds ctx b st0 s.
Proof.
  intros P L C H. apply transition_Ok in H as (msg & em & out & _ & _ & O & D).
  destruct (chain_snoc _ _ _ _ _ _ C O) as (msgs & LM & CM).
  destruct D as [(E & ob & _ & ->)|(E & st' & sh' & es & ob & -> & _ & _ & ->)]; cbn [pp_progress].
  - exists msgs; split; [lia|exact CM].
  - split; [|split].
    + replace (r + 1) with (S r) by lia. rewrite Nat.even_succ. unfold Nat.odd. rewrite P. now destruct b.
    + lia.
    + right. exists msgs, sh'. split; assumption.
Qed.

Lemma history_chain key ctx agg_param nonce ps is b s : 1 <= R ->
  pp_history vdaf ctx key agg_param nonce ps is b s -> s <> Rejected ->
  exists ap p i st0 sh0,
    vd_decode_agg_param vdaf agg_param = Ok ap /\ vd_decode_public_share vdaf ps = Ok p /\
    vd_decode_input_share vdaf (if b then 0 else 1) is = Ok i /\
    vd_verify_init vdaf key ctx (if b then 0 else 1) ap nonce p i = Ok (st0, sh0) /\
    holds ctx b st0 s.
Proof.
  intros HR H; induction H as [s -> H|s inbound -> H|s inbound s' Hs IH H]; intros N.
  - apply leader_init_Ok in H as (ap & p & i & st & sh & es & ob & A & P & I & VI & _ & _ & ->); [|exact N].
    exists ap, p, i, st, sh. repeat (split; [assumption|]). cbn [pp_progress]. split; [reflexivity|]. split; [lia|]. now left.
  - apply helper_init_Ok in H as (ap & p & i & st & sh & items & es & d & A & P & I & VI & _ & _ & _ & T); [|exact N].
    exists ap, p, i, st, sh. repeat (split; [assumption|]).
    eapply transition_holds; [| | |exact T]; [reflexivity|lia|now left].
  - apply continued_Ok in H as (st & r & ob & ty & items & em & msg & out & -> & D & _ & _ & O & C); [|exact N].
    destruct IH as (ap & p & i & st0 & sh0 & A & P & I & VI & Ev & LR & CH); [discriminate|].
    exists ap, p, i, st0, sh0. repeat (split; [assumption|]).
    destruct (chain_snoc _ _ _ _ _ _ CH O) as (msgs & LM & CM).
    destruct C as [(_ & L & st' & sh' & es & d & ap' & -> & _ & _ & _ & T)|(_ & L & ->)].
    + eapply transition_holds; [| | |exact T].
      * replace (r + 1) with (S r) by lia. rewrite Nat.even_succ. unfold Nat.odd. now rewrite Ev.
      * lia.
      * right; exists msgs, sh'; auto.
    + cbn [pp_progress]. exists msgs; split; [lia|exact CM].
Qed.

(** * The ping-pong protocol equals the broadcast protocol *)
Context (ctx : bytes) (ap : vd_AggParam vdaf).

Definition bc_tail (k : nat) st0 st1 msg : res (Out * Out) :=
  let* r0 := vd_verify_next vdaf ctx st0 msg in
  let* r1 := vd_verify_next vdaf ctx st1 msg in
  match k, r0, r1 with
  | O, inr o0, inr o1 => Ok (o0, o1)
  | S k, inl (st0, s0), inl (st1, s1) => broadcast vdaf ctx ap k st0 s0 st1 s1
  | _, _, _ => Raise AssertionError
  end.

Lemma broadcast_tail k st0 s0 st1 s1 : broadcast vdaf ctx ap k st0 s0 st1 s1 =
  let* msg := vd_verifier_shares_to_message vdaf ctx ap [s0; s1] in bc_tail k st0 st1 msg.
Proof. destruct k; reflexivity. Qed.

Lemma bc_tail_O st0 st1 msg o0 o1 : bc_tail 0 st0 st1 msg = Ok (o0, o1) <->
  vd_verify_next vdaf ctx st0 msg = Ok (inr o0) /\ vd_verify_next vdaf ctx st1 msg = Ok (inr o1).
Proof.
  unfold bc_tail; split.
  - intros H. apply bind_Ok in H as (r0 & N0 & H). apply bind_Ok in H as (r1 & N1 & H).
    destruct r0, r1; try discriminate H. rewrite N0, N1. split; congruence.
  - intros (-> & ->). reflexivity.
Qed.
Lemma bc_tail_S k st0 st1 msg o : bc_tail (S k) st0 st1 msg = Ok o <->
  exists st0' s0' st1' s1' msg', vd_verify_next vdaf ctx st0 msg = Ok (inl (st0', s0')) /\
    vd_verify_next vdaf ctx st1 msg = Ok (inl (st1', s1')) /\
    vd_verifier_shares_to_message vdaf ctx ap [s0'; s1'] = Ok msg' /\ bc_tail k st0' st1' msg' = Ok o.
Proof.
  unfold bc_tail at 1; split.
  - intros H. apply bind_Ok in H as (r0 & N0 & H). apply bind_Ok in H as (r1 & N1 & H).
    destruct r0 as [(st0' & s0')|], r1 as [(st1' & s1')|]; try discriminate H.
    rewrite broadcast_tail in H. apply bind_Ok in H as (msg' & M & H).
    exists st0', s0', st1', s1', msg'. auto.
  - intros (st0' & s0' & st1' & s1' & msg' & -> & -> & M & H). cbn [bind].
    rewrite broadcast_tail, M. exact H.
Qed.

Context (I : State -> VShare -> State -> VShare -> Prop) (EX : Exchangeable vdaf ctx ap I).
Context (agg_param : bytes) (AP : vd_decode_agg_param vdaf agg_param = Ok ap).

(** What a party holds after processing message [msg] of round [r]. *)
Definition sent (st : State) (msg : vd_VerifierMessage vdaf) (r : nat) (s : PPState vdaf) : Prop :=
  exists out em, vd_verify_next vdaf ctx st msg = Ok out /\ vd_encode_verifier_message vdaf msg = Ok em /\
  ((r + 1 = R /\ exists ob, pp_encode 2 [em] = Ok ob /\ s = FinishedWithOutbound out ob) \/
   (r + 1 <> R /\ exists st' sh' esh ob, out = inl (st', sh') /\ vd_encode_verifier_share vdaf sh' = Ok esh /\
        pp_encode 1 [em; esh] = Ok ob /\ s = Continued st' (r + 1) ob)).

Lemma transition_sent shares st r s msg : vd_verifier_shares_to_message vdaf ctx ap shares = Ok msg ->
  ping_pong_transition vdaf ctx ap shares st r = Ok s <-> sent st msg r s.
Proof.
  intros M; rewrite transition_Ok; unfold sent; split.
  - intros (msg' & em & out & M' & EM & O & D). assert (msg' = msg) by congruence; subst msg'. exists out, em. auto.
  - intros (out & em & O & EM & D). exists msg, em, out. auto.
Qed.

Lemma sent_exists st msg r out em : vd_verify_next vdaf ctx st msg = Ok out -> vd_encode_verifier_message vdaf msg = Ok em ->
  fits em ->
  (r + 1 = R \/ exists st' sh' esh, out = inl (st', sh') /\ vd_encode_verifier_share vdaf sh' = Ok esh /\ fits esh) ->
  exists s, sent st msg r s.
Proof.
  intros O EM FE D. destruct (Nat.eq_dec (r + 1) R) as [E|E].
  - eexists; exists out, em. split; [exact O|]. split; [exact EM|]. left; split; [exact E|].
    eexists; split; [apply pp_encode_ok; [exact byte_of_2|constructor; [exact FE|constructor]]|reflexivity].
  - destruct D as [D|(st' & sh' & esh & -> & ES & FS)]; [contradiction|].
    eexists; exists (inl (st', sh')), em. split; [exact O|]. split; [exact EM|]. right; split; [exact E|].
    exists st', sh', esh. eexists. split; [reflexivity|]. split; [exact ES|].
    split; [apply pp_encode_ok; [exact byte_of_1|constructor; [exact FE|constructor; [exact FS|constructor]]]|reflexivity].
Qed.

Notation outputs := (pp_outputs vdaf).

Definition pair_of {A} (b : bool) (receiver sender : A) : A * A := if b then (receiver, sender) else (sender, receiver).

(** The network delivers the message of the party [sender]. *)
Lemma drive_step b fuel receiver sender ob :
  (forall st r o, sender = Continued st r o -> ob = o) -> (forall out o, sender = FinishedWithOutbound out o -> ob = o) ->
  ((exists st r, sender = Continued st r ob) \/ (exists out, sender = FinishedWithOutbound out ob)) ->
  pp_drive vdaf ctx agg_param (S fuel) b (fst (pair_of b receiver sender)) (snd (pair_of b receiver sender)) =
  let* receiver' := ping_pong_continued vdaf b ctx agg_param receiver ob in
  pp_drive vdaf ctx agg_param fuel (negb b) (fst (pair_of b receiver' sender)) (snd (pair_of b receiver' sender)).
Proof.
  intros _ _ [(st & r & ->)|(out & ->)]; destruct b; reflexivity.
Qed.

Lemma drive_rejected b fuel receiver : 
  forall o0 o1, ~ outputs (pp_drive vdaf ctx agg_param fuel b (fst (pair_of b receiver Rejected)) (snd (pair_of b receiver Rejected))) o0 o1.
Proof.
  intros o0 o1 (L & H & E & A & B). destruct fuel, b; cbn in E; injection E as <- <-; discriminate.
Qed.
Lemma drive_rejected' b fuel sender : 
  forall o0 o1, ~ outputs (pp_drive vdaf ctx agg_param fuel (negb b) (fst (pair_of b Rejected sender)) (snd (pair_of b Rejected sender))) o0 o1.
Proof.
  intros o0 o1 (L & H & E & A & B). destruct fuel, b; cbn in E; injection E as <- <-; discriminate.
Qed.

Definition sel {A} (b : bool) (x0 x1 : A) : A := if b then x0 else x1.

Lemma drive_correct k : forall b r st0 s0 st1 s1 ob0 msg sender o0 o1,
  r + 1 + k = R -> I st0 s0 st1 s1 ->
  vd_verifier_shares_to_message vdaf ctx ap [s0; s1] = Ok msg ->
  sent (sel b st1 st0) msg r sender ->
  outputs (pp_drive vdaf ctx agg_param (S k) b
    (fst (pair_of b (Continued (sel b st0 st1) r ob0) sender)) (snd (pair_of b (Continued (sel b st0 st1) r ob0) sender))) o0 o1 <->
  bc_tail k st0 st1 msg = Ok (o0, o1).
Proof.
  induction k as [|k IH]; intros b r st0 s0 st1 s1 ob0 msg sender o0 o1 E Inv M (out & em & NS & EM & D).
  - (* the last message *)
    destruct D as [(_ & ob & OB & ->)|(C & _)]; [|lia].
    rewrite (drive_step b 0 _ _ ob) by first [intros; congruence|right; eexists; reflexivity].
    rewrite bc_tail_O.
    assert (DM : vd_decode_verifier_message vdaf (sel b st0 st1) em = Ok msg).
    { destruct b; cbn [sel].
      - destruct (ex_msg0 _ _ _ _ EX _ _ _ _ _ Inv M) as (em' & E1 & E2 & _). congruence.
      - destruct (ex_msg1 _ _ _ _ EX _ _ _ _ _ Inv M) as (em' & E1 & E2 & _). congruence. }
    assert (DP : pp_decode ob = Ok (2%Z, [em])) by (eapply pp_decode_encode; [reflexivity|reflexivity|exact OB]).
    destruct (ping_pong_continued vdaf b ctx agg_param (Continued (sel b st0 st1) r ob0) ob) as [s'|e] eqn:C; cbn [bind].
    + destruct (vd_verify_next vdaf ctx (sel b st0 st1) msg) as [out'|e'] eqn:NR.
      * assert (C' : ping_pong_continued vdaf b ctx agg_param (Continued (sel b st0 st1) r ob0) ob = Ok (Finished out')).
        { apply continued_Ok; [discriminate|]. exists (sel b st0 st1), r, ob0, 2%Z, [em], em, msg, out'.
          repeat (split; [assumption || reflexivity|]). right. repeat split; lia. }
        assert (s' = Finished out') by congruence; subst s'. clear C.
        destruct b; cbn [sel pair_of negb pp_drive fst snd] in *.
        -- unfold pp_outputs. split.
           ++ intros (L & H & Eq & A & B). injection Eq as <- <-. cbn in A, B.
              destruct out' as [|o'], out as [|o]; try discriminate. rewrite NR, NS. split; congruence.
           ++ intros (A & B). assert (out' = inr o0) by congruence; assert (out = inr o1) by congruence; subst.
              do 2 eexists; split; [reflexivity|]. split; reflexivity.
        -- unfold pp_outputs. split.
           ++ intros (L & H & Eq & A & B). injection Eq as <- <-. cbn in A, B.
              destruct out' as [|o'], out as [|o]; try discriminate. rewrite NR, NS. split; congruence.
           ++ intros (A & B). assert (out' = inr o1) by congruence; assert (out = inr o0) by congruence; subst.
              do 2 eexists; split; [reflexivity|]. split; reflexivity.
      * assert (s' = Rejected).
        { destruct s'; try reflexivity;
            (apply continued_Ok in C; [|discriminate];
             destruct C as (st & r' & ob' & ty & items & em' & msg' & out' & S1 & D1 & G1 & M1 & N1 & _);
             assert (st = sel b st0 st1) by congruence; assert (items = [em]) by congruence; subst;
             change (get [em] 0) with (Ok em) in G1; congruence). }
        subst s'. split; [intros H; exfalso; exact (drive_rejected' b 0 _ _ _ H)|].
        intros (A & B); destruct b; cbn [sel] in NR; congruence.
    + split; [intros (L & H & Eq & _); discriminate|]. intros (A & B). exfalso.
      assert (NR : exists o', vd_verify_next vdaf ctx (sel b st0 st1) msg = Ok o') by (destruct b; eauto).
      destruct NR as (out' & NR).
      assert (C' : ping_pong_continued vdaf b ctx agg_param (Continued (sel b st0 st1) r ob0) ob = Ok (Finished out')).
      { apply continued_Ok; [discriminate|]. exists (sel b st0 st1), r, ob0, 2%Z, [em], em, msg, out'.
        repeat (split; [assumption || reflexivity|]). right. repeat split; lia. }
      congruence.
  - destruct D as [(C & _)|(_ & stS & shS & es & ob & -> & ES & OB & ->)]; [lia|].
    rewrite (drive_step b (S k) _ _ ob) by first [intros; congruence|left; do 2 eexists; reflexivity].
    rewrite bc_tail_S.
    assert (DM : vd_decode_verifier_message vdaf (sel b st0 st1) em = Ok msg).
    { destruct b; cbn [sel].
      - destruct (ex_msg0 _ _ _ _ EX _ _ _ _ _ Inv M) as (em' & E1 & E2 & _). congruence.
      - destruct (ex_msg1 _ _ _ _ EX _ _ _ _ _ Inv M) as (em' & E1 & E2 & _). congruence. }
    assert (DP : pp_decode ob = Ok (1%Z, [em; es])) by (eapply pp_decode_encode; [reflexivity|reflexivity|exact OB]).
    (* the receiver's side *)
    assert (INV : forall stR shR, vd_verify_next vdaf ctx (sel b st0 st1) msg = Ok (inl (stR, shR)) ->
      I (sel b stR stS) (sel b shR shS) (sel b stS stR) (sel b shS shR)).
    { intros stR shR NR. destruct b; cbn [sel] in *; eapply (ex_next _ _ _ _ EX); eassumption. }
    assert (DS : forall stR shR, vd_verify_next vdaf ctx (sel b st0 st1) msg = Ok (inl (stR, shR)) ->
      vd_decode_verifier_share vdaf stR es = Ok shS).
    { intros stR shR NR. pose proof (INV _ _ NR) as Inv'. destruct b; cbn [sel] in Inv'.
      - destruct (ex_share1 _ _ _ _ EX _ _ _ _ Inv') as (es' & E1 & E2 & _). congruence.
      - destruct (ex_share0 _ _ _ _ EX _ _ _ _ Inv') as (es' & E1 & E2 & _). congruence. }
    assert (STEP : forall s', s' <> Rejected ->
      ping_pong_continued vdaf b ctx agg_param (Continued (sel b st0 st1) r ob0) ob = Ok s' <->
      exists stR shR msg', vd_verify_next vdaf ctx (sel b st0 st1) msg = Ok (inl (stR, shR)) /\
        vd_verifier_shares_to_message vdaf ctx ap [sel b shR shS; sel b shS shR] = Ok msg' /\ sent stR msg' (r + 1) s').
    { intros s' NRj. rewrite (continued_Ok _ _ _ _ _ _ NRj). split.
      - intros (st & r' & ob' & ty & items & em' & msg' & out' & S1 & D1 & G1 & M1 & N1 & CC).
        assert (st = sel b st0 st1) by congruence; assert (r' = r) by congruence; assert (items = [em; es]) by congruence;
          assert (ty = 1%Z) by congruence; subst.
        change (get [em; es] 0) with (Ok em) in G1. change (get [em; es] 1) with (Ok es) in CC.
        assert (em' = em) by congruence; subst em'. assert (msg' = msg) by congruence; subst msg'.
        destruct CC as [(_ & _ & stR & shR & es' & d & ap' & -> & GE & DV & A & T)|(F & _)]; [|discriminate F].
        assert (es' = es) by congruence; subst es'. assert (ap' = ap) by congruence; subst ap'.
        assert (d = shS) by (pose proof (DS _ _ N1); congruence); subst d.
        assert (SH : (if b then [shR; shS] else [shS; shR]) = [sel b shR shS; sel b shS shR]) by (destruct b; reflexivity).
        rewrite SH in T.
        pose proof T as T'. apply transition_Ok in T' as (msg' & _ & _ & M' & _).
        exists stR, shR, msg'. split; [exact N1|]. split; [exact M'|]. now apply (transition_sent _ _ _ _ _ M').
      - intros (stR & shR & msg' & NR & M' & SS).
        exists (sel b st0 st1), r, ob0, 1%Z, [em; es], em, msg, (inl (stR, shR)).
        repeat (split; [assumption || reflexivity|]). left. split; [reflexivity|]. split; [lia|].
        exists stR, shR, es, shS, ap. repeat (split; [reflexivity || assumption || (eapply DS; eassumption)|]).
        assert (SH : (if b then [shR; shS] else [shS; shR]) = [sel b shR shS; sel b shS shR]) by (destruct b; reflexivity).
        rewrite SH. now apply (transition_sent _ _ _ _ _ M'). }
    (* the direct execution, in the same terms *)
    assert (BC : (exists st0' s0' st1' s1' msg', vd_verify_next vdaf ctx st0 msg = Ok (inl (st0', s0')) /\
        vd_verify_next vdaf ctx st1 msg = Ok (inl (st1', s1')) /\
        vd_verifier_shares_to_message vdaf ctx ap [s0'; s1'] = Ok msg' /\ bc_tail k st0' st1' msg' = Ok (o0, o1)) <->
      exists stR shR msg', vd_verify_next vdaf ctx (sel b st0 st1) msg = Ok (inl (stR, shR)) /\
        vd_verifier_shares_to_message vdaf ctx ap [sel b shR shS; sel b shS shR] = Ok msg' /\
        bc_tail k (sel b stR stS) (sel b stS stR) msg' = Ok (o0, o1)).
    { destruct b; cbn [sel] in *; split.
      - intros (st0' & s0' & st1' & s1' & msg' & N0 & N1 & M' & B). rewrite NS in N1; injection N1 as <- <-.
        exists st0', s0', msg'. auto.
      - intros (stR & shR & msg' & NR & M' & B). exists stR, shR, stS, shS, msg'. auto.
      - intros (st0' & s0' & st1' & s1' & msg' & N0 & N1 & M' & B). rewrite NS in N0; injection N0 as <- <-.
        exists st1', s1', msg'. auto.
      - intros (stR & shR & msg' & NR & M' & B). exists stS, shS, stR, shR, msg'. auto. }
    rewrite BC; clear BC.
    assert (NEXT : forall s' stR shR msg', vd_verify_next vdaf ctx (sel b st0 st1) msg = Ok (inl (stR, shR)) ->
        vd_verifier_shares_to_message vdaf ctx ap [sel b shR shS; sel b shS shR] = Ok msg' -> sent stR msg' (r + 1) s' ->
        outputs (pp_drive vdaf ctx agg_param (S k) (negb b) (fst (pair_of b s' (Continued stS (r + 1) ob)))
                   (snd (pair_of b s' (Continued stS (r + 1) ob)))) o0 o1 <->
        bc_tail k (sel b stR stS) (sel b stS stR) msg' = Ok (o0, o1)).
    { intros s' stR shR msg' NR M' SS.
      pose proof (IH (negb b) (r + 1) (sel b stR stS) (sel b shR shS) (sel b stS stR) (sel b shS shR) ob msg' s' o0 o1) as IHk.
      destruct b; cbn [negb sel pair_of fst snd] in *; apply IHk; try assumption; try lia; eapply INV; eassumption. }
    assert (DONE : forall stR shR msg', vd_verify_next vdaf ctx (sel b st0 st1) msg = Ok (inl (stR, shR)) ->
        vd_verifier_shares_to_message vdaf ctx ap [sel b shR shS; sel b shS shR] = Ok msg' ->
        bc_tail k (sel b stR stS) (sel b stS stR) msg' = Ok (o0, o1) ->
        exists s', s' <> Rejected /\
          ping_pong_continued vdaf b ctx agg_param (Continued (sel b st0 st1) r ob0) ob = Ok s').
    { intros stR shR msg' NR M' B. pose proof (INV _ _ NR) as Inv'.
      assert (SE : exists s', sent stR msg' (r + 1) s').
      { assert (NRb : exists out', vd_verify_next vdaf ctx stR msg' = Ok out' /\ (k = 0 \/ exists x, out' = inl x)).
        { clear - B. destruct k; [apply bc_tail_O in B as (B0 & B1); destruct b; cbn [sel] in B0, B1; eauto|].
          apply bc_tail_S in B as (a0 & a1 & a2 & a3 & a4 & B0 & B1 & _). destruct b; cbn [sel] in B0, B1; eauto 6. }
        destruct NRb as (out' & N' & K).
        destruct (ex_msg0 _ _ _ _ EX _ _ _ _ _ Inv' M') as (em' & EM' & _ & FE).
        eapply (sent_exists _ _ (r + 1) out' em' N' EM' FE).
        destruct K as [K|((stR' & shR') & ->)]; [left; lia|].
        destruct k; [left; lia|]. right.
        apply bc_tail_S in B as (a0 & a1 & a2 & a3 & a4 & B0 & B1 & _).
        pose proof (ex_next _ _ _ _ EX _ _ _ _ _ _ _ _ _ Inv' M' B0 B1) as Inv''.
        destruct (ex_share0 _ _ _ _ EX _ _ _ _ Inv'') as (e0 & E0 & _ & F0).
        destruct (ex_share1 _ _ _ _ EX _ _ _ _ Inv'') as (e1 & E1 & _ & F1).
        destruct b; cbn [sel] in B0, B1.
        - rewrite N' in B0; injection B0 as <- <-. exists stR', shR', e0. auto.
        - rewrite N' in B1; injection B1 as <- <-. exists stR', shR', e1. auto. }
      destruct SE as (s' & SE). exists s'.
      assert (NJ : s' <> Rejected)
        by (destruct SE as (? & ? & _ & _ & [(_ & ? & _ & ->)|(_ & ? & ? & ? & ? & _ & _ & _ & ->)]); discriminate).
      split; [exact NJ|]. apply (STEP _ NJ). exists stR, shR, msg'. auto. }
    destruct (ping_pong_continued vdaf b ctx agg_param (Continued (sel b st0 st1) r ob0) ob) as [s'|e] eqn:C; cbn [bind].
    + destruct (match s' with Rejected => true | _ => false end) eqn:RJ.
      * assert (s' = Rejected) by (destruct s'; congruence); subst s'. clear RJ.
        split; [intros H; exfalso; exact (drive_rejected' b (S k) _ _ _ H)|].
        intros (stR & shR & msg' & NR & M' & B). exfalso.
        destruct (DONE _ _ _ NR M' B) as (s' & NJ & C'). congruence.
      * assert (NRj : s' <> Rejected) by (destruct s'; congruence). clear RJ.
        destruct (proj1 (STEP _ NRj) eq_refl) as (stR & shR & msg' & NR & M' & SS).
        rewrite (NEXT s' stR shR msg' NR M' SS). split.
        -- intros B. exists stR, shR, msg'. auto.
        -- intros (stR' & shR' & msg'' & NR' & M'' & B). rewrite NR in NR'; injection NR' as <- <-.
           rewrite M' in M''; injection M'' as <-. exact B.
    + split; [intros (L & H & Eq & _); discriminate|].
      intros (stR & shR & msg' & NR & M' & B). exfalso.
      destruct (DONE _ _ _ NR M' B) as (s' & NJ & C'). congruence.
Qed.

Lemma run_correct key nonce public_share input_share0 input_share1 ps is0 is1 o0 o1 : 1 <= R ->
  vd_decode_public_share vdaf public_share = Ok ps ->
  vd_decode_input_share vdaf 0 input_share0 = Ok is0 -> vd_decode_input_share vdaf 1 input_share1 = Ok is1 ->
  (forall st0 s0 st1 s1, vd_verify_init vdaf key ctx 0 ap nonce ps is0 = Ok (st0, s0) ->
     vd_verify_init vdaf key ctx 1 ap nonce ps is1 = Ok (st1, s1) -> I st0 s0 st1 s1) ->
  outputs (pp_run vdaf ctx key agg_param nonce public_share input_share0 input_share1) o0 o1 <->
  broadcast_run vdaf ctx ap key nonce ps is0 is1 = Ok (o0, o1).
Proof.
  intros HR DPS DI0 DI1 INIT. unfold pp_run, broadcast_run.
  (* both initializations succeed, or neither side does *)
  destruct (vd_verify_init vdaf key ctx 0 ap nonce ps is0) as [(st0 & s0)|e0] eqn:V0; cbn [bind].
  2:{ split; [|discriminate]. intros (L & H & E & _ & OH). exfalso.
      apply bind_Ok in E as (l & E1 & E2).
      destruct l as [|st r ob| | |]; try (injection E2 as <- <-; discriminate OH).
      apply leader_init_Ok in E1 as (ap' & p & i & st' & sh & es & ob' & A & P & DI & VI & _); [|discriminate].
      congruence. }
  destruct (vd_verify_init vdaf key ctx 1 ap nonce ps is1) as [(st1 & s1)|e1] eqn:V1; cbn [bind].
  2:{ split; [|discriminate]. intros (L & H & E & _ & OH). exfalso.
      apply bind_Ok in E as (l & E1 & E2).
      destruct l as [|st r ob| | |]; try (injection E2 as <- <-; discriminate OH).
      apply bind_Ok in E2 as (h & E2 & E3).
      assert (h = Rejected).
      { destruct h; try reflexivity;
          (apply helper_init_Ok in E2; [|discriminate];
           destruct E2 as (ap' & p & i & st' & sh & items & es & d & A & P & DI & VI & _); congruence). }
      subst h. destruct R; cbn in E3; injection E3 as <- <-; discriminate OH. }
  pose proof (INIT _ _ _ _ eq_refl eq_refl) as Inv.
  destruct (ex_share0 _ _ _ _ EX _ _ _ _ Inv) as (es & ES & DS & FS).
  assert (OB : pp_encode 0 [es] = Ok ([x00] ++ concat (map item_bytes [es])))
    by (apply pp_encode_ok; [exact byte_of_0|constructor; [exact FS|constructor]]).
  set (ob := [x00] ++ concat (map item_bytes [es])) in OB.
  assert (LI : ping_pong_leader_init vdaf key ctx agg_param nonce public_share input_share0 = Ok (Continued st0 0 ob)).
  { apply leader_init_Ok; [discriminate|]. exists ap, ps, is0, st0, s0, es, ob. auto 10. }
  rewrite LI; cbn [bind]. clearbody ob.
  assert (DP : pp_decode ob = Ok (0%Z, [es])) by (eapply pp_decode_encode; [reflexivity|reflexivity|exact OB]).
  assert (HI : forall h, h <> Rejected ->
    ping_pong_helper_init vdaf key ctx agg_param nonce public_share input_share1 ob = Ok h <->
    exists msg, vd_verifier_shares_to_message vdaf ctx ap [s0; s1] = Ok msg /\ sent st1 msg 0 h).
  { intros h NJ. rewrite (helper_init_Ok _ _ _ _ _ _ _ _ NJ). split.
    - intros (ap' & p & i & st & sh & items & es' & d & A & P & DI & VI & D & G & DV & T).
      assert (ap' = ap) by congruence; assert (p = ps) by congruence; assert (i = is1) by congruence;
        assert (items = [es]) by congruence; subst.
      assert (st = st1) by congruence; assert (sh = s1) by congruence; subst.
      change (get [es] 0) with (Ok es) in G. assert (es' = es) by congruence; subst es'.
      assert (d = s0) by congruence; subst d.
      pose proof T as T'; apply transition_Ok in T' as (msg & _ & _ & M & _). exists msg; split; [exact M|].
      now apply (transition_sent _ _ _ _ _ M).
    - intros (msg & M & SS). exists ap, ps, is1, st1, s1, [es], es, s0. repeat (split; [assumption || reflexivity|]).
      now apply (transition_sent _ _ _ _ _ M). }
  rewrite broadcast_tail.
  destruct (vd_verifier_shares_to_message vdaf ctx ap [s0; s1]) as [msg|em] eqn:M; cbn [bind].
  2:{ split; [|discriminate]. intros (L & H & E & _ & OH). exfalso. apply bind_Ok in E as (h & E2 & E3).
      assert (h = Rejected).
      { destruct h; try reflexivity; (apply HI in E2; [|discriminate]; destruct E2 as (msg & F & _); discriminate F). }
      subst h. destruct R; cbn in E3; injection E3 as <- <-; discriminate OH. }
  assert (DR : forall h, sent st1 msg 0 h ->
    outputs (pp_drive vdaf ctx agg_param R true (Continued st0 0 ob) h) o0 o1 <-> bc_tail (R - 1) st0 st1 msg = Ok (o0, o1)).
  { intros h SS. replace R with (S (R - 1)) at 1 by lia.
    apply (drive_correct (R - 1) true 0 st0 s0 st1 s1 ob msg h o0 o1); try assumption; lia. }
  split.
  - intros (L & H & E & OL & OH). apply bind_Ok in E as (h & E2 & E3).
    destruct (match h with Rejected => true | _ => false end) eqn:RJ.
    + assert (h = Rejected) by (destruct h; congruence); subst h.
      destruct R; cbn in E3; injection E3 as <- <-; discriminate OH.
    + assert (NJ : h <> Rejected) by (destruct h; congruence).
      apply (HI _ NJ) in E2 as (msg' & M' & SS). injection M' as <-.
      apply (DR h SS). exists L, H. auto.
  - intros B.
    assert (SE : exists h, sent st1 msg 0 h).
    { destruct (ex_msg1 _ _ _ _ EX _ _ _ _ _ Inv M) as (em & EM & _ & FE).
      destruct (R - 1) as [|k] eqn:RK.
      - apply bc_tail_O in B as (_ & B1). eapply (sent_exists _ _ _ _ _ B1 EM FE). left; lia.
      - apply bc_tail_S in B as (a0 & a1 & a2 & a3 & a4 & B0 & B1 & _).
        pose proof (ex_next _ _ _ _ EX _ _ _ _ _ _ _ _ _ Inv M B0 B1) as Inv'.
        destruct (ex_share1 _ _ _ _ EX _ _ _ _ Inv') as (e1 & E1 & _ & F1).
        eapply (sent_exists _ _ _ _ _ B1 EM FE). right. exists a2, a3, e1. auto. }
    destruct SE as (h & SE).
    assert (NJ : h <> Rejected)
      by (destruct SE as (? & ? & _ & _ & [(_ & ? & _ & ->)|(_ & ? & ? & ? & ? & _ & _ & _ & ->)]); discriminate).
    assert (E2 := proj2 (HI h NJ) (ex_intro _ msg (conj eq_refl SE))).
    destruct (proj2 (DR h SE) B) as (L & H & E3 & OL & OH). exists L, H. rewrite E2; cbn [bind]. auto.
Qed.
End PPF.

Lemma transition_sends vdaf ctx ap shares st r s : ping_pong_transition vdaf ctx ap shares st r = Ok s ->
  exists msg em, vd_verifier_shares_to_message vdaf ctx ap shares = Ok msg /\ vd_encode_verifier_message vdaf msg = Ok em /\ pp_sends s em.
Proof.
  intro T. apply transition_Ok in T.
  destruct T as (msg & em & out & A & B & _ & [(E & ob & O & ->)|(E & st' & sh' & esh & ob & _ & _ & O & ->)]);
    exists msg, em; split; try exact A; split; try exact B; cbn [pp_sends].
  - eapply pp_decode_encode; [| |exact O]; reflexivity.
  - exists esh. eapply pp_decode_encode; [| |exact O]; reflexivity.
Qed.

Lemma decode_items inbound ty items : pp_decode inbound = Ok (ty, items) -> num_items ty = Some (length items).
Proof. intro H. apply pp_decode_Ok in H. destruct H as (n & h & N & _ & <- & _). exact N. Qed.

Lemma helper_init_order vdaf key ctx agg_param nonce ps is inbound s :
  ping_pong_helper_init vdaf key ctx agg_param nonce ps is inbound = Ok s -> s <> Rejected ->
  exists ap p i st sh lb lsh msg em,
    vd_decode_agg_param vdaf agg_param = Ok ap /\
    vd_decode_public_share vdaf ps = Ok p /\ vd_decode_input_share vdaf 1 is = Ok i /\
    vd_verify_init vdaf key ctx 1 ap nonce p i = Ok (st, sh) /\
    pp_decode inbound = Ok (0%Z, [lb]) /\
    vd_decode_verifier_share vdaf st lb = Ok lsh /\
    vd_verifier_shares_to_message vdaf ctx ap [lsh; sh] = Ok msg /\
    vd_encode_verifier_message vdaf msg = Ok em /\ pp_sends s em.
Proof.
  intros H D. apply helper_init_Ok in H; [|exact D].
  destruct H as (ap & p & i & st & sh & items & es & d & A & B & C & V & Dec & G & Ds & T).
  pose proof (decode_items _ _ _ Dec) as L. injection L as L.
  destruct items as [|x [|y l]]; try discriminate L. injection G as ->.
  apply transition_sends in T. destruct T as (msg & em & M & E & Sn).
  exists ap, p, i, st, sh, es, d, msg, em. now repeat (split; [assumption|]).
Qed.

Lemma continued_order vdaf b ctx agg_param st r ob inbound s :
  ping_pong_continued vdaf b ctx agg_param (Continued st r ob) inbound = Ok s ->
  s <> Rejected -> (forall out, s <> Finished out) ->
  exists ap mb pb msg0 st' own peer msg em,
    vd_decode_agg_param vdaf agg_param = Ok ap /\
    pp_decode inbound = Ok (1%Z, [mb; pb]) /\
    vd_decode_verifier_message vdaf st mb = Ok msg0 /\
    vd_verify_next vdaf ctx st msg0 = Ok (inl (st', own)) /\
    vd_decode_verifier_share vdaf st' pb = Ok peer /\
    vd_verifier_shares_to_message vdaf ctx ap (if b then [own; peer] else [peer; own]) = Ok msg /\
    vd_encode_verifier_message vdaf msg = Ok em /\ pp_sends s em.
Proof.
  intros H D NF. apply continued_Ok in H; [|exact D].
  destruct H as (st1 & r1 & ob1 & ty & items & em & msg & out & [= <- <- <-] & Dec & G & Dm & V & [(-> & Lt & st' & sh' & es & d & ap & -> & G1 & Ds & A & T)|(_ & _ & ->)]).
  - pose proof (decode_items _ _ _ Dec) as L. injection L as L.
    destruct items as [|x [|y [|z l]]]; try discriminate L. injection G as ->. injection G1 as ->.
    apply transition_sends in T. destruct T as (msg' & em' & M & E & Sn).
    exists ap, em, es, msg, st', sh', d, msg', em'. now repeat (split; [assumption|]).
  - exfalso. exact (NF out eq_refl).
Qed.
