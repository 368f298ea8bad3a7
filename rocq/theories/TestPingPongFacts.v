(** Proofs about the endings of the ping-pong protocol and about the VDAF of its
    test. *)
From Coq Require Import Strings.String Strings.Ascii DecimalString Decimal DecimalFacts DecimalNat.
From Verif Require Import Vdaf PingPong PingPongSpec PingPongFacts TestPingPong RunSpec RunFacts Prio3Spec BaseFacts CommonFacts ParseFacts.
Open Scope nat_scope.

(** * Endings *)
Lemma history_ending vdaf key ctx agg_param nonce ps is b s : 1 <= vd_ROUNDS vdaf ->
  pp_history vdaf ctx key agg_param nonce ps is b s ->
  match s with
  | Finished _ => Nat.odd (vd_ROUNDS vdaf) = b
  | FinishedWithOutbound _ _ => Nat.even (vd_ROUNDS vdaf) = b
  | _ => True
  end.
Proof.
  intros HR H. assert (N : s = Rejected \/ s <> Rejected) by (destruct s; (now left) || (right; discriminate)).
  destruct N as [->|N]; [exact I|].
  assert (T : forall ap shares st r s, Nat.even r = negb b -> ping_pong_transition vdaf ctx ap shares st r = Ok s ->
    match s with Finished _ => Nat.odd (vd_ROUNDS vdaf) = b | FinishedWithOutbound _ _ => Nat.even (vd_ROUNDS vdaf) = b | _ => True end).
  { clear. intros ap shares st r s P T. apply transition_Ok in T as (msg & em & out & _ & _ & _ & D).
    destruct D as [(E & ob & _ & ->)|(E & st' & sh' & es & ob & _ & _ & _ & ->)]; [|exact I].
    rewrite <- E. replace (r + 1) with (S r) by lia. rewrite Nat.even_succ. unfold Nat.odd. rewrite P. now destruct b. }
  destruct H as [s -> H|s inbound -> H|s inbound s' Hs H].
  - apply leader_init_Ok in H as (ap & p & i & st & sh & es & ob & _ & _ & _ & _ & _ & _ & ->); [exact I|exact N].
  - apply helper_init_Ok in H as (ap & p & i & st & sh & items & es & d & _ & _ & _ & _ & _ & _ & _ & H); [|exact N].
    exact (T ap [d; sh] st 0 s eq_refl H).
  - apply continued_Ok in H as (st & r & ob & ty & items & em & msg & out & -> & _ & _ & _ & _ & C); [|exact N].
    destruct (history_chain vdaf _ _ _ _ _ _ _ _ HR Hs) as (ap & p & i & st0 & sh0 & _ & _ & _ & _ & Ev & _ & _); [discriminate|].
    assert (Ev' : Nat.even (r + 1) = negb b).
    { replace (r + 1) with (S r) by lia. rewrite Nat.even_succ. unfold Nat.odd. now rewrite Ev. }
    destruct C as [(_ & _ & st' & sh' & es & d & ap' & _ & _ & _ & _ & H)|(_ & L & ->)].
    + exact (T _ _ _ _ _ Ev' H).
    + rewrite <- L. unfold Nat.odd. rewrite Ev'. now destruct b.
Qed.

(** * Strings *)
Lemma utf8_ascii : forall b fuel, Forall (fun x => (b2z x <= 127)%Z) b -> length b < fuel -> utf8_ok fuel b = true.
Proof.
  induction b as [|x b IH]; intros fuel F L; (destruct fuel as [|fuel]; [inversion L|]); [reflexivity|].
  inversion F as [|? ? Hx F']; subst. cbn [utf8_ok]. apply Z.leb_le in Hx. rewrite Hx. apply IH; [exact F'|cbn in L; lia].
Qed.
Lemma decode_ascii b : Forall (fun x => (b2z x <= 127)%Z) b -> decode_utf8 b = Ok b.
Proof. intros F. unfold decode_utf8. now rewrite utf8_ascii by (trivial; lia). Qed.
Lemma decode_utf8_eq b s : decode_utf8 b = Ok s -> s = b.
Proof. unfold decode_utf8. destruct (utf8_ok _ _); congruence. Qed.

Lemma ascii_str_app s t : ascii_str (s ++ t) = ascii_str s ++ ascii_str t.
Proof. unfold ascii_str, list_byte_of_string. induction s as [|c s IH]; cbn; [reflexivity|]. f_equal. exact IH. Qed.
Lemma digits_ascii d : Forall (fun x => (b2z x <= 127)%Z) (ascii_str (NilEmpty.string_of_uint d)) /\
  length (ascii_str (NilEmpty.string_of_uint d)) = nb_digits d.
Proof.
  unfold ascii_str, list_byte_of_string.
  induction d as [|d [IH L]|d [IH L]|d [IH L]|d [IH L]|d [IH L]|d [IH L]|d [IH L]|d [IH L]|d [IH L]|d [IH L]];
    cbn [NilEmpty.string_of_uint list_ascii_of_string map length nb_digits];
    (split; [first [constructor; fail | constructor; [vm_compute; discriminate|exact IH]]|]); congruence.
Qed.
Lemma little_succ_digits d : nb_digits (Little.succ d) <= S (nb_digits d).
Proof. induction d; cbn [Little.succ nb_digits]; lia. Qed.
Lemma revapp_digits d : forall d', nb_digits (revapp d d') = nb_digits d + nb_digits d'.
Proof. induction d as [|d IH|d IH|d IH|d IH|d IH|d IH|d IH|d IH|d IH|d IH]; intros d'; cbn [revapp nb_digits]; [reflexivity|rewrite IH; cbn [nb_digits]; lia ..]. Qed.
Lemma to_uint_digits n : nb_digits (Nat.to_uint n) <= n + 1.
Proof.
  unfold Nat.to_uint. assert (H : forall n d, nb_digits (Nat.to_little_uint n d) <= n + nb_digits d).
  { induction n0 as [|m IH]; intros d; cbn [Nat.to_little_uint]; [lia|].
    pose proof (IH (Little.succ d)). pose proof (little_succ_digits d). lia. }
  unfold Decimal.rev. rewrite revapp_digits. specialize (H n Decimal.zero). cbn in H |- *. lia.
Qed.
Lemma round_str_ascii r : Forall (fun x => (b2z x <= 127)%Z) (verify_round_str r) /\ length (verify_round_str r) <= 14 + r.
Proof.
  unfold verify_round_str. rewrite ascii_str_app, app_length. destruct (digits_ascii (Nat.to_uint r)) as (A & B). split.
  - apply Forall_app; split; [|exact A]. vm_compute. repeat (constructor; [discriminate|]). constructor.
  - rewrite B. pose proof (to_uint_digits r). change (length (ascii_str "verify round ")) with 13. lia.
Qed.
Lemma round_str_inj r r' : verify_round_str r = verify_round_str r' -> r = r'.
Proof.
  unfold verify_round_str. rewrite !ascii_str_app. intros H. apply app_inv_head in H.
  assert (E : NilEmpty.string_of_uint (Nat.to_uint r) = NilEmpty.string_of_uint (Nat.to_uint r')).
  { rewrite <- (string_of_list_byte_of_string (NilEmpty.string_of_uint (Nat.to_uint r))).
    unfold ascii_str in H. rewrite H. apply string_of_list_byte_of_string. }
  apply (f_equal NilEmpty.uint_of_string) in E. rewrite !NilEmpty.usu in E. injection E as E.
  now apply Unsigned.to_uint_inj.
Qed.

(** * The tester under the reference deployment *)
Lemma tester_next n ctx r m : vd_verify_next (PingPongTester n) ctx (r, m) (verify_round_str r) =
  if r + 1 =? n then Ok (inr m) else Ok (inl ((r + 1, m), verify_round_str (r + 1))).
Proof. cbn [vd_verify_next PingPongTester]. now rewrite bytes_eqb_refl. Qed.
Lemma tester_merge n ctx ap r : vd_verifier_shares_to_message (PingPongTester n) ctx ap [verify_round_str r; verify_round_str r]
  = Ok (verify_round_str r).
Proof. cbn [vd_verifier_shares_to_message PingPongTester foldM]. now rewrite bytes_eqb_refl. Qed.
Lemma tester_rounds n ctx ap m : forall k r, r + k + 1 = n ->
  verify_rounds (PingPongTester n) ctx ap k [(r, m); (r, m)] [verify_round_str r; verify_round_str r] = Ok [m; m].
Proof.
  induction k as [|k IH]; intros r H; cbn [verify_rounds]; rewrite tester_merge; cbn [bind mapM]; rewrite tester_next.
  - replace (r + 1 =? n) with true by (symmetry; apply Nat.eqb_eq; lia). reflexivity.
  - replace (r + 1 =? n) with false by (symmetry; apply Nat.eqb_neq; lia). cbn [bind map fst snd]. apply IH. lia.
Qed.
Lemma tester_outputs n ctx ap key rep : 1 <= n ->
  vdaf_outputs (PingPongTester n) ctx ap key rep = Ok [fst (fst rep); fst (fst rep)].
Proof.
  intros H. destruct rep as [[m nonce] rand]. cbn [fst]. unfold vdaf_outputs. cbn [vd_shard PingPongTester bind].
  unfold verify_report. cbn [vd_SHARES PingPongTester range seq mapM get nth_error bind vd_verify_init].
  rewrite bytes_eqb_refl. cbn [check bind map fst snd vd_ROUNDS PingPongTester]. apply tester_rounds. lia.
Qed.
Lemma tester_fold : forall (l : list Z) j a, j < 2 ->
  foldM (fun a o => let* o := get o j in Ok (a + o)%Z) (map (fun m => [m; m]) l) a = Ok (a + fold_right Z.add 0 l)%Z.
Proof.
  induction l as [|m l IH]; intros j a H; cbn [map foldM fold_right]; [f_equal; lia|].
  destruct j as [|[|j]]; [| |lia]; cbn [get nth_error bind]; rewrite IH by lia; f_equal; lia.
Qed.
Lemma tester_run n ctx ap ms : 1 <= n ->
  run_vdaf (PingPongTester n) [] ap ctx ms = Ok (ap * fold_right Z.add 0 (map (fun r => fst (fst r)) ms))%Z.
Proof.
  intros H. apply run_vdaf_Ok. split; [reflexivity|].
  set (S := fold_right Z.add 0%Z (map (fun r => fst (fst r)) ms)).
  exists (map (fun m : Z => [m; m]) (map (fun r => fst (fst r)) ms)), [S; S]. repeat apply conj.
  - clear S. induction ms as [|rep ms IH]; cbn [mapM map]; [reflexivity|].
    rewrite tester_outputs by exact H. cbn [bind]. change (mapM (vdaf_outputs (PingPongTester n) ctx ap []) ms) with (mapM (vdaf_outputs (PingPongTester n) ctx ap []) ms) in *.
    rewrite IH. reflexivity.
  - assert (J : forall j, j < 2 -> fold_outputs (vd_agg_init (PingPongTester n) ap) (vd_agg_update (PingPongTester n) ap)
        (map (fun m : Z => [m; m]) (map (fun r => fst (fst r)) ms)) j = Ok S).
    { intros j Hj. exact (tester_fold (map (fun r => fst (fst r)) ms) j 0%Z Hj). }
    unfold fold_all. cbn [vd_SHARES PingPongTester range seq mapM Nat.sub]. rewrite (J 0) by lia. rewrite (J 1) by lia. reflexivity.
  - cbn [vd_unshard PingPongTester fold_left]. replace (ap * (0 + S + S))%Z with ((ap * S) * 2)%Z by (cbn in ap; lia). now rewrite Z.div_mul by lia.
Qed.

(** * The tester under the ping-pong protocol *)
Section Tester.
Context (n : nat) (HN : (Z.of_nat n < 2 ^ 31)%Z).
Notation T := (PingPongTester n).
Definition ob_init : bytes := [x00] ++ concat (map item_bytes [verify_round_str 0]).
Definition ob_continue (r : nat) : bytes := [x01] ++ concat (map item_bytes [verify_round_str r; verify_round_str (r + 1)]).
Definition ob_finish (r : nat) : bytes := [x02] ++ concat (map item_bytes [verify_round_str r]).
Definition moved (m : Z) (r : nat) : PPState T :=
  if r + 1 =? n then @FinishedWithOutbound T (inr m) (ob_finish r) else @Continued T ((r + 1, m) : vd_VerifyState T) (r + 1) (ob_continue r).
Lemma round_fits r : r <= n -> PingPongFacts.fits (verify_round_str r).
Proof. intros H. unfold PingPongFacts.fits. destruct (round_str_ascii r) as (_ & L). lia. Qed.
Lemma decode_round r : decode_utf8 (verify_round_str r) = Ok (verify_round_str r).
Proof. apply decode_ascii, round_str_ascii. Qed.
Lemma tester_transition ctx ap m r : r < n ->
  ping_pong_transition T ctx ap [verify_round_str r; verify_round_str r] (r, m) r = Ok (moved m r).
Proof.
  intros H. unfold ping_pong_transition. rewrite tester_merge. cbn [bind vd_encode_verifier_message PingPongTester]. unfold encode_utf8 at 1. cbn [bind].
  rewrite tester_next. unfold moved. cbn [vd_ROUNDS PingPongTester]. destruct (r + 1 =? n) eqn:E; cbn [bind as_tuple].
  - rewrite (pp_encode_ok 2 _ _ byte_of_2); [reflexivity|]. constructor; [|constructor]. apply round_fits. lia.
  - cbn [vd_encode_verifier_share PingPongTester]. unfold encode_utf8. cbn [bind].
    rewrite (pp_encode_ok 1 _ _ byte_of_1); [reflexivity|]. constructor; [|constructor; [|constructor]]; apply round_fits; lia.
Qed.
Lemma decode_continue r : r + 1 <= n -> pp_decode (ob_continue r) = Ok (1%Z, [verify_round_str r; verify_round_str (r + 1)]).
Proof.
  intros H. apply (pp_decode_encode 1 [verify_round_str r; verify_round_str (r + 1)] (ob_continue r) 2); [reflexivity|reflexivity|].
  apply pp_encode_ok; [reflexivity|]. constructor; [|constructor; [|constructor]]; apply round_fits; lia.
Qed.
Lemma decode_finish r : r <= n -> pp_decode (ob_finish r) = Ok (2%Z, [verify_round_str r]).
Proof.
  intros H. apply (pp_decode_encode 2 [verify_round_str r] (ob_finish r) 1); [reflexivity|reflexivity|].
  apply pp_encode_ok; [reflexivity|]. constructor; [|constructor]; apply round_fits; lia.
Qed.
Lemma moved_nr m r : moved m r <> Rejected.
Proof. unfold moved. destruct (_ =? _); discriminate. Qed.

Lemma tester_leader_init ctx key nonce eap m em : 1 <= n -> from_be_bytes em = m ->
  ping_pong_leader_init T key ctx eap nonce (ascii_str "public share") em = Ok (@Continued T ((0, m) : vd_VerifyState T) 0 ob_init).
Proof.
  intros H <-. apply (leader_init_Ok T); [discriminate|].
  exists (from_be_bytes eap), (ascii_str "public share"), (from_be_bytes em), (0, from_be_bytes em), (verify_round_str 0), (verify_round_str 0), ob_init.
  repeat apply conj; reflexivity.
Qed.
Lemma tester_helper_init ctx key nonce eap m em : 1 <= n -> from_be_bytes em = m ->
  ping_pong_helper_init T key ctx eap nonce (ascii_str "public share") em ob_init = Ok (moved m 0).
Proof.
  intros H <-. apply (helper_init_Ok T); [apply moved_nr|].
  exists (from_be_bytes eap), (ascii_str "public share"), (from_be_bytes em), (0, from_be_bytes em), (verify_round_str 0),
    [verify_round_str 0], (verify_round_str 0), (verify_round_str 0).
  repeat apply conj; try reflexivity.
  apply tester_transition. lia.
Qed.
Lemma tester_continue b ctx eap m r ob : r + 1 < n ->
  ping_pong_continued T b ctx eap (@Continued T ((r, m) : vd_VerifyState T) r ob) (ob_continue r) = Ok (moved m (r + 1)).
Proof.
  intros H. apply (continued_Ok T); [apply moved_nr|].
  exists (r, m), r, ob, 1%Z, [verify_round_str r; verify_round_str (r + 1)], (verify_round_str r), (verify_round_str r),
    (inl ((r + 1, m), verify_round_str (r + 1))).
  repeat apply conj; try reflexivity.
  - apply decode_continue. lia.
  - apply decode_round.
  - etransitivity; [apply tester_next|]. now replace (r + 1 =? n) with false by (symmetry; apply Nat.eqb_neq; lia).
  - left. split; [reflexivity|]. split; [exact H|].
    exists (r + 1, m), (verify_round_str (r + 1)), (verify_round_str (r + 1)), (verify_round_str (r + 1)), (from_be_bytes eap).
    repeat apply conj; try reflexivity; [apply decode_round|].
    destruct b; apply tester_transition; lia.
Qed.
Lemma tester_finish b ctx eap m r ob : r + 1 = n ->
  ping_pong_continued T b ctx eap (@Continued T ((r, m) : vd_VerifyState T) r ob) (ob_finish r) = Ok (@Finished T (inr m)).
Proof.
  intros H. apply (continued_Ok T); [discriminate|].
  exists (r, m), r, ob, 2%Z, [verify_round_str r], (verify_round_str r), (verify_round_str r), (inr m).
  repeat apply conj; try reflexivity.
  - apply decode_finish. lia.
  - apply decode_round.
  - etransitivity; [apply tester_next|]. now replace (r + 1 =? n) with true by (symmetry; apply Nat.eqb_eq; lia).
  - right. split; [reflexivity|]. split; [exact H|reflexivity].
Qed.
Lemma moved_cont m r : r + 1 <> n -> moved m r = @Continued T ((r + 1, m) : vd_VerifyState T) (r + 1) (ob_continue r).
Proof. intros H. unfold moved. now replace (r + 1 =? n) with false by (symmetry; apply Nat.eqb_neq; lia). Qed.
Lemma moved_fin m r : r + 1 = n -> moved m r = @FinishedWithOutbound T (inr m) (ob_finish r).
Proof. intros H. unfold moved. now replace (r + 1 =? n) with true by (symmetry; apply Nat.eqb_eq; lia). Qed.

Definition ending (m : Z) : PPState T * PPState T :=
  let last := @FinishedWithOutbound T (inr m) (ob_finish (n - 1)) in
  if Nat.odd n then (@Finished T (inr m), last) else (last, @Finished T (inr m)).
Theorem multi_round ctx m ap : 1 <= n -> (0 <= m < 2 ^ 64)%Z -> (0 <= ap < 2 ^ 64)%Z ->
  test_multi_round n ctx m ap = Ok (ending m).
Proof.
  intros H Hm Ha. unfold test_multi_round. cbn [vd_shard PingPongTester bind vd_encode_agg_param vd_encode_public_share vd_encode_input_share].
  destruct (to_be_bytes ap 8) as [eap|e] eqn:Ea; [|rewrite to_be_bytes_ok in Ea by exact Ha; discriminate].
  destruct (to_be_bytes m 8) as [em|e] eqn:Em; [|rewrite to_be_bytes_ok in Em by exact Hm; discriminate].
  assert (Dm : from_be_bytes em = m) by (apply to_be_bytes_spec in Em; tauto).
  cbn [bind encode_utf8 get nth_error]. unfold encode_utf8. cbn [bind]. rewrite Em. cbn [bind].
  rewrite (tester_leader_init ctx [] [] eap m em H Dm). cbn [bind check Nat.eqb].
  match goal with |- for_range _ _ _ ?f = _ => set (body := f) end.
  destruct (for_range_inv (fun k s => match k with 0 => s = (@Continued T ((0, m) : vd_VerifyState T) 0 ob_init, Start)
    | S j => if 2 * k <=? n then s = (moved m (2 * j + 1), moved m (2 * j)) else s = ending m end)
    0 ((n + 2) / 2) (@Continued T ((0, m) : vd_VerifyState T) 0 ob_init, Start) body) as (s & E & P).
  - lia.
  - reflexivity.
  - intros k s L I. pose proof (Nat.div_mod (n + 2) 2 ltac:(lia)) as DM. pose proof (Nat.mod_upper_bound (n + 2) 2 ltac:(lia)) as MB.
    assert (K : 2 * k <= n) by lia. clear DM MB. unfold body. destruct k as [|j].
    + subst s. cbn [outbound_of bind Nat.eqb]. rewrite (tester_helper_init ctx [] [] eap m em H Dm). cbn [bind].
      destruct (Nat.eq_dec n 1) as [E1|E1].
      * rewrite (moved_fin m 0) by lia. cbn [outbound_of bind]. unfold ping_pong_leader_continued.
        rewrite tester_finish by lia. cbn [bind]. eexists; split; [reflexivity|].
        replace (2 * 1 <=? n) with false by (symmetry; apply Nat.leb_gt; lia). unfold ending.
        replace (n - 1) with 0 by lia. now rewrite E1.
      * rewrite (moved_cont m 0) by lia. cbn [outbound_of bind]. unfold ping_pong_leader_continued.
        rewrite tester_continue by lia. cbn [bind]. eexists; split; [reflexivity|].
        replace (2 * 1 <=? n) with true by (symmetry; apply Nat.leb_le; lia). rewrite (moved_cont m (2 * 0)) by lia. reflexivity.
    + replace (2 * S j <=? n) with true in I by (symmetry; apply Nat.leb_le; lia). subst s.
      rewrite (moved_cont m (2 * j)) by lia. destruct (Nat.eq_dec (2 * S j) n) as [En|En].
      * rewrite (moved_fin m (2 * j + 1)) by lia. cbn [outbound_of bind Nat.eqb]. unfold ping_pong_helper_continued.
        rewrite tester_finish by lia. cbn [bind]. eexists; split; [reflexivity|].
        replace (2 * S (S j) <=? n) with false by (symmetry; apply Nat.leb_gt; lia). unfold ending.
        replace (Nat.odd n) with false; [now replace (n - 1) with (2 * j + 1) by lia|].
        symmetry. apply Bool.not_true_iff_false. intros O. apply Nat.odd_spec in O as (q & O). lia.
      * rewrite (moved_cont m (2 * j + 1)) by lia. cbn [outbound_of bind Nat.eqb]. unfold ping_pong_helper_continued.
        rewrite tester_continue by lia. cbn [bind].
        destruct (Nat.eq_dec (2 * S j + 1) n) as [En'|En'].
        -- rewrite (moved_fin m (2 * j + 1 + 1)) by lia. cbn [outbound_of bind]. unfold ping_pong_leader_continued.
           rewrite tester_finish by lia. cbn [bind]. eexists; split; [reflexivity|].
           replace (2 * S (S j) <=? n) with false by (symmetry; apply Nat.leb_gt; lia). unfold ending.
           replace (Nat.odd n) with true; [now replace (n - 1) with (2 * j + 1 + 1) by lia|].
           symmetry. apply Nat.odd_spec. exists (S j). lia.
        -- rewrite (moved_cont m (2 * j + 1 + 1)) by lia. cbn [outbound_of bind]. unfold ping_pong_leader_continued.
           rewrite tester_continue by lia. cbn [bind]. eexists; split; [reflexivity|].
           replace (2 * S (S j) <=? n) with true by (symmetry; apply Nat.leb_le; lia).
           replace (2 * S j + 1) with (2 * j + 1 + 1 + 1) by lia. replace (2 * S j) with (2 * j + 1 + 1) by lia.
           now rewrite (moved_cont m (2 * j + 1 + 1)) by lia.
  - rewrite E. f_equal. pose proof (Nat.div_mod (n + 2) 2 ltac:(lia)) as DM. pose proof (Nat.mod_upper_bound (n + 2) 2 ltac:(lia)) as MB.
    destruct ((n + 2) / 2) as [|j] eqn:EJ; [lia|].
    replace (2 * S j <=? n) with false in P by (symmetry; apply Nat.leb_gt; lia). exact P.
Qed.
End Tester.

Lemma tester_rejects n b ctx eap m r ob inbound s : s <> Rejected ->
  ping_pong_continued (PingPongTester n) b ctx eap (@Continued (PingPongTester n) ((r, m) : vd_VerifyState (PingPongTester n)) r ob) inbound = Ok s ->
  exists ty items, pp_decode inbound = Ok (ty, items) /\ nth_error items 0 = Some (verify_round_str r).
Proof.
  intros N E. apply (continued_Ok (PingPongTester n)) in E as (st & r' & ob' & ty & items & em & msg & out & E & D & G & M & V & _); [|exact N].
  injection E as <- <- <-. exists ty, items. split; [exact D|].
  cbn [vd_decode_verifier_message PingPongTester] in M. apply decode_utf8_eq in M. subst msg.
  cbn [vd_verify_next PingPongTester] in V. destruct (bytes_eqb em (verify_round_str r)) eqn:B; [|discriminate V].
  apply bytes_eqb_eq in B. subst em. unfold get in G. destruct items; [discriminate|]. injection G as ->. reflexivity.
Qed.
