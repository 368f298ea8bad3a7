(** Properties C43-C46: the ping-pong topology (vdaf_ping_pong.py).

    A loop of a VDAF that is still running when the model's bound is reached
    appears as [Raise OutOfFuel]; every Python exception is caught. *)
From Verif Require Import PingPong PingPongSpec PingPongFacts PingPongInst Prio3 Prio3Spec Poplar1 Poplar1Spec Poplar1Inst IdpfInst BaseFacts CommonFacts ParseFacts.
Open Scope nat_scope.

(** C43.  Framing: [decode] accepts exactly the encodings of the well-formed
    messages, and gives back the message. *)
Theorem C43_framing : canonical_codec pp_message_wf (fun m => pp_encode (fst m) (snd m)) pp_decode.
Proof. exact pp_codec. Qed.
Print Assumptions C43_framing.

(** C43.  Everything that does not decode raises an exception (the parser has no
    other outcome), so [ping_pong_continued] rejects it. *)
Theorem C43_decode_raises : forall b e, pp_decode b = Raise e -> e <> OutOfFuel.
Proof. exact pp_decode_no_fuel. Qed.
Print Assumptions C43_decode_raises.

Example C43_example : pp_encode 1 [[x07; x08]; []] = Ok [x01; x00; x00; x00; x02; x07; x08; x00; x00; x00; x00].
Proof. reflexivity. Qed.
Example C43_example_decode : pp_decode [x01; x00; x00; x00; x02; x07; x08; x00; x00; x00; x00] = Ok (1%Z, [[x07; x08]; []]).
Proof. vm_compute. reflexivity. Qed.
Example C43_example_trailing : pp_decode [x02; x00; x00; x00; x00; x09] = Raise (ValueError "unexpected message length").
Proof. vm_compute. reflexivity. Qed.
Example C43_example_short : pp_decode [x00; x00; x00; x00; x02; x09] = Raise AssertionError.
Proof. vm_compute. reflexivity. Qed.
Example C43_example_type : pp_decode [x03; x00; x00; x00; x00] = Raise (ValueError "unexpected message type").
Proof. vm_compute. reflexivity. Qed.

(** C44.  Ping-pong equals the broadcast execution: Leader and Helper both finish
    with output shares [o0] and [o1] if and only if the direct execution yields
    these. *)
Theorem C44_ping_pong : forall (vdaf : Vdaf) ctx ap I, Exchangeable vdaf ctx ap I ->
  forall agg_param, vd_decode_agg_param vdaf agg_param = Ok ap ->
  forall key nonce public_share input_share0 input_share1 ps is0 is1 o0 o1, 1 <= vd_ROUNDS vdaf ->
  vd_decode_public_share vdaf public_share = Ok ps ->
  vd_decode_input_share vdaf 0 input_share0 = Ok is0 -> vd_decode_input_share vdaf 1 input_share1 = Ok is1 ->
  (forall st0 s0 st1 s1, vd_verify_init vdaf key ctx 0 ap nonce ps is0 = Ok (st0, s0) ->
     vd_verify_init vdaf key ctx 1 ap nonce ps is1 = Ok (st1, s1) -> I st0 s0 st1 s1) ->
  pp_outputs vdaf (pp_run vdaf ctx key agg_param nonce public_share input_share0 input_share1) o0 o1 <->
  broadcast_run vdaf ctx ap key nonce ps is0 is1 = Ok (o0, o1).
Proof. exact run_correct. Qed.
Print Assumptions C44_ping_pong.

(** C44 for Prio3: all decodable (honest or not) shares. *)
Theorem C44_prio3 : forall (p : Prio3) (lim : Z), Prio3Ok p lim ->
  forall good valid, FlpOk (p3_flp p) good valid ->
  forall key ctx nonce public_share input_share0 input_share1 ps is0 is1 o0 o1,
  (Z.of_nat (VERIFIER_LEN (p3_flp p) * p3_PROOFS p * ENCODED_SIZE (p3_field p) + SEED_SIZE (p3_xof p)) < 2 ^ 32)%Z ->
  ctx_ok ctx -> length key = p3_VERIFY_KEY_SIZE p ->
  p3_decode_public_share p public_share = Ok ps ->
  p3_decode_input_share p 0 input_share0 = Ok is0 -> p3_decode_input_share p 1 input_share1 = Ok is1 ->
  pp_outputs (Prio3Vdaf p) (pp_run (Prio3Vdaf p) ctx key [] nonce public_share input_share0 input_share1) o0 o1 <->
  broadcast_run (Prio3Vdaf p) ctx tt key nonce ps is0 is1 = Ok (o0, o1).
Proof. exact p3_ping_pong. Qed.
Print Assumptions C44_prio3.

(** C44 for Poplar1, as returned by the constructor. *)
Theorem C44_poplar1 : forall ts aes bound bits,
  let p := p1_obj ts aes bound bits in
  forall key ctx agg_param nonce public_share input_share0 input_share1 ap ps is0 is1 o0 o1,
  p1_decode_agg_param agg_param = Ok ap -> p1_decode_public_share p public_share = Ok ps ->
  p1_decode_input_share p 0 input_share0 = Ok is0 -> p1_decode_input_share p 1 input_share1 = Ok is1 ->
  pp_outputs (p1_vdaf p) (pp_run (p1_vdaf p) ctx key agg_param nonce public_share input_share0 input_share1) o0 o1 <->
  p1_execute p key ctx ap nonce ps is0 is1 = Ok (o0, o1).
Proof.
  intros ts aes bound bits p key ctx agg_param nonce public_share input_share0 input_share1 ap ps is0 is1 o0 o1 A B C D.
  refine (p1_ping_pong p _ _ key ctx agg_param nonce public_share input_share0 input_share1 ap ps is0 is1 o0 o1 _ A B C D).
  - exact (proj1 idpf_fields_wf).
  - exact (proj2 idpf_fields_wf).
  - split; vm_compute; reflexivity.
Qed.
Print Assumptions C44_poplar1.

(** A VDAF with any number of rounds, after PingPongTester of
    poc/tests/test_vdaf_ping_pong.py:12-161: the state is the round and the output
    share, verifier shares and messages name the round. *)
Definition pp_tester (rounds : nat) : Vdaf := {|
  vd_Measurement := Z; vd_AggParam := Z; vd_PublicShare := bytes; vd_InputShare := Z; vd_OutShare := Z;
  vd_AggShare := Z; vd_AggResult := Z; vd_VerifyState := Z * Z; vd_VerifierShare := Z; vd_VerifierMessage := Z;
  vd_ID := 4294967295; vd_VERIFY_KEY_SIZE := 0; vd_NONCE_SIZE := 0; vd_RAND_SIZE := 0; vd_SHARES := 2;
  vd_ROUNDS := rounds;
  vd_shard := fun _ m _ _ => Ok (list_byte_of_string "public share", [m; m]);
  vd_is_valid := fun _ previous => Ok (length previous =? 0);
  vd_verify_init := fun _ _ _ _ _ public_share input_share =>
    if bytes_eqb public_share (list_byte_of_string "public share") then Ok ((0, input_share), 0)%Z
    else Raise (ValueError "unexpected public share");
  vd_verify_next := fun _ state msg =>
    let '(current_round, out_share) := state in
    if (msg =? current_round)%Z then
      if (current_round + 1 =? Z.of_nat rounds)%Z then Ok (inr out_share)
      else Ok (inl ((current_round + 1, out_share), current_round + 1)%Z)
    else Raise (ValueError "unexpected verifier message");
  vd_verifier_shares_to_message := fun _ _ shares =>
    let* first := get shares 0 in
    if forallb (Z.eqb first) shares then Ok first else Raise (ValueError "unexpected verifier share");
  vd_agg_init := fun _ => Ok 0%Z;
  vd_agg_update := fun _ a d => Ok (a + d)%Z;
  vd_merge := fun _ _ => Raise NotImplementedError;
  vd_unshard := fun agg_param shares _ => Ok (agg_param * fold_left Z.add shares 0 / 2)%Z;
  vd_encode_agg_param := fun n => to_be_bytes n 8; vd_decode_agg_param := fun b => Ok (from_be_bytes b);
  vd_encode_input_share := fun n => to_be_bytes n 8; vd_decode_input_share := fun _ b => Ok (from_be_bytes b);
  vd_encode_public_share := fun b => Ok b; vd_decode_public_share := fun b => Ok b;
  vd_encode_agg_share := fun n => to_be_bytes n 8; vd_decode_agg_share := fun _ b => Ok (from_be_bytes b);
  vd_encode_verifier_share := fun n => to_be_bytes n 8; vd_decode_verifier_share := fun _ b => Ok (from_be_bytes b);
  vd_encode_verifier_message := fun n => to_be_bytes n 8; vd_decode_verifier_message := fun _ b => Ok (from_be_bytes b);
  vd_encode_out_share := fun n => to_be_bytes n 8; vd_decode_out_share := fun _ b => Ok (from_be_bytes b);
|}.

(** The messages of this VDAF can be exchanged ... *)
Lemma pp_tester_exchangeable : forall rounds ctx ap, (Z.of_nat rounds < 2 ^ 64)%Z ->
  Exchangeable (pp_tester rounds) ctx ap
    (fun st0 s0 st1 s1 => (0 <= fst st0 < 2 ^ 64)%Z /\ fst st1 = fst st0 /\ s0 = fst st0 /\ s1 = fst st0 /\ (fst st0 < Z.of_nat rounds)%Z).
Proof.
  intros rounds ctx ap HR.
  assert (C : forall n, (0 <= n < 2 ^ 64)%Z -> carries (fun n => to_be_bytes n 8) (fun b => Ok (from_be_bytes b)) n).
  { intros n Hn. pose proof (to_be_bytes_ok n 8 Hn) as E. exists (rev (le_bytes 8 n)). destruct (to_be_bytes_spec _ _ _ E) as (L & ->).
    split; [exact E|]. split; [reflexivity|]. change (length (rev (le_bytes 8 n)) = 8) in L. rewrite L. reflexivity. }
  split; cbn [pp_tester vd_encode_verifier_share vd_decode_verifier_share vd_encode_verifier_message vd_decode_verifier_message
              vd_verifier_shares_to_message vd_verify_next vd_VerifyState vd_VerifierShare vd_VerifierMessage].
  - intros st0 s0 st1 s1 (A & _ & -> & _). now apply C.
  - intros st0 s0 st1 s1 (A & _ & _ & -> & _). now apply C.
  - intros st0 s0 st1 s1 msg (A & _ & -> & -> & _) H. cbn in H. rewrite Z.eqb_refl in H. injection H as <-. now apply C.
  - intros st0 s0 st1 s1 msg (A & _ & -> & -> & _) H. cbn in H. rewrite Z.eqb_refl in H. injection H as <-. now apply C.
  - intros [r0 o0] s0 [r1 o1] s1 msg st0' s0' st1' s1' (A & E & -> & -> & B) H. cbn in H, A, B, E. rewrite Z.eqb_refl in H.
    injection H as <-. subst r1. cbn [fst]. rewrite Z.eqb_refl. destruct (r0 + 1 =? Z.of_nat rounds)%Z eqn:D; [intros [=]|].
    apply Z.eqb_neq in D. intros [= <- <-] [= <- <-]. cbn [fst]. lia.
Qed.

(** ... and its direct execution succeeds, ... *)
Lemma pp_tester_broadcast : forall rounds ctx ap k r o0 o1, (r + 1 + Z.of_nat k = Z.of_nat rounds)%Z ->
  broadcast (pp_tester rounds) ctx ap k (r, o0) r (r, o1) r = Ok (o0, o1).
Proof.
  intros rounds ctx ap k. induction k as [|k IH]; intros r o0 o1 E; cbn [broadcast]; cbn; rewrite !Z.eqb_refl; cbn [andb bind]; rewrite !Z.eqb_refl.
  - replace (r + 1 =? Z.of_nat rounds)%Z with true by (symmetry; apply Z.eqb_eq; lia). reflexivity.
  - replace (r + 1 =? Z.of_nat rounds)%Z with false by (symmetry; apply Z.eqb_neq; lia). cbn [bind]. apply IH. lia.
Qed.

(** ... so the hypotheses of C44 can be met with any number of rounds: both
    parties finish with their input shares. *)
Theorem C44_tester : forall rounds ctx key nonce agg_param input_share0 input_share1,
  1 <= rounds -> (Z.of_nat rounds < 2 ^ 64)%Z ->
  pp_outputs (pp_tester rounds)
    (pp_run (pp_tester rounds) ctx key agg_param nonce (list_byte_of_string "public share") input_share0 input_share1)
    (from_be_bytes input_share0) (from_be_bytes input_share1).
Proof.
  intros rounds ctx key nonce agg_param is0 is1 H1 H2.
  apply (C44_ping_pong (pp_tester rounds) ctx (from_be_bytes agg_param) _ (pp_tester_exchangeable rounds ctx _ H2)
    agg_param eq_refl key nonce _ is0 is1 (list_byte_of_string "public share") (from_be_bytes is0) (from_be_bytes is1));
    try reflexivity.
  - exact H1.
  - intros st0 s0 st1 s1 E0 E1. cbn [pp_tester vd_verify_init] in E0, E1. rewrite bytes_eqb_refl in E0, E1.
    injection E0 as <- <-. injection E1 as <- <-. cbn [fst]. repeat split; lia.
  - unfold broadcast_run. cbn [pp_tester vd_verify_init vd_ROUNDS]. rewrite !bytes_eqb_refl. cbn [bind].
    apply pp_tester_broadcast. lia.
Qed.
Print Assumptions C44_tester.

Example C44_tester_runs : map (fun r => match pp_run (pp_tester r) [] [] [x17] [] (list_byte_of_string "public share") [x05] [x06] with
    | Ok (Finished (inr a), FinishedWithOutbound (inr b) _) => (1, a, b)%Z
    | Ok (FinishedWithOutbound (inr a) _, Finished (inr b)) => (2, a, b)%Z
    | _ => (0, 0, 0)%Z end) [1; 2; 3; 4; 5] = [(1, 5, 6); (2, 5, 6); (1, 5, 6); (2, 5, 6); (1, 5, 6)]%Z.
Proof. vm_compute. reflexivity. Qed.
Example C44_tester_rejects :
  match pp_run (pp_tester 2) [] [] [x17] [] [] [x05] [x06] with Ok (Rejected, Start) => true | _ => false end = true.
Proof. vm_compute. reflexivity. Qed.

(** C45.  No call raises. *)
Theorem C45_never_raises : forall (vdaf : Vdaf) is_leader key ctx agg_param nonce ps is s inbound e,
  ping_pong_leader_init vdaf key ctx agg_param nonce ps is = Raise e \/
  ping_pong_helper_init vdaf key ctx agg_param nonce ps is inbound = Raise e \/
  ping_pong_continued vdaf is_leader ctx agg_param s inbound = Raise e -> e = OutOfFuel.
Proof.
  intros vdaf b key ctx agg_param nonce ps is s inbound e [H|[H|H]].
  - exact (leader_init_Raise vdaf _ _ _ _ _ _ _ H).
  - exact (helper_init_Raise vdaf _ _ _ _ _ _ _ _ H).
  - exact (continued_Raise vdaf _ _ _ _ _ _ H).
Qed.
Print Assumptions C45_never_raises.

(** C45.  What each call can return, by round.  The round number goes up by two
    in ping_pong_continued: one verifier message is received and one is sent. *)
Theorem C45_rounds_init : forall (vdaf : Vdaf) key ctx agg_param nonce ps is inbound s,
  (ping_pong_leader_init vdaf key ctx agg_param nonce ps is = Ok s ->
   match s with Continued _ r _ => r = 0 | Rejected => True | _ => False end) /\
  (ping_pong_helper_init vdaf key ctx agg_param nonce ps is inbound = Ok s ->
   match s with
   | Continued _ r _ => r = 1 /\ vd_ROUNDS vdaf <> 1
   | FinishedWithOutbound _ _ => vd_ROUNDS vdaf = 1
   | Rejected => True
   | _ => False
   end).
Proof.
  intros vdaf key ctx agg_param nonce ps is inbound s.
  assert (D : s = Rejected \/ s <> Rejected) by (destruct s; (now left) || (right; discriminate)).
  destruct D as [->|D]; [now split|]. split; intro H.
  - apply leader_init_Ok in H; [|exact D]. destruct H as (ap & p & i & st & sh & esh & ob & _ & _ & _ & _ & _ & _ & ->). reflexivity.
  - apply helper_init_Ok in H; [|exact D]. destruct H as (ap & p & i & st & sh & items & es & d & _ & _ & _ & _ & _ & _ & _ & T).
    apply transition_Ok in T. destruct T as (msg & em & out & _ & _ & _ & [(E & ob & _ & ->)|(E & st' & sh' & esh & ob & _ & _ & _ & ->)]).
    + now symmetry.
    + split; [reflexivity|]. now apply not_eq_sym.
Qed.
Print Assumptions C45_rounds_init.

Theorem C45_rounds : forall (vdaf : Vdaf) is_leader ctx agg_param st r ob inbound s,
  ping_pong_continued vdaf is_leader ctx agg_param (Continued st r ob) inbound = Ok s ->
  match s with
  | Continued _ r' _ => r' = r + 2 /\ r + 2 < vd_ROUNDS vdaf
  | FinishedWithOutbound _ _ => r + 2 = vd_ROUNDS vdaf
  | Finished _ => r + 1 = vd_ROUNDS vdaf
  | Rejected => True
  | Start => False
  end.
Proof.
  intros vdaf b ctx agg_param st r ob inbound s H.
  assert (D : s = Rejected \/ s <> Rejected) by (destruct s; (now left) || (right; discriminate)).
  destruct D as [->|D]; [exact Logic.I|]. apply continued_Ok in H; [|exact D].
  destruct H as (st1 & r1 & ob1 & ty & items & em & msg & out & [= <- <- <-] & _ & _ & _ & _ & [(_ & Lt & st' & sh' & es & d & ap & _ & _ & _ & _ & T)|(_ & E & ->)]).
  - apply transition_Ok in T. destruct T as (msg' & em' & out' & _ & _ & _ & [(E & ob' & _ & ->)|(E & st2 & sh2 & esh & ob' & _ & _ & _ & ->)]); lia.
  - exact E.
Qed.
Print Assumptions C45_rounds.

(** C45.  Messages of the wrong type, malformed messages and messages for a party
    that is not waiting for one are rejected. *)
Theorem C45_rejects : forall (vdaf : Vdaf) is_leader ctx agg_param s inbound,
  (forall e, pp_decode inbound = Raise e -> ping_pong_continued vdaf is_leader ctx agg_param s inbound = Ok Rejected) /\
  (forall items, pp_decode inbound = Ok (0%Z, items) -> ping_pong_continued vdaf is_leader ctx agg_param s inbound = Ok Rejected) /\
  ((forall st r ob, s <> Continued st r ob) -> ping_pong_continued vdaf is_leader ctx agg_param s inbound = Ok Rejected) /\
  (forall st r ob ty items s', s = Continued st r ob -> pp_decode inbound = Ok (ty, items) ->
     ~ (ty = 1%Z /\ r + 1 < vd_ROUNDS vdaf) -> ~ (ty = 2%Z /\ r + 1 = vd_ROUNDS vdaf) ->
     ping_pong_continued vdaf is_leader ctx agg_param s inbound = Ok s' -> s' = Rejected).
Proof.
  intros vdaf b ctx agg_param s inbound. repeat apply conj.
  - intros e. apply continued_malformed.
  - intros items. apply continued_type0.
  - apply continued_other.
  - intros st r ob ty items s' -> Hd N1 N2 H.
    assert (D : s' = Rejected \/ s' <> Rejected) by (destruct s'; (now left) || (right; discriminate)).
    destruct D as [D|D]; [exact D|]. exfalso. apply continued_Ok in H; [|exact D].
    destruct H as (st1 & r1 & ob1 & ty1 & items1 & em & msg & out & [= <- <- <-] & E & _ & _ & _ & [(-> & Lt & _)|(-> & E' & _)]);
      rewrite E in Hd; injection Hd as <- <-; [apply N1|apply N2]; now split.
Qed.
Print Assumptions C45_rejects.

Theorem C45_rejects_helper_init : forall (vdaf : Vdaf) key ctx agg_param nonce ps is inbound s,
  (forall items, pp_decode inbound <> Ok (0%Z, items)) ->
  ping_pong_helper_init vdaf key ctx agg_param nonce ps is inbound = Ok s -> s = Rejected.
Proof.
  intros vdaf key ctx agg_param nonce ps is inbound s N H.
  destruct (pp_decode inbound) as [[ty items]|e] eqn:E.
  - apply (helper_init_type vdaf key ctx agg_param nonce ps is inbound ty items s E); [|exact H].
    intros ->. exact (N items eq_refl).
  - exact (helper_init_malformed vdaf key ctx agg_param nonce ps is inbound e s E H).
Qed.
Print Assumptions C45_rejects_helper_init.

(** C45.  Whatever sequence of messages an Aggregator receives: if it has not
    rejected, it has decoded its inputs and verified exactly as many verifier
    messages as its round says, and it has an output only after ROUNDS of them. *)
Theorem C45_histories : forall (vdaf : Vdaf) key ctx agg_param nonce ps is is_leader s, 1 <= vd_ROUNDS vdaf ->
  pp_history vdaf ctx key agg_param nonce ps is is_leader s -> s <> Rejected ->
  exists ap p i st0 sh0,
    vd_decode_agg_param vdaf agg_param = Ok ap /\ vd_decode_public_share vdaf ps = Ok p /\
    vd_decode_input_share vdaf (if is_leader then 0 else 1) is = Ok i /\
    vd_verify_init vdaf key ctx (if is_leader then 0 else 1) ap nonce p i = Ok (st0, sh0) /\
    pp_progress vdaf ctx is_leader st0 s.
Proof. exact history_chain. Qed.
Print Assumptions C45_histories.

(** C45, the round number: it does not go up by one per call. *)
Theorem C45_by_one_refuted : exists (vdaf : Vdaf) ctx agg_param st ob inbound st' ob',
  ping_pong_leader_continued vdaf ctx agg_param (Continued st 0 ob) inbound = Ok (Continued st' 2 ob').
Proof.
  exists (pp_tester 3), [], [], (0, 5)%Z, [],
    (x01 :: [x00; x00; x00; x08] ++ repeat x00 8 ++ [x00; x00; x00; x08] ++ repeat x00 7 ++ [x01]), (2, 5)%Z,
    (x01 :: [x00; x00; x00; x08] ++ repeat x00 7 ++ [x01] ++ [x00; x00; x00; x08] ++ repeat x00 7 ++ [x02]).
  reflexivity.
Qed.
Print Assumptions C45_by_one_refuted.

(** C46.  The Leader's verifier share comes first, the Helper's second, in both
    roles and every round; the message sent carries the combined message. *)
Theorem C46_helper_init : forall (vdaf : Vdaf) key ctx agg_param nonce ps is inbound s,
  ping_pong_helper_init vdaf key ctx agg_param nonce ps is inbound = Ok s -> s <> Rejected ->
  exists ap p i st helper_share leader_bytes leader_share msg encoded_message,
    vd_decode_agg_param vdaf agg_param = Ok ap /\
    vd_decode_public_share vdaf ps = Ok p /\ vd_decode_input_share vdaf 1 is = Ok i /\
    vd_verify_init vdaf key ctx 1 ap nonce p i = Ok (st, helper_share) /\
    pp_decode inbound = Ok (0%Z, [leader_bytes]) /\
    vd_decode_verifier_share vdaf st leader_bytes = Ok leader_share /\
    vd_verifier_shares_to_message vdaf ctx ap [leader_share; helper_share] = Ok msg /\
    vd_encode_verifier_message vdaf msg = Ok encoded_message /\ pp_sends s encoded_message.
Proof. exact helper_init_order. Qed.
Print Assumptions C46_helper_init.

Theorem C46_continued : forall (vdaf : Vdaf) is_leader ctx agg_param st r ob inbound s,
  ping_pong_continued vdaf is_leader ctx agg_param (Continued st r ob) inbound = Ok s ->
  s <> Rejected -> (forall out, s <> Finished out) ->
  exists ap message_bytes peer_bytes msg0 st' own_share peer_share msg encoded_message,
    vd_decode_agg_param vdaf agg_param = Ok ap /\
    pp_decode inbound = Ok (1%Z, [message_bytes; peer_bytes]) /\
    vd_decode_verifier_message vdaf st message_bytes = Ok msg0 /\
    vd_verify_next vdaf ctx st msg0 = Ok (inl (st', own_share)) /\
    vd_decode_verifier_share vdaf st' peer_bytes = Ok peer_share /\
    vd_verifier_shares_to_message vdaf ctx ap
      (if is_leader then [own_share; peer_share] else [peer_share; own_share]) = Ok msg /\
    vd_encode_verifier_message vdaf msg = Ok encoded_message /\ pp_sends s encoded_message.
Proof. exact continued_order. Qed.
Print Assumptions C46_continued.

(** The hypotheses can be met. *)
Example C46_example :
  match ping_pong_helper_init (pp_tester 2) [] [] [x17] [] (list_byte_of_string "public share") [x06]
    (x00 :: [x00; x00; x00; x08] ++ repeat x00 8) with Ok (Continued _ 1 _) => true | _ => false end = true.
Proof. vm_compute. reflexivity. Qed.
