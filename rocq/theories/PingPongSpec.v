(** Vocabulary for the ping-pong properties.  Nothing here models a /repo function. *)
From Verif Require Export PingPong.
Open Scope nat_scope.

(** The well-formed messages of the ping-pong protocol. *)
Definition pp_message_wf (m : Z * list bytes) : Prop :=
  (fst m = 0%Z /\ length (snd m) = 1 \/ fst m = 1%Z /\ length (snd m) = 2 \/ fst m = 2%Z /\ length (snd m) = 1) /\
  Forall (fun item => Z.of_nat (length item) < 2 ^ 32)%Z (snd m).

Section PPS.
Context (vdaf : Vdaf).
Notation State := (vd_VerifyState vdaf).
Notation VShare := (vd_VerifierShare vdaf).
Notation Out := (vd_OutShare vdaf).
Context (ctx : bytes) (ap : vd_AggParam vdaf).

(** Verification of one report by two parties that broadcast their verifier
    shares: [k] rounds before the last one. *)
Fixpoint broadcast (k : nat) (st0 : State) (s0 : VShare) (st1 : State) (s1 : VShare) : res (Out * Out) :=
  let* msg := vd_verifier_shares_to_message vdaf ctx ap [s0; s1] in
  let* r0 := vd_verify_next vdaf ctx st0 msg in
  let* r1 := vd_verify_next vdaf ctx st1 msg in
  match k, r0, r1 with
  | O, inr o0, inr o1 => Ok (o0, o1)
  | S k, inl (st0, s0), inl (st1, s1) => broadcast k st0 s0 st1 s1
  | _, _, _ => Raise AssertionError
  end.

(** The whole verification of one report. *)
Definition broadcast_run (key nonce : bytes) (ps : vd_PublicShare vdaf) (is0 is1 : vd_InputShare vdaf) : res (Out * Out) :=
  let* (st0, s0) := vd_verify_init vdaf key ctx 0 ap nonce ps is0 in
  let* (st1, s1) := vd_verify_init vdaf key ctx 1 ap nonce ps is1 in
  broadcast (vd_ROUNDS vdaf - 1) st0 s0 st1 s1.

(** An encoding that the other side reads back and that fits in a message. *)
Definition carries {A} (enc : A -> res bytes) (dec : bytes -> res A) (a : A) : Prop :=
  exists b, enc a = Ok b /\ dec b = Ok a /\ (Z.of_nat (length b) < 2 ^ 32)%Z.

(** [I] holds of the states and verifier shares of the two parties as
    verification goes on, and implies that all messages can be exchanged. *)
Record Exchangeable (I : State -> VShare -> State -> VShare -> Prop) : Prop := {
  ex_share0 : forall st0 s0 st1 s1, I st0 s0 st1 s1 ->
    carries (vd_encode_verifier_share vdaf) (vd_decode_verifier_share vdaf st1) s0;
  ex_share1 : forall st0 s0 st1 s1, I st0 s0 st1 s1 ->
    carries (vd_encode_verifier_share vdaf) (vd_decode_verifier_share vdaf st0) s1;
  ex_msg0 : forall st0 s0 st1 s1 msg, I st0 s0 st1 s1 -> vd_verifier_shares_to_message vdaf ctx ap [s0; s1] = Ok msg ->
    carries (vd_encode_verifier_message vdaf) (vd_decode_verifier_message vdaf st0) msg;
  ex_msg1 : forall st0 s0 st1 s1 msg, I st0 s0 st1 s1 -> vd_verifier_shares_to_message vdaf ctx ap [s0; s1] = Ok msg ->
    carries (vd_encode_verifier_message vdaf) (vd_decode_verifier_message vdaf st1) msg;
  ex_next : forall st0 s0 st1 s1 msg st0' s0' st1' s1', I st0 s0 st1 s1 ->
    vd_verifier_shares_to_message vdaf ctx ap [s0; s1] = Ok msg ->
    vd_verify_next vdaf ctx st0 msg = Ok (inl (st0', s0')) -> vd_verify_next vdaf ctx st1 msg = Ok (inl (st1', s1')) ->
    I st0' s0' st1' s1';
}.

(** A network that delivers each outbound message to the other party: at most
    [fuel] messages, the next one to the Leader if [to_leader].  Returns the final
    states of the Leader and of the Helper. *)
Fixpoint pp_drive (agg_param : bytes) (fuel : nat) (to_leader : bool) (leader helper : PPState vdaf)
  : res (PPState vdaf * PPState vdaf) :=
  match fuel with
  | O => Ok (leader, helper)
  | S fuel =>
    match (if to_leader then helper else leader) with
    | Continued _ _ outbound | FinishedWithOutbound _ outbound =>
      if to_leader then
        let* leader := ping_pong_leader_continued vdaf ctx agg_param leader outbound in
        pp_drive agg_param fuel false leader helper
      else
        let* helper := ping_pong_helper_continued vdaf ctx agg_param helper outbound in
        pp_drive agg_param fuel true leader helper
    | _ => Ok (leader, helper)
    end
  end.

(** Leader and Helper verify a report: two calls of the init functions, then
    ROUNDS messages. *)
Definition pp_run (key agg_param nonce public_share input_share0 input_share1 : bytes) : res (PPState vdaf * PPState vdaf) :=
  let* leader := ping_pong_leader_init vdaf key ctx agg_param nonce public_share input_share0 in
  match leader with
  | Continued _ _ outbound =>
    let* helper := ping_pong_helper_init vdaf key ctx agg_param nonce public_share input_share1 outbound in
    pp_drive agg_param (vd_ROUNDS vdaf) true leader helper
  | _ => Ok (leader, Start)
  end.

(** The output share a finished party holds. *)
Definition pp_output (s : PPState vdaf) : option Out :=
  match s with
  | Finished (inr o) | FinishedWithOutbound (inr o) _ => Some o
  | _ => None
  end.

(** Leader and Helper both finish, with these output shares. *)
Definition pp_outputs (m : res (PPState vdaf * PPState vdaf)) (o0 o1 : Out) : Prop :=
  exists leader helper, m = Ok (leader, helper) /\ pp_output leader = Some o0 /\ pp_output helper = Some o1.

(** [verify_chain st msgs r]: processing the verifier messages [msgs] one after
    the other from state [st] succeeds with result [r]. *)
Inductive verify_chain : State -> list (vd_VerifierMessage vdaf) -> (State * VShare) + Out -> Prop :=
| vc_one st msg r : vd_verify_next vdaf ctx st msg = Ok r -> verify_chain st [msg] r
| vc_snoc st msgs st' sh msg r : verify_chain st msgs (inl (st', sh)) -> vd_verify_next vdaf ctx st' msg = Ok r ->
    verify_chain st (msgs ++ [msg]) r.

(** What a party that started verification in state [st0] has done to get into
    state [s]: in round [r] it has processed [r] verifier messages ([r] is even
    for the Leader, odd for the Helper), and it has finished only if it has
    processed all ROUNDS of them. *)
Definition pp_progress (is_leader : bool) (st0 : State) (s : PPState vdaf) : Prop :=
  match s with
  | Start | Rejected => False
  | Continued st r _ => Nat.even r = is_leader /\ r < vd_ROUNDS vdaf /\
      (r = 0 /\ st = st0 \/ exists msgs sh, length msgs = r /\ verify_chain st0 msgs (inl (st, sh)))
  | Finished out | FinishedWithOutbound out _ => exists msgs, length msgs = vd_ROUNDS vdaf /\ verify_chain st0 msgs out
  end.

(** The states an Aggregator can get into, whatever messages it receives. *)
Inductive pp_history (key agg_param nonce public_share input_share : bytes) (is_leader : bool) : PPState vdaf -> Prop :=
| ph_leader s : is_leader = true ->
    ping_pong_leader_init vdaf key ctx agg_param nonce public_share input_share = Ok s ->
    pp_history key agg_param nonce public_share input_share is_leader s
| ph_helper s inbound : is_leader = false ->
    ping_pong_helper_init vdaf key ctx agg_param nonce public_share input_share inbound = Ok s ->
    pp_history key agg_param nonce public_share input_share is_leader s
| ph_continued s inbound s' : pp_history key agg_param nonce public_share input_share is_leader s ->
    ping_pong_continued vdaf is_leader ctx agg_param s inbound = Ok s' ->
    pp_history key agg_param nonce public_share input_share is_leader s'.
End PPS.

(** The message a party sends in state [s] carries this verifier message. *)
Definition pp_sends {vdaf : Vdaf} (s : PPState vdaf) (encoded_message : bytes) : Prop :=
  match s with
  | Continued _ _ outbound => exists share, pp_decode outbound = Ok (1%Z, [encoded_message; share])
  | FinishedWithOutbound _ outbound => pp_decode outbound = Ok (2%Z, [encoded_message])
  | _ => False
  end.
