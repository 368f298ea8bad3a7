(** Model of /repo/poc/vdaf_poc/vdaf_ping_pong.py. *)
From Verif Require Export Vdaf.
Open Scope nat_scope.

(** vdaf_ping_pong.py:260-266 *)
Definition pp_encode (message_type : Z) (items : list bytes) : res bytes :=
  let* encoded := byte_of message_type in
  foldM (fun encoded item =>
    let* len := to_be_bytes (Z.of_nat (length item)) 4 in
    Ok ((encoded ++ len) ++ item)) items encoded.

(** vdaf_ping_pong.py:269-287 *)
Definition pp_decode (encoded : bytes) : res (Z * list bytes) :=
  let* (head, encoded) := front 1 encoded in
  match head with
  | [b] =>
    let message_type := b2z b in
    let* num_counts :=
      if (message_type =? 0)%Z then Ok 1
      else if (message_type =? 1)%Z then Ok 2
      else if (message_type =? 2)%Z then Ok 1
      else Raise (ValueError "unexpected message type") in
    let* (items, encoded) := for_range 0 num_counts ([], encoded) (fun '(items, encoded) _ =>
      let* (encoded_item_len, encoded) := front 4 encoded in
      let item_len := from_be_bytes encoded_item_len in
      let* (item, encoded) := front (Z.to_nat item_len) encoded in
      Ok (items ++ [item], encoded)) in
    let* _ := check (length encoded =? 0) (ValueError "unexpected message length") in
    Ok (message_type, items)
  | _ => Raise (ValueError "values to unpack")
  end.

(** vdaf_ping_pong.py:26-71.  The argument of [Finished] is whatever
    verify_next() returned: the code does not check that it is an output share
    and not a pair of a state and a verifier share. *)
Inductive PPState (vdaf : Vdaf) : Type :=
| Start
| Continued (verify_state : vd_VerifyState vdaf) (verify_round : nat) (outbound : bytes)
| Finished (out_share : (vd_VerifyState vdaf * vd_VerifierShare vdaf) + vd_OutShare vdaf)
| FinishedWithOutbound (out_share : (vd_VerifyState vdaf * vd_VerifierShare vdaf) + vd_OutShare vdaf) (outbound : bytes)
| Rejected.
Arguments Start {vdaf}.
Arguments Continued {vdaf} verify_state verify_round outbound.
Arguments Finished {vdaf} out_share.
Arguments FinishedWithOutbound {vdaf} out_share outbound.
Arguments Rejected {vdaf}.

(** [try: ... except Exception: return Rejected()]; a loop that is still running
    raises nothing. *)
Definition pp_try {vdaf : Vdaf} (m : res (PPState vdaf)) : res (PPState vdaf) :=
  match m with
  | Ok s => Ok s
  | Raise OutOfFuel => Raise OutOfFuel
  | Raise _ => Ok Rejected
  end.

(** [(verify_state, verifier_share) = cast(tuple, out)]: an output share is taken
    not to be an iterable of length two. *)
Definition as_tuple {A B} (out : A + B) : res A :=
  match out with inl x => Ok x | inr _ => Raise TypeError end.

Section PP.
Context (vdaf : Vdaf).
Notation State := (vd_VerifyState vdaf).
Notation VShare := (vd_VerifierShare vdaf).

(** vdaf_ping_pong.py:95-122 *)
Definition ping_pong_leader_init (vdaf_verify_key ctx agg_param nonce public_share input_share : bytes)
  : res (PPState vdaf) :=
  pp_try (
    let* agg_param := vd_decode_agg_param vdaf agg_param in
    let* public_share := vd_decode_public_share vdaf public_share in
    let* input_share := vd_decode_input_share vdaf 0 input_share in
    let* (verify_state, verifier_share) :=
      vd_verify_init vdaf vdaf_verify_key ctx 0 agg_param nonce public_share input_share in
    let* encoded_verifier_share := vd_encode_verifier_share vdaf verifier_share in
    let* outbound := pp_encode 0 [encoded_verifier_share] in
    Ok (Continued verify_state 0 outbound)).

(** vdaf_ping_pong.py:166-188 *)
Definition ping_pong_transition (ctx : bytes) (agg_param : vd_AggParam vdaf) (verifier_shares : list VShare)
  (verify_state : State) (verify_round : nat) : res (PPState vdaf) :=
  let* verifier_message := vd_verifier_shares_to_message vdaf ctx agg_param verifier_shares in
  let* encoded_verifier_message := vd_encode_verifier_message vdaf verifier_message in
  let* out := vd_verify_next vdaf ctx verify_state verifier_message in
  if verify_round + 1 =? vd_ROUNDS vdaf then
    let* outbound := pp_encode 2 [encoded_verifier_message] in
    Ok (FinishedWithOutbound out outbound)
  else
    let* (verify_state, verifier_share) := as_tuple out in
    let* encoded_verifier_share := vd_encode_verifier_share vdaf verifier_share in
    let* outbound := pp_encode 1 [encoded_verifier_message; encoded_verifier_share] in
    Ok (Continued verify_state (verify_round + 1) outbound).

(** vdaf_ping_pong.py:124-164 *)
Definition ping_pong_helper_init (vdaf_verify_key ctx agg_param nonce public_share input_share inbound : bytes)
  : res (PPState vdaf) :=
  pp_try (
    let* decoded_agg_param := vd_decode_agg_param vdaf agg_param in
    let* public_share := vd_decode_public_share vdaf public_share in
    let* input_share := vd_decode_input_share vdaf 1 input_share in
    let* (verify_state, verifier_share) :=
      vd_verify_init vdaf vdaf_verify_key ctx 1 decoded_agg_param nonce public_share input_share in
    let* (inbound_type, inbound_items) := pp_decode inbound in
    if negb (inbound_type =? 0)%Z then Ok Rejected
    else
      let* encoded_verifier_share := get inbound_items 0 in
      let* decoded := vd_decode_verifier_share vdaf verify_state encoded_verifier_share in
      let verifier_shares := [decoded; verifier_share] in
      let* agg_param := vd_decode_agg_param vdaf agg_param in
      ping_pong_transition ctx agg_param verifier_shares verify_state 0).

(** vdaf_ping_pong.py:203-246; reading the attributes of a state that is not
    [Continued] fails inside the [try]. *)
Definition ping_pong_continued (is_leader : bool) (ctx agg_param : bytes) (state : PPState vdaf) (inbound : bytes)
  : res (PPState vdaf) :=
  pp_try (
    match state with
    | Continued verify_state verify_round _ =>
      let* (inbound_type, inbound_items) := pp_decode inbound in
      if (inbound_type =? 0)%Z then Ok Rejected
      else
        let* encoded_verifier_message := get inbound_items 0 in
        let* verifier_message := vd_decode_verifier_message vdaf verify_state encoded_verifier_message in
        let* out := vd_verify_next vdaf ctx verify_state verifier_message in
        if (verify_round + 1 <? vd_ROUNDS vdaf) && (inbound_type =? 1)%Z then
          let* (verify_state, verifier_share) := as_tuple out in
          let* encoded_verifier_share := get inbound_items 1 in
          let* decoded := vd_decode_verifier_share vdaf verify_state encoded_verifier_share in
          let verifier_shares := [decoded; verifier_share] in
          let verifier_shares := if is_leader then rev verifier_shares else verifier_shares in
          let* agg_param := vd_decode_agg_param vdaf agg_param in
          ping_pong_transition ctx agg_param verifier_shares verify_state (verify_round + 1)
        else if (verify_round + 1 =? vd_ROUNDS vdaf) && (inbound_type =? 2)%Z then Ok (Finished out)
        else Ok Rejected
    | _ => Raise TypeError
    end).

(** vdaf_ping_pong.py:190-201 and 248-257 *)
Definition ping_pong_leader_continued := ping_pong_continued true.
Definition ping_pong_helper_continued := ping_pong_continued false.
End PP.
