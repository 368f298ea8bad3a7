(** Model of the VDAF and of the test of /repo/poc/tests/test_vdaf_ping_pong.py. *)
From Coq Require Import Strings.String Strings.Ascii DecimalString.
From Verif Require Export PingPong.
Open Scope nat_scope.

(** Python's [str], without lone surrogates: the bytes of its UTF-8 encoding. *)
Definition str := bytes.
Definition ascii_str (s : string) : str := list_byte_of_string s.
(** Python's [s.encode('utf-8')]. *)
Definition encode_utf8 (s : str) : res bytes := Ok s.
(** Whether a byte string is well-formed UTF-8 (Unicode, table 3-7). *)
Fixpoint utf8_ok (fuel : nat) (b : bytes) : bool :=
  let tail x := ((128 <=? b2z x) && (b2z x <=? 191))%Z in
  match fuel with
  | O => false
  | S fuel =>
    match b with
    | [] => true
    | x :: b =>
      let x := b2z x in
      if (x <=? 127)%Z then utf8_ok fuel b
      else if ((194 <=? x) && (x <=? 223))%Z then
        match b with y :: b => tail y && utf8_ok fuel b | _ => false end
      else if ((224 <=? x) && (x <=? 239))%Z then
        match b with
        | y :: z :: b =>
          ((if (x =? 224)%Z then 160 else 128) <=? b2z y)%Z && (b2z y <=? (if (x =? 237)%Z then 159 else 191))%Z &&
          tail z && utf8_ok fuel b
        | _ => false
        end
      else if ((240 <=? x) && (x <=? 244))%Z then
        match b with
        | y :: z :: w :: b =>
          ((if (x =? 240)%Z then 144 else 128) <=? b2z y)%Z && (b2z y <=? (if (x =? 244)%Z then 143 else 191))%Z &&
          tail z && tail w && utf8_ok fuel b
        | _ => false
        end
      else false
    end
  end.
(** Python's [encoded.decode('utf-8')]; UnicodeDecodeError is a ValueError. *)
Definition decode_utf8 (encoded : bytes) : res str :=
  if utf8_ok (S (length encoded)) encoded then Ok encoded
  else Raise (ValueError "codec can't decode").

(** ["verify round {}".format(r)] *)
Definition verify_round_str (r : nat) : str :=
  ascii_str ("verify round " ++ NilEmpty.string_of_uint (Nat.to_uint r)).

(** test_vdaf_ping_pong.py:13-158 [PingPongTester(num_rounds)]; the verification
    state is (round, output share). *)
Definition PingPongTester (num_rounds : nat) : Vdaf := {|
  vd_Measurement := Z;
  vd_AggParam := Z;
  vd_PublicShare := str;
  vd_InputShare := Z;
  vd_OutShare := Z;
  vd_AggShare := Z;
  vd_AggResult := Z;
  vd_VerifyState := nat * Z;
  vd_VerifierShare := str;
  vd_VerifierMessage := str;
  vd_ID := 4294967295;
  vd_VERIFY_KEY_SIZE := 0;
  vd_NONCE_SIZE := 0;
  vd_RAND_SIZE := 0;
  vd_SHARES := 2;
  vd_ROUNDS := num_rounds;
  (* 43-48 *)
  vd_shard := fun ctx measurement nonce rand => Ok (ascii_str "public share", [measurement; measurement]);
  (* 50-53 *)
  vd_is_valid := fun agg_param previous_agg_params => Ok (length previous_agg_params =? 0);
  (* 55-69 *)
  vd_verify_init := fun verify_key ctx agg_id agg_param nonce public_share input_share =>
    let* _ := check (bytes_eqb public_share (ascii_str "public share")) (ValueError "unexpected public share") in
    Ok ((0, input_share), verify_round_str 0);
  (* 80-92 *)
  vd_verify_next := fun ctx verify_state verifier_message =>
    let '(current_round, out_share) := verify_state in
    let* _ := check (bytes_eqb verifier_message (verify_round_str current_round)) (ValueError "unexpected verifier message") in
    if current_round + 1 =? num_rounds then Ok (inr out_share)
    else Ok (inl ((current_round + 1, out_share), verify_round_str (current_round + 1)));
  (* 71-78 *)
  vd_verifier_shares_to_message := fun ctx agg_param verifier_shares =>
    match verifier_shares with
    | [] => Raise IndexError
    | first :: others =>
      let* _ := foldM (fun _ verifier_share => check (bytes_eqb verifier_share first) (ValueError "unexpected verifier share")) others tt in
      Ok first
    end;
  (* 94-101 *)
  vd_agg_init := fun agg_param => Ok 0%Z;
  vd_agg_update := fun agg_param agg_share agg_delta => Ok (agg_share + agg_delta)%Z;
  (* 103-106 *)
  vd_merge := fun agg_param agg_shares => Raise NotImplementedError;
  (* 108-112 *)
  vd_unshard := fun agg_param agg_shares num_measurements => Ok (agg_param * fold_left Z.add agg_shares 0 / 2)%Z;
  (* 114-158 *)
  vd_encode_agg_param := fun agg_param => to_be_bytes agg_param 8;
  vd_decode_agg_param := fun encoded => Ok (from_be_bytes encoded);
  vd_encode_input_share := fun input_share => to_be_bytes input_share 8;
  vd_decode_input_share := fun agg_id encoded => Ok (from_be_bytes encoded);
  vd_encode_public_share := encode_utf8;
  vd_decode_public_share := decode_utf8;
  vd_encode_agg_share := fun agg_share => to_be_bytes agg_share 8;
  vd_decode_agg_share := fun agg_param encoded => Ok (from_be_bytes encoded);
  vd_encode_verifier_share := encode_utf8;
  vd_decode_verifier_share := fun verify_state encoded => decode_utf8 encoded;
  vd_encode_verifier_message := encode_utf8;
  vd_decode_verifier_message := fun verify_state encoded => decode_utf8 encoded;
  vd_encode_out_share := fun out_share => to_be_bytes out_share 8;
  vd_decode_out_share := fun agg_param encoded => Ok (from_be_bytes encoded);
|}.

(** The attribute [outbound]; other states do not have it. *)
Definition outbound_of {vdaf : Vdaf} (s : PPState vdaf) : res bytes :=
  match s with
  | Continued _ _ outbound | FinishedWithOutbound _ outbound => Ok outbound
  | _ => Raise AssertionError
  end.

(** test_vdaf_ping_pong.py:220-289 [test_multi_round], for one number of rounds: the
    final states of Leader and Helper.  The test passes [agg_param] and [ctx] to the
    methods for the later steps in the wrong order (267-272, 277-282). *)
Definition test_multi_round (num_rounds : nat) (ctx : bytes) (measurement agg_param : Z)
  : res (PPState (PingPongTester num_rounds) * PPState (PingPongTester num_rounds)) :=
  let vdaf := PingPongTester num_rounds in
  let num_steps := (num_rounds + 2) / 2 in
  let* (public_share, input_shares) := vd_shard vdaf ctx measurement [] [] in
  let* agg_param := vd_encode_agg_param vdaf agg_param in
  let* public_share := vd_encode_public_share vdaf public_share in
  let* input_share0 := get input_shares 0 in
  let* input_share0 := vd_encode_input_share vdaf input_share0 in
  let* leader_state := ping_pong_leader_init vdaf [] ctx agg_param [] public_share input_share0 in
  let* _ := match leader_state with
            | Continued _ verify_round _ => check (verify_round =? 0) AssertionError
            | _ => Raise AssertionError
            end in
  for_range 0 num_steps (leader_state, Start) (fun '(leader_state, helper_state) step =>
    let* outbound := outbound_of leader_state in
    let* helper_state :=
      if step =? 0 then
        let* _ := match leader_state with Continued _ _ _ => Ok tt | _ => Raise AssertionError end in
        let* input_share1 := get input_shares 1 in
        let* input_share1 := vd_encode_input_share vdaf input_share1 in
        ping_pong_helper_init vdaf [] ctx agg_param [] public_share input_share1 outbound
      else ping_pong_helper_continued vdaf agg_param ctx helper_state outbound in
    match leader_state with
    | Continued _ _ _ =>
      let* outbound := outbound_of helper_state in
      let* leader_state := ping_pong_leader_continued vdaf agg_param ctx leader_state outbound in
      Ok (leader_state, helper_state)
    | _ => Ok (leader_state, helper_state)
    end).
