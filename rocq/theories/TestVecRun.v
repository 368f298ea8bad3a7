(** Running a VDAF the way /repo/poc/vdaf_poc/test_utils.py and
    /repo/poc/gen_test_vec.py do, and collecting every encoded message. *)
From Coq Require Import Strings.String.
From Verif Require Export TestVecBase Vdaf.
Open Scope nat_scope.

Section Run.
Context (v : Vdaf) (verify_key ctx : bytes) (agg_param : vd_AggParam v).

Definition tv_init (nonce : bytes) (public_share : vd_PublicShare v) (input_shares : list (vd_InputShare v))
  : res (list (vd_VerifyState v * vd_VerifierShare v)) :=
  mapM (fun '(j, s) => vd_verify_init v verify_key ctx j agg_param nonce public_share s)
       (combine (seq 0 (length input_shares)) input_shares).

Definition as_left {A B} (x : A + B) : res A := match x with inl a => Ok a | inr _ => Raise AssertionError end.
Definition as_right {A B} (x : A + B) : res B := match x with inl _ => Raise AssertionError | inr b => Ok b end.

(** [n] rounds: the encoded verifier shares of every round, the encoded verifier
    messages, and the output shares. *)
Fixpoint tv_rounds (n : nat) (l : list (vd_VerifyState v * vd_VerifierShare v))
  : res (list (list bytes) * list bytes * list (vd_OutShare v)) :=
  match n with
  | O => Raise AssertionError
  | S n' =>
    let* enc := mapM (fun x => vd_encode_verifier_share v (snd x)) l in
    let* msg := vd_verifier_shares_to_message v ctx agg_param (map snd l) in
    let* enc_msg := vd_encode_verifier_message v msg in
    let* outs := mapM (fun x => vd_verify_next v ctx (fst x) msg) l in
    match n' with
    | O =>
      let* outs := mapM as_right outs in
      Ok ([enc], [enc_msg], outs)
    | S _ =>
      let* l := mapM as_left outs in
      let* (shares, msgs, outs) := tv_rounds n' l in
      Ok (enc :: shares, enc_msg :: msgs, outs)
    end
  end.

(** Every message of one report: public share, input shares, verifier shares per
    round, verifier messages, output shares. *)
Definition tv_report (report : vd_Measurement v * bytes * bytes) : res (list (list bytes) * list (vd_OutShare v)) :=
  let '(measurement, nonce, rand) := report in
  let* (public_share, input_shares) := vd_shard v ctx measurement nonce rand in
  let* enc_public := vd_encode_public_share v public_share in
  let* enc_input := mapM (vd_encode_input_share v) input_shares in
  let* l := tv_init nonce public_share input_shares in
  let* (shares, msgs, outs) := tv_rounds (vd_ROUNDS v) l in
  let* enc_outs := mapM (vd_encode_out_share v) outs in
  Ok ([[enc_public]; enc_input] ++ shares ++ [msgs; enc_outs], outs).

(** The encoded aggregate shares and the result. *)
Definition tv_aggregate (outs : list (list (vd_OutShare v))) (num : nat) : res (list bytes * vd_AggResult v) :=
  let* agg := mapM (fun j =>
    let* a := vd_agg_init v agg_param in
    foldM (fun a o => let* x := get o j in vd_agg_update v agg_param a x) outs a) (seq 0 (vd_SHARES v)) in
  let* enc := mapM (vd_encode_agg_share v) agg in
  let* r := vd_unshard v agg_param agg num in
  Ok (enc, r).

Definition same (x : list (list bytes)) (y : list (list string)) : bool :=
  if (list_eq_dec (list_eq_dec (list_eq_dec Byte.byte_eq_dec)) x (map (map hex) y)) then true else false.

Definition tv_check (reports : list (vd_Measurement v * bytes * bytes)) (expected : list (list (list string)))
  (agg_shares : list string) (check_result : vd_AggResult v -> bool) : bool :=
  match mapM tv_report reports with
  | Ok l =>
    (fix go (l : list (list (list bytes) * list (vd_OutShare v))) (e : list (list (list string))) : bool :=
       match l, e with
       | [], [] => true
       | x :: l', y :: e' => same (fst x) y && go l' e'
       | _, _ => false
       end) l expected &&
    match tv_aggregate (map snd l) (length reports) with
    | Ok (enc, r) => same [enc] [agg_shares] && check_result r
    | Raise _ => false
    end
  | Raise _ => false
  end.

(** Verification of a report given by its encoded shares: the number of rounds
    whose message was accepted, and the exception that ended it, if any. *)
Fixpoint tv_rounds_bad (n : nat) (l : list (vd_VerifyState v * vd_VerifierShare v)) : list nat :=
  match n with
  | O => []
  | S n' =>
    match vd_verifier_shares_to_message v ctx agg_param (map snd l) with
    | Raise _ => [1]
    | Ok msg =>
      match mapM (fun x => vd_verify_next v ctx (fst x) msg) l with
      | Raise _ => [0; 2]
      | Ok outs =>
        match mapM as_left outs with
        | Raise _ => [0; 0]
        | Ok l => 0 :: 0 :: tv_rounds_bad n' l
        end
      end
    end
  end.
Definition tv_bad (nonce : bytes) (public_share : string) (input_shares : list string) : list nat :=
  match (let* p := vd_decode_public_share v (hex public_share) in
         let* s := mapM (fun '(j, s) => vd_decode_input_share v j (hex s))
                        (combine (seq 0 (length input_shares)) input_shares) in
         tv_init nonce p s) with
  | Raise _ => [9]
  | Ok l => tv_rounds_bad (vd_ROUNDS v) l
  end.

(** Verification by one aggregator up to a message that is given encoded: whether
    the verifier share is the expected one and the message is rejected. *)
Definition tv_bad_message (nonce : bytes) (public_share : string) (agg_id : nat) (input_share verifier_share message : string) : bool :=
  match (let* p := vd_decode_public_share v (hex public_share) in
         let* s := vd_decode_input_share v agg_id (hex input_share) in
         let* (state, share) := vd_verify_init v verify_key ctx agg_id agg_param nonce p s in
         let* enc := vd_encode_verifier_share v share in
         let* msg := vd_decode_verifier_message v state (hex message) in
         Ok (enc, vd_verify_next v ctx state msg)) with
  | Ok (enc, Raise (ValueError _)) => same [[enc]] [[verifier_share]]
  | _ => false
  end.
End Run.
