(** Model of the star topology, /repo/draft-irtf-cfrg-vdaf.md:2029-2050 (line
    numbers refer to that file): verification by any number of Aggregators that
    exchange encoded messages with one of them, the Leader. *)
From Verif Require Export Vdaf.
Open Scope nat_scope.

Section Star.
Context (vdaf : Vdaf) (ctx : bytes).
Notation State := (vd_VerifyState vdaf).
Notation VShare := (vd_VerifierShare vdaf).
Notation Out := (vd_OutShare vdaf).

(** 2039: Aggregator [j] (the Leader is Aggregator 0) decodes its report share and
    starts verification, as the Aggregators of the ping-pong topology do
    (1842-1870). *)
Definition star_init (verify_key agg_param nonce public_share : bytes) (j : nat) (input_share : bytes) : res (State * VShare) :=
  let* agg_param := vd_decode_agg_param vdaf agg_param in
  let* public_share := vd_decode_public_share vdaf public_share in
  let* input_share := vd_decode_input_share vdaf j input_share in
  vd_verify_init vdaf verify_key ctx j agg_param nonce public_share input_share.

(** 2039-2042: the Leader gathers the verifier shares of the Helpers and computes
    the next verifier message, which it broadcasts in encoded form. *)
Definition star_message (agg_param : bytes) (leader : State * VShare) (sent : list bytes) : res (vd_VerifierMessage vdaf * bytes) :=
  let* agg_param := vd_decode_agg_param vdaf agg_param in
  let* shares := mapM (vd_decode_verifier_share vdaf (fst leader)) sent in
  let* message := vd_verifier_shares_to_message vdaf ctx agg_param (snd leader :: shares) in
  let* encoded := vd_encode_verifier_message vdaf message in
  Ok (message, encoded).

(** 2042-2046: what an Aggregator obtains from a verifier message: an output share
    if this is the last round, else its updated state and verifier share. *)
Definition star_output (state : State) (message : vd_VerifierMessage vdaf) : res Out :=
  let* r := vd_verify_next vdaf ctx state message in
  match r with inr o => Ok o | inl _ => Raise AssertionError end.
Definition star_continue (state : State) (message : vd_VerifierMessage vdaf) : res (State * VShare) :=
  let* r := vd_verify_next vdaf ctx state message in
  match r with inl x => Ok x | inr _ => Raise AssertionError end.
(** 2042: a Helper decodes the broadcast message. *)
Definition star_receive {A} (f : State -> vd_VerifierMessage vdaf -> res A) (encoded : bytes) (helper : State * VShare) : res A :=
  let* message := vd_decode_verifier_message vdaf (fst helper) encoded in
  f (fst helper) message.

(** 2039-2050: the rounds, [k] of them before the last one. *)
Fixpoint star_rounds (agg_param : bytes) (k : nat) (leader : State * VShare) (helpers : list (State * VShare)) : res (list Out) :=
  let* sent := mapM (fun h => vd_encode_verifier_share vdaf (snd h)) helpers in
  let* (message, encoded) := star_message agg_param leader sent in
  match k with
  | O =>
    let* o := star_output (fst leader) message in
    let* os := mapM (star_receive star_output encoded) helpers in
    Ok (o :: os)
  | S k =>
    let* leader := star_continue (fst leader) message in
    let* helpers := mapM (star_receive star_continue encoded) helpers in
    star_rounds agg_param k leader helpers
  end.

(** 2036-2050: verification of one report, given its encoded shares. *)
Definition star_run (verify_key agg_param nonce public_share : bytes) (input_shares : list bytes) : res (list Out) :=
  let* init := mapM (fun j =>
    let* input_share := get input_shares j in
    star_init verify_key agg_param nonce public_share j input_share) (range 0 (vd_SHARES vdaf)) in
  match init with
  | leader :: helpers => star_rounds agg_param (vd_ROUNDS vdaf - 1) leader helpers
  | [] => Raise IndexError
  end.
End Star.
