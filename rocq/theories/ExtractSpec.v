(** Vocabulary for C106: what the keys and the public share of a malicious Client
    can evaluate to (draft-irtf-cfrg-vdaf.md:6116-6150).  Nothing here models a
    /repo function. *)
From Verif Require Export IdpfSpec TamperSpec.
Open Scope nat_scope.

Section S.
Context (i : Idpf).
Notation FVec := (FieldVec (id_field_inner i) (id_field_leaf i)).

(** The seed and the control bits of a correction word: all but the payload. *)
Definition word : Type := bytes * (bool * bool).
Definition words_wf (words : list word) : Prop :=
  length words = id_BITS i /\ Forall (fun w => length (fst w) = id_KEY_SIZE i) words.
Definition payloads_wf (payloads : list FVec) : Prop :=
  length payloads = id_BITS i /\
  forall l w, nth_error payloads l = Some w -> of_level i l (id_VALUE_LEN i) w.
(** The public share made of them. *)
Definition public_of (words : list word) (payloads : list FVec) : list (CorrectionWord i) := combine words payloads.

(** The seed, the control bit and the converted value that Aggregator [j] has
    after [n] bits of the prefix, before a payload is added; payloads do not
    enter. *)
Fixpoint node (ctx nonce : bytes) (j : nat) (words : list word) (key : bytes) (prefix : list bool) (n : nat)
  : res (bytes * bool * FVec) :=
  match n with
  | 0 => Ok (key, negb (j =? 0), Inner [])
  | S m =>
    let* (seed, ctrl, _) := node ctx nonce j words key prefix m in
    let '(seed_cw, ctrl_cw) := nth m words ([], (false, false)) in
    let bit := nth m prefix false in
    let* (s, t) := extend i m seed ctx nonce in
    let x := if ctrl then xor (pick bit s) seed_cw else pick bit s in
    let c := if ctrl then xorb (pick bit t) (pick bit ctrl_cw) else pick bit t in
    let* (next, w) := convert i m x ctx nonce in
    Ok (next, c, w)
  end.

(** The control bits of the two Aggregators differ after [n] bits of the prefix. *)
Definition differ (ctx nonce : bytes) (words : list word) (key0 key1 : bytes) (prefix : list bool) (n : nat) : Prop :=
  exists s0 c0 w0 s1 c1 w1, node ctx nonce 0 words key0 prefix n = Ok (s0, c0, w0) /\
    node ctx nonce 1 words key1 prefix n = Ok (s1, c1, w1) /\ c0 <> c1.

(** What the two Aggregators' evaluations at one prefix add up to. *)
Definition joint_value (ctx nonce : bytes) (ps : list (CorrectionWord i)) (key0 key1 : bytes) (level : nat)
  (prefix : list bool) (v : FVec) : Prop :=
  exists y0 y1, idpf_eval i 0 ps key0 (Z.of_nat level) [prefix] ctx nonce = Ok [y0] /\
    idpf_eval i 1 ps key1 (Z.of_nat level) [prefix] ctx nonce = Ok [y1] /\ fv_add y0 y1 = Ok v.

(** [w0 - w1 + (c0 - c1) * payload]. *)
Definition node_value (w0 w1 : FVec) (c0 c1 : bool) (payload : FVec) : FVec :=
  let base := fv_plus w0 (fv_neg w1) in
  match c0, c1 with
  | true, false => fv_plus base payload
  | false, true => fv_plus base (fv_neg payload)
  | _, _ => base
  end.
End S.
Arguments joint_value {i}.
Arguments node_value {i}.
