(** Vocabulary for what happens when the correlated randomness of a Poplar1 report
    is tampered with. Nothing here models a /repo function. *)
From Verif Require Export Poplar1ViewSpec.
From Verif Require Import Poplar1Spec.
Open Scope nat_scope.

(** How far the shares [AB0], [AB1] of (A, B) are from what belongs to the triple
    that the shares [abc0], [abc1] add up to and the authenticator [k], evaluated
    at the first element [z0] of the message of round one. *)
Definition corr_error {P : FieldClass} (abc0 abc1 AB0 AB1 : list (F P)) (k z0 : F P) : F P :=
  let AB := corr_pair (zip_with fadd abc0 abc1) k in
  let AB' := zip_with fadd AB0 AB1 in
  fadd (fmul (fsub (nth 0 AB' f0) (nth 0 AB f0)) z0) (fsub (nth 1 AB' f0) (nth 1 AB f0)).
(** The verification randomness of the candidate prefix on the path to [m]. *)
Definition path_rand {P : FieldClass} (prefixes : list (list bool)) (level : nat) (m : list bool) (r : list (F P)) : F P :=
  dot (map (fun x => if list_eq_dec Bool.bool_dec x (firstn (S level) m) then f1 else f0) prefixes) r.

(** Verification of the messages [msgs] of both rounds: the message of round one
    starts with the masked randomness, and round two succeeds iff the error is
    zero. *)
Definition corr_outcome (p : Poplar1) {P : FieldClass}
  (inj : list (F P) -> FieldVec (id_field_inner (p1_idpf p)) (id_field_leaf (p1_idpf p)))
  (ctx : bytes) (ap : Poplar1AggParam) (abc0 abc1 AB0 AB1 : list (F P)) (k x : F P)
  (msgs : list (FieldVec (id_field_inner (p1_idpf p)) (id_field_leaf (p1_idpf p)))) : Prop :=
  exists s0 s1 t0 t1 z, msgs = [s0; s1; t0; t1] /\
    p1_verifier_shares_to_message p ctx ap [s0; s1] = Ok (Some (inj z)) /\
    nth 0 z f0 = fadd (fadd (nth 0 abc0 f0) (nth 0 abc1 f0)) x /\
    p1_verifier_shares_to_message p ctx ap [t0; t1] =
      if feqb (corr_error abc0 abc1 AB0 AB1 k (nth 0 z f0)) f0
      then Ok None else Raise (ValueError "sketch verification failed").

