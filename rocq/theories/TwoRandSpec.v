(** Joint randomness that is not the one the proof was made with: what the
    verifier of Prio3 tells when an Aggregator is given a changed public share.
    Nothing here models a /repo function. *)
From Verif Require Export ZkSpec GuardSpec.
Open Scope nat_scope.

Section T.
Context {P : NttFieldClass} (v : Valid P).
Notation F := (F P).

(** The proof is made with [joint_rand], the query with [other_rand]. *)
Definition forked_verifier (meas prove_rand query_rand joint_rand other_rand : list F) : res (list F) :=
  let* proof := bbcggi19_prove v meas prove_rand joint_rand in
  bbcggi19_query v meas proof query_rand other_rand 1.

(** What anyone who has the verifier can compute: by how much the last entry
    misses the gadget applied to the wire values in the verifier. *)
Definition discrepancy (ver : list F) : F :=
  let c := elements_per_call v in
  fsub (fsum c (fun i => fmul (nth (1 + 2 * i) ver f0) (nth (2 + 2 * i) ver f0))) (nth (1 + 2 * c) ver f0).

(** A linear form in the encoded measurement.  Its coefficients are made of the
    two lists of joint randomness, of entries of the verifier, and of [ell],
    which stands for numbers that depend on the query randomness only. *)
Definition linear_form (ell : nat -> F) (ver joint_rand other_rand meas : list F) : F :=
  let c := elements_per_call v in
  fsum c (fun i => fmul (nth (2 + 2 * i) ver f0) (fsum (nth 0 (GADGET_CALLS v) 0) (fun k =>
    fmul (fmul (ell k) (fsub (npow (nth k other_rand f0) (S i)) (npow (nth k joint_rand f0) (S i))))
         (nth (k * c + i) meas f0)))).
End T.
