(** The message structures of draft-irtf-cfrg-vdaf.md (line numbers refer to that
    file), in the presentation language of TLS. *)
From Verif Require Export WireSpec.
Open Scope nat_scope.

(** 1790-1812: Message *)
Definition PingPongMessage : wty :=
  Wselect [(0%Z, Wstruct [Wvar 4]); (1%Z, Wstruct [Wvar 4; Wvar 4]); (2%Z, Wstruct [Wvar 4])].

Section P3.
Context (p : Prio3).
Let flp := p3_flp p.
Let S := SEED_SIZE (p3_xof p).
Let F := ENCODED_SIZE (p3_field p).
Let joint_rand : bool := 0 <? JOINT_RAND_LEN flp.

(** 3413-3415 *)
Definition Prio3Seed : wty := Wopaque S.
(** 3420-3422 *)
Definition Prio3FieldElem : wty := Wopaque F.
(** 3426-3436: the empty string, or Prio3PublicShareWithJointRand *)
Definition Prio3PublicShare : wty := Wstruct (if joint_rand then [Wvec Prio3Seed (S * p3_SHARES p)] else []).
(** 3454-3459 *)
Definition Prio3LeaderShare : wty :=
  Wstruct [Wvec Prio3FieldElem (F * MEAS_LEN flp); Wvec Prio3FieldElem (F * PROOF_LEN flp * p3_PROOFS p)].
(** 3464-3468 *)
Definition Prio3HelperShare : wty := Wstruct [Prio3Seed].
(** 3473-3478, 3483-3488: with joint randomness *)
Definition Prio3LeaderShareWithJointRand : wty := Wstruct [Prio3LeaderShare; Prio3Seed].
Definition Prio3HelperShareWithJointRand : wty := Wstruct [Prio3HelperShare; Prio3Seed].
(** 3440-3451: which of the four is used *)
Definition Prio3InputShareStruct (agg_id : nat) : wty :=
  if agg_id =? 0 then (if joint_rand then Prio3LeaderShareWithJointRand else Prio3LeaderShare)
  else (if joint_rand then Prio3HelperShareWithJointRand else Prio3HelperShare).
(** 3494-3509 *)
Definition Prio3VerifierShare : wty :=
  let V := VERIFIER_LEN flp * p3_PROOFS p in
  Wstruct (Wvec Prio3FieldElem (F * V) :: if joint_rand then [Prio3Seed] else []).
(** 3513-3521 *)
Definition Prio3VerifierMessage : wty := Wstruct (if joint_rand then [Prio3Seed] else []).
(** 3527-3531 *)
Definition Prio3AggShare : wty := Wstruct [Wvec Prio3FieldElem (F * OUTPUT_LEN flp)].
End P3.

Section P1.
Context (p : Poplar1).
Let idpf := p1_idpf p.
Let Fi := ENCODED_SIZE (id_field_inner idpf).
Let Fl := ENCODED_SIZE (id_field_leaf idpf).
Let B := id_BITS idpf.

(** 5407-5409, 5414-5416 *)
Definition Poplar1FieldInner : wty := Wopaque Fi.
Definition Poplar1FieldLeaf : wty := Wopaque Fl.
(** 5432-5441 *)
Definition Poplar1PublicShareStruct : wty :=
  Wstruct [Wopaque ((2 * B + 7) / 8); Wopaque (id_KEY_SIZE idpf * B);
           Wvec Poplar1FieldInner (Fi * id_VALUE_LEN idpf * (B - 1)); Wvec Poplar1FieldLeaf (Fl * id_VALUE_LEN idpf)].
(** 5477-5484 *)
Definition Poplar1InputShareStruct : wty :=
  Wstruct [Wopaque (id_KEY_SIZE idpf); Wopaque (SEED_SIZE (p1_xof p));
           Wvec Poplar1FieldInner (Fi * 2 * (B - 1)); Wvec Poplar1FieldLeaf (Fl * 2)].
(** 5496-5508 (verifier shares of round one), 5531-5543 (messages of round one) *)
Definition Poplar1RoundOne (inner : bool) : wty :=
  if inner then Wstruct [Wvec Poplar1FieldInner (Fi * 3)] else Wstruct [Wvec Poplar1FieldLeaf (Fl * 3)].
(** 5512-5524: verifier shares of round two *)
Definition Poplar1RoundTwo (inner : bool) : wty :=
  if inner then Wstruct [Poplar1FieldInner] else Wstruct [Poplar1FieldLeaf].
(** 5548-5551: the message of round two is the empty string *)
Definition Poplar1EmptyMessage : wty := Wstruct [].
(** 5561-5573 *)
Definition Poplar1AggShareStruct (inner : bool) (prefix_count : nat) : wty :=
  if inner then Wstruct [Wvec Poplar1FieldInner (Fi * prefix_count)] else Wstruct [Wvec Poplar1FieldLeaf (Fl * prefix_count)].
End P1.

(** 5579-5585, with [prefixes_len] of 5595 *)
Definition Poplar1AggParamStruct (level : Z) (num_prefixes : nat) : wty :=
  Wstruct [Wuint 2; Wuint 4; Wopaque (Z.to_nat (((level + 1) + 7) / 8) * num_prefixes)].
