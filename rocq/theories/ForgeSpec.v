(** What a prover can do who knows the query randomness.  Nothing here models a
    /repo function. *)
From Verif Require Export CircuitSpec Spec FlpBBCGGI19 Circuits Vdaf Prio3 Prio3Spec.
Open Scope nat_scope.

(** The result of a circuit when its k-th call of the gadget, whatever the
    inputs, is answered by [y k] ([k] counts from 1). *)
Fixpoint answered {P : FieldClass} {A} (y : nat -> F P) (k : nat) (m : prog P A) : option A :=
  match m with
  | Ret a => Some a
  | Fail _ => None
  | Call _ _ f => answered y (S k) (f (y k))
  end.

(** Some answers make the outputs of the circuit vanish. *)
Definition answerable {P : NttFieldClass} (v : Valid P) (meas joint_rand : list (F P)) : Prop :=
  exists y out, answered y 1 (valid_eval v meas joint_rand 1) = Some out /\ allzero out.

(** A Client that shares any vector, without encoding a measurement. *)
Definition raw_flp {P : FieldClass} (flp : Flp P) : Flp P := {|
  Measurement := list (F P); AggResult := AggResult flp;
  JOINT_RAND_LEN := JOINT_RAND_LEN flp; PROVE_RAND_LEN := PROVE_RAND_LEN flp; QUERY_RAND_LEN := QUERY_RAND_LEN flp;
  MEAS_LEN := MEAS_LEN flp; OUTPUT_LEN := OUTPUT_LEN flp; PROOF_LEN := PROOF_LEN flp; VERIFIER_LEN := VERIFIER_LEN flp;
  flp_encode := fun vector => Ok vector;
  flp_prove := flp_prove flp; flp_query := flp_query flp; flp_decide := flp_decide flp;
  flp_truncate := flp_truncate flp; flp_decode := flp_decode flp |}.
Definition raw (p : Prio3) : Prio3 := {|
  p3_field := p3_field p; p3_flp := raw_flp (p3_flp p); p3_xof := p3_xof p; p3_ID := p3_ID p;
  p3_VERIFY_KEY_SIZE := p3_VERIFY_KEY_SIZE p; p3_SHARES := p3_SHARES p; p3_PROOFS := p3_PROOFS p |}.

(** Clients that send the reports they were given, whatever they are. *)
Definition sending (V : Vdaf) : Vdaf := {|
  vd_Measurement := vd_PublicShare V * list (vd_InputShare V);
  vd_AggParam := vd_AggParam V; vd_PublicShare := vd_PublicShare V; vd_InputShare := vd_InputShare V;
  vd_OutShare := vd_OutShare V; vd_AggShare := vd_AggShare V; vd_AggResult := vd_AggResult V;
  vd_VerifyState := vd_VerifyState V; vd_VerifierShare := vd_VerifierShare V; vd_VerifierMessage := vd_VerifierMessage V;
  vd_ID := vd_ID V; vd_VERIFY_KEY_SIZE := vd_VERIFY_KEY_SIZE V; vd_NONCE_SIZE := vd_NONCE_SIZE V;
  vd_RAND_SIZE := vd_RAND_SIZE V; vd_SHARES := vd_SHARES V; vd_ROUNDS := vd_ROUNDS V;
  vd_shard := fun _ report _ _ => Ok report;
  vd_is_valid := vd_is_valid V; vd_verify_init := vd_verify_init V; vd_verify_next := vd_verify_next V;
  vd_verifier_shares_to_message := vd_verifier_shares_to_message V;
  vd_agg_init := vd_agg_init V; vd_agg_update := vd_agg_update V; vd_merge := vd_merge V; vd_unshard := vd_unshard V;
  vd_encode_agg_param := vd_encode_agg_param V; vd_decode_agg_param := vd_decode_agg_param V;
  vd_encode_input_share := vd_encode_input_share V; vd_decode_input_share := vd_decode_input_share V;
  vd_encode_public_share := vd_encode_public_share V; vd_decode_public_share := vd_decode_public_share V;
  vd_encode_agg_share := vd_encode_agg_share V; vd_decode_agg_share := vd_decode_agg_share V;
  vd_encode_verifier_share := vd_encode_verifier_share V; vd_decode_verifier_share := vd_decode_verifier_share V;
  vd_encode_verifier_message := vd_encode_verifier_message V; vd_decode_verifier_message := vd_decode_verifier_message V;
  vd_encode_out_share := vd_encode_out_share V; vd_decode_out_share := vd_decode_out_share V |}.

(** The report with another proofs share for the Leader. *)
Definition with_proofs {P : FieldClass} (proofs : list (F P)) (input_shares : list (Prio3InputShare P)) : list (Prio3InputShare P) :=
  match input_shares with
  | Leader meas_share _ blind :: helpers => Leader meas_share proofs blind :: helpers
  | other => other
  end.

(** A vector for which answers exist whatever the joint randomness, and its
    result [r]. *)
Definition forges {P : NttFieldClass} (v : Valid P) (vector : list (F P)) (r : vAggResult v) : Prop :=
  exists out, length vector = vMEAS_LEN v /\
    (forall joint_rand, length joint_rand = vJOINT_RAND_LEN v -> answerable v vector joint_rand) /\
    valid_truncate v vector = Ok out /\ valid_decode v out 1 = Ok r.
Definition forgeable {P : NttFieldClass} (v : Valid P) (r : vAggResult v) : Prop :=
  exists vector, forges v vector r.

(** Every number is the representative of a field element. *)
Definition residues (M : Z) (l : list Z) : Prop := Forall (fun x => 0 <= x < M)%Z l.
