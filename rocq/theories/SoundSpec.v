(** Vocabulary for soundness over all randomness.  Nothing here models a /repo
    function. *)
From Verif Require Export CircuitSpec Spec MeasSpec Prio3 Prio3Spec.
Open Scope nat_scope.

(** At most [A] joint randomness vectors make the circuit accept [meas]. *)
Definition joint_bound {P : NttFieldClass} (v : Valid P) (meas : list (F P)) (A : Z) : Prop :=
  forall Q, NoDup Q -> (forall joint_rand, In joint_rand Q -> accepts_with v meas joint_rand) -> (Z.of_nat (length Q) <= A)%Z.

(** No gadget polynomial has a degree above [d]. *)
Definition query_bound {P : NttFieldClass} (v : Valid P) (d : nat) : Prop :=
  forall i, i < length (GADGETS v) ->
    DEGREE (nth i (GADGETS v) Mul) * (wire_poly_len (nth i (GADGET_CALLS v) 0) - 1) <= d.

Section SS.
Context {P : NttFieldClass} (v : Valid P) (X : XofClass) (ID : Z) (vks n m : nat).
Notation F := (F P).

Definition prio3_of : Prio3 :=
  {| p3_field := P; p3_flp := FlpBBCGGI19 v; p3_xof := X; p3_ID := ID;
     p3_VERIFY_KEY_SIZE := vks; p3_SHARES := n; p3_PROOFS := m |}.

(** Measurement shares [ms] with proofs shares [ps] are accepted for joint
    randomness [jr] and query randomness [qr]: the verifier shares computed from
    them combine to a message. *)
Definition accepted (ctx : bytes) (ms ps : list (list F)) (jr qr : list F) : Prop :=
  exists (vss : list (list (list F))) parts msg,
    length vss = n /\
    (forall j, j < n -> proof_verifiers prio3_of (nth j ms []) (nth j ps []) qr jr = Ok (nth j vss [])) /\
    p3_verifier_shares_to_message prio3_of ctx tt (map (fun j => (concat (nth j vss []), parts j)) (seq 0 n)) = Ok msg.

(** [S] is a set of pairs of joint and query randomness for which a prover who
    chooses the proof shares after seeing the joint randomness is successful. *)
Definition successes (ctx : bytes) (ms : list (list F)) (prover : list F -> list (list F)) (S : list (list F * list F)) : Prop :=
  (forall jr, length jr = vJOINT_RAND_LEN v * m -> vecs n (proof_len v * m) (prover jr)) /\
  NoDup S /\
  forall jr qr, In (jr, qr) S -> length jr = vJOINT_RAND_LEN v * m /\ length qr = query_rand_len v * m /\
    accepted ctx ms (prover jr) jr qr.

(** The number of all pairs of joint and query randomness. *)
Definition all_rand : Z := (MODULUS P ^ Z.of_nat ((vJOINT_RAND_LEN v + query_rand_len v) * m))%Z.
End SS.
