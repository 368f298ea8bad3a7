(** Property C66: the soundness estimate of poc/plot_prio3_multiproof_robustness.py. *)
From Coq Require Import Lqa.
From Verif Require Import Base Field FlpBBCGGI19 Circuits Spec CircuitSpec FlpSpec Roots FlpInstances Primes Prio3 Prio3Spec Prio3Sound
  Plot PlotSpec PlotFacts.
Open Scope Q_scope.

(** C66.  For every invalid measurement and every proof, the fraction of the query
    randomness that accepts is at most the estimate for the padded numbers of
    gadget calls. *)
Theorem C66_padded : forall P : NttFieldClass, NttOk P -> forall v : Valid P, ValidOk v -> plottable v ->
  forall (meas proof joint_rand out : list (F P)) (Q : list (list (F P))),
  length meas = vMEAS_LEN v -> length joint_rand = vJOINT_RAND_LEN v -> length proof = proof_len v ->
  valid_eval_plain v meas joint_rand 1 = Ok out -> Exists (fun x => x <> f0) out -> NoDup Q ->
  (forall q, In q Q -> length q = query_rand_len v /\
     exists ver, bbcggi19_query v meas proof q joint_rand 1 = Ok ver /\ bbcggi19_decide v ver = Ok true) ->
  inject_Z (Z.of_nat (length Q)) <= padded_soundness v * inject_Z (MODULUS P ^ Z.of_nat (query_rand_len v)).
Proof. intros P HP v HV HS meas proof joint_rand out Q. now apply (padded_sound HP v HV). Qed.
Print Assumptions C66_padded.

(** C66.  The estimate of the script is that of the padded numbers if each gadget
    is called one time less than a power of two. *)
Theorem C66_script : forall (P : NttFieldClass) (v : Valid P),
  Forall (fun c => exists k, c + 1 = 2 ^ k)%nat (GADGET_CALLS v) -> base_soundness v = padded_soundness v.
Proof. exact @base_padded_pow. Qed.
Print Assumptions C66_script.

(** C66.  Several proofs: the fraction of the query randomness for which Prio3
    accepts an invalid measurement is at most the script's robustness bound for one
    verification and no precomputation. *)
Theorem C66_multiproof : forall P : NttFieldClass, NttOk P -> forall v : Valid P, ValidOk v -> plottable v ->
  forall (X : XofClass) (ID : Z) (vks n m : nat), (1 <= n)%nat -> (Z.of_nat n < MODULUS P)%Z ->
  let p := {| p3_field := P; p3_flp := FlpBBCGGI19 v; p3_xof := X; p3_ID := ID;
              p3_VERIFY_KEY_SIZE := vks; p3_SHARES := n; p3_PROOFS := m |} in
  forall ctx (ms ps : list (list (F P))) (jr : list (F P)) (Q : list (list (F P))),
  vecs n (vMEAS_LEN v) ms -> vecs n (proof_len v * m) ps -> length jr = (vJOINT_RAND_LEN v * m)%nat ->
  (forall k, (k < m)%nat -> exists out, valid_eval_plain v (vsum (vMEAS_LEN v) ms) (piece (vJOINT_RAND_LEN v) k jr) 1 = Ok out /\
     Exists (fun x => x <> f0) out) ->
  NoDup Q ->
  (forall qr, In qr Q -> length qr = (query_rand_len v * m)%nat /\ exists (vss : list (list (list (F P)))) parts msg,
     length vss = n /\
     (forall j, (j < n)%nat -> proof_verifiers p (nth j ms []) (nth j ps []) qr jr = Ok (nth j vss [])) /\
     p3_verifier_shares_to_message p ctx tt (map (fun j => (concat (nth j vss []), parts j)) (seq 0 n)) = Ok msg) ->
  inject_Z (Z.of_nat (length Q)) <= robustness (padded_soundness v) 0 1 m * inject_Z (MODULUS P ^ Z.of_nat (query_rand_len v * m)).
Proof.
  intros P HP v HV HS X ID vks n m Hn HnM p ctx ms ps jr Q. now apply (padded_sound_multi HP v HV X ID vks n m Hn HnM ctx ms ps jr Q).
Qed.
Print Assumptions C66_multiproof.

(** C66.  Without that condition the estimate of the script is no bound: it
    ignores the padding.  Here are a circuit, an invalid measurement and a proof
    that is accepted for more query randomness than the estimate allows. *)
Definition attack_circuit : Valid Field64 := SumVec Field64 2 1 1.
Definition attack_meas : list (F Field64) := map fof [2; 3]%Z.
Definition attack_joint_rand : list (F Field64) := map fof [3; 5]%Z.
Definition attack_proof : list (F Field64) :=
  map fof [0; 0; 7759539220024965665; 3374422265606455184; 4093830672275973202; 17296969882547980939;
           14352913397138611119; 14008085502583708034; 15723529885323947793]%Z.
Definition attack_queries : list (list (F Field64)) := map (fun z => [fof z]) [2; 3; 4; 5; 6; 7]%Z.

Theorem C66_refuted : exists out,
  std_circuit Field64 attack_circuit /\ plottable attack_circuit /\
  length attack_meas = vMEAS_LEN attack_circuit /\ length attack_joint_rand = vJOINT_RAND_LEN attack_circuit /\
  length attack_proof = proof_len attack_circuit /\
  valid_eval_plain attack_circuit attack_meas attack_joint_rand 1 = Ok out /\ Exists (fun x => x <> f0) out /\
  NoDup attack_queries /\
  (forall q, In q attack_queries -> length q = query_rand_len attack_circuit /\ exists ver,
     bbcggi19_query attack_circuit attack_meas attack_proof q attack_joint_rand 1 = Ok ver /\ bbcggi19_decide attack_circuit ver = Ok true) /\
  ~ inject_Z (Z.of_nat (length attack_queries)) <=
      base_soundness attack_circuit * inject_Z (MODULUS Field64 ^ Z.of_nat (query_rand_len attack_circuit)).
Proof.
  eexists. split; [apply (std_SumVec _ 2 1 1); [reflexivity | vm_compute; discriminate]|].
  split; [split; [discriminate | split; repeat constructor]|].
  split; [reflexivity|]. split; [reflexivity|]. split; [reflexivity|]. split; [vm_compute; reflexivity|].
  split; [left; intros E; apply (f_equal val) in E; vm_compute in E; discriminate|].
  split; [|split].
  - assert (N : NoDup (map (map val) attack_queries)).
    { vm_compute. repeat (constructor; [cbn; intuition discriminate|]). constructor. }
    now apply NoDup_map_inv in N.
  - intros q Hq. cbn [attack_queries map In] in Hq.
    assert (H : forall q, match bbcggi19_query attack_circuit attack_meas attack_proof q attack_joint_rand 1 with
      | Ok ver => bbcggi19_decide attack_circuit ver | Raise e => Raise e end = Ok true -> exists ver,
      bbcggi19_query attack_circuit attack_meas attack_proof q attack_joint_rand 1 = Ok ver /\ bbcggi19_decide attack_circuit ver = Ok true).
    { intros q' H. destruct (bbcggi19_query _ _ _ q' _ _) as [ver|]; [|discriminate]. now exists ver. }
    repeat (destruct Hq as [<-|Hq]; [split; [reflexivity|]; apply H; vm_compute; reflexivity|]). destruct Hq.
  - intros H. vm_compute in H. apply H. reflexivity.
Qed.
Print Assumptions C66_refuted.

Example C66_example : plottable (Count Field64) /\ Forall (fun c => exists k, c + 1 = 2 ^ k)%nat (GADGET_CALLS (Count Field64)) /\
  base_soundness (Count Field64) == 2 # 18446744069414584320.
Proof.
  split; [split; [discriminate | split; repeat constructor]|]. split; [repeat constructor; now exists 1%nat|]. vm_compute. reflexivity.
Qed.
