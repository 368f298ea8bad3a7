(** What verification reveals: C63 (FLP), C64 (Poplar1 sketch). *)
From Verif Require Import ZkSpec ZkFacts SketchSpec SketchFacts FlpInstances MeasFacts FieldFacts Poplar1Run Props_Poplar1.
Open Scope nat_scope.

(** C63.  Fix a measurement in the language of the circuit, the joint randomness
    and query randomness the verifier does not refuse.  Every verifier an honest
    proof yields is one the simulator, which is not given the measurement,
    outputs for some wire values; and each outcome of the simulator is the
    verifier of exactly one choice of prove randomness: the verifier is
    distributed as the simulator's output on uniform wire values. *)
Theorem C63_verifier : forall P : NttFieldClass, NttOk P -> forall v : Valid P, ValidOk v ->
  forall meas query_rand joint_rand : list (F P),
  length meas = vMEAS_LEN v -> length joint_rand = vJOINT_RAND_LEN v -> length query_rand = query_rand_len v ->
  circuit_zero v meas joint_rand -> test_points_ok v query_rand ->
  (forall prove_rand, length prove_rand = prove_rand_len v ->
     exists w, length w = prove_rand_len v /\ honest_verifier v meas prove_rand query_rand joint_rand = simulate v w) /\
  (forall w, length w = prove_rand_len v ->
     exists prove_rand, length prove_rand = prove_rand_len v /\
       honest_verifier v meas prove_rand query_rand joint_rand = simulate v w /\
       forall prove_rand', length prove_rand' = prove_rand_len v ->
         honest_verifier v meas prove_rand' query_rand joint_rand = simulate v w -> prove_rand' = prove_rand).
Proof. exact @zk_verifier. Qed.
Print Assumptions C63_verifier.

(** C63.  With additive shares for [k + 1] Aggregators, all of which but number
    [j] pool what they see: for two measurements in the language, each view of the
    first arises from exactly one choice of coins for the second. *)
Theorem C63_view : forall P : NttFieldClass, NttOk P -> forall v : Valid P, ValidOk v ->
  forall k j (meas meas' query_rand joint_rand : list (F P)),
  length meas = vMEAS_LEN v -> length meas' = vMEAS_LEN v -> length joint_rand = vJOINT_RAND_LEN v ->
  length query_rand = query_rand_len v -> circuit_zero v meas joint_rand -> circuit_zero v meas' joint_rand ->
  test_points_ok v query_rand -> (Z.of_nat (S k) < MODULUS P)%Z -> j <= k ->
  forall c, coins_wf v k c ->
  exists view, coalition_view v (S k) j meas query_rand joint_rand c = Ok view /\
  exists c', coins_wf v k c' /\ coalition_view v (S k) j meas' query_rand joint_rand c' = Ok view /\
    forall c'', coins_wf v k c'' -> coalition_view v (S k) j meas' query_rand joint_rand c'' = Ok view -> c'' = c'.
Proof. exact @zk_view. Qed.
Print Assumptions C63_view.

(** C63.  In particular for the five circuits of the library. *)
Theorem C63_std : forall P : NttFieldClass, NttOk P -> forall v : Valid P, std_circuit P v ->
  forall k j (meas meas' query_rand joint_rand : list (F P)),
  length meas = vMEAS_LEN v -> length meas' = vMEAS_LEN v -> length joint_rand = vJOINT_RAND_LEN v ->
  length query_rand = query_rand_len v -> accepts v meas -> accepts v meas' ->
  test_points_ok v query_rand -> (Z.of_nat (S k) < MODULUS P)%Z -> j <= k ->
  forall c, coins_wf v k c ->
  exists view, coalition_view v (S k) j meas query_rand joint_rand c = Ok view /\
  exists c', coins_wf v k c' /\ coalition_view v (S k) j meas' query_rand joint_rand c' = Ok view /\
    forall c'', coins_wf v k c'' -> coalition_view v (S k) j meas' query_rand joint_rand c'' = Ok view -> c'' = c'.
Proof.
  intros P HP v HS k j meas meas' qr jr Lm Lm' Lj Lq A A'.
  apply (zk_view HP v (proj1 (std_ok HP v HS))); [exact Lm | exact Lm' | exact Lj | exact Lq | exact (A jr Lj) | exact (A' jr Lj)].
Qed.
Print Assumptions C63_std.

(** A Count measurement of one and of zero, with the verifier they share, and
    the simulator's output. *)
Definition vals (r : res (list (F Field64))) : list Z := match r with Ok l => map val l | Raise _ => [] end.
Example C63_example :
  let half := fof 9223372034707292161 : F Field64 in
  vals (honest_verifier (Count Field64) [f1] (map fof [5; 7]%Z) (map fof [3]%Z) []) = [0; 9; 13; 117]%Z /\
  vals (honest_verifier (Count Field64) [f0] [fsub (fof 5) half; fsub (fof 7) half] (map fof [3]%Z) []) = [0; 9; 13; 117]%Z /\
  vals (simulate (Count Field64) (map fof [9; 13]%Z)) = [0; 9; 13; 117]%Z.
Proof. cbv zeta. repeat apply conj; vm_compute; reflexivity. Qed.
Example C63_coins : coins_wf (Count Field64) 1 (map fof [5; 7]%Z, [map fof [4]%Z], [map fof [1; 2; 3; 4; 5]%Z]) /\
  is_ok (coalition_view (Count Field64) 2 0 [f1] (map fof [3]%Z) [] (map fof [5; 7]%Z, [map fof [4]%Z], [map fof [1; 2; 3; 4; 5]%Z])) = true /\
  accepts (Count Field64) [f1] /\ accepts (Count Field64) [f0] /\ test_points_ok (Count Field64) (map fof [3]%Z).
Proof.
  split; [vm_compute; repeat split; repeat constructor|]. split; [vm_compute; reflexivity|].
  split; [|split].
  - intros [|]; [|discriminate]. intros _. eexists. split; [vm_compute; reflexivity|]. repeat constructor.
  - intros [|]; [|discriminate]. intros _. eexists. split; [vm_compute; reflexivity|]. repeat constructor.
  - intros [|i] Hi; [|cbn in Hi; lia]. intros E. apply (f_equal val) in E. vm_compute in E. discriminate.
Qed.

(** C64.  Two Aggregators verify the sketch of an honest client, so that their
    data shares add up to zero or a one-hot vector and the authenticator shares
    to [k] times it.  Whatever Aggregator 0 holds, its values [v0], its share of
    the triple (a, b, c) and its share of (A, B): for any two clients with the
    same [v0], each exchange of messages of the first arises from exactly one
    triple share of Aggregator 1 with the second. *)
Theorem C64_inner0 : forall (p : Poplar1) (lim : Z), Poplar1Ok p lim ->
  forall ctx agg_param (k k' : F (id_field_inner (p1_idpf p))) n v0 v1 v1' r abc0 AB0,
  honest_values k n v0 v1 -> honest_values k' n v0 v1' -> length r = n ->
  forall abc1, exists m,
    sketch_messages p Inner ctx agg_param AB0 (other_AB k abc0 abc1 AB0) abc0 abc1 v0 v1 r = Ok m /\
    exists abc1',
      sketch_messages p Inner ctx agg_param AB0 (other_AB k' abc0 abc1' AB0) abc0 abc1' v0 v1' r = Ok m /\
      forall abc, sketch_messages p Inner ctx agg_param AB0 (other_AB k' abc0 abc AB0) abc0 abc v0 v1' r = Ok m -> abc = abc1'.
Proof. exact (fun p lim HO => sketch_private0 p Inner (view_inner p lim HO)). Qed.
Print Assumptions C64_inner0.

(** The same for Aggregator 1 ... *)
Theorem C64_inner1 : forall (p : Poplar1) (lim : Z), Poplar1Ok p lim ->
  forall ctx agg_param (k k' : F (id_field_inner (p1_idpf p))) n v0 v0' v1 r abc1 AB1,
  honest_values k n v0 v1 -> honest_values k' n v0' v1 -> length r = n ->
  forall abc0, exists m,
    sketch_messages p Inner ctx agg_param (other_AB k abc0 abc1 AB1) AB1 abc0 abc1 v0 v1 r = Ok m /\
    exists abc0',
      sketch_messages p Inner ctx agg_param (other_AB k' abc0' abc1 AB1) AB1 abc0' abc1 v0' v1 r = Ok m /\
      forall abc, sketch_messages p Inner ctx agg_param (other_AB k' abc abc1 AB1) AB1 abc abc1 v0' v1 r = Ok m -> abc = abc0'.
Proof. exact (fun p lim HO => sketch_private1 p Inner (view_inner p lim HO)). Qed.
Print Assumptions C64_inner1.

(** ... and for the leaf field. *)
Theorem C64_leaf0 : forall (p : Poplar1) (lim : Z), Poplar1Ok p lim ->
  forall ctx agg_param (k k' : F (id_field_leaf (p1_idpf p))) n v0 v1 v1' r abc0 AB0,
  honest_values k n v0 v1 -> honest_values k' n v0 v1' -> length r = n ->
  forall abc1, exists m,
    sketch_messages p Leaf ctx agg_param AB0 (other_AB k abc0 abc1 AB0) abc0 abc1 v0 v1 r = Ok m /\
    exists abc1',
      sketch_messages p Leaf ctx agg_param AB0 (other_AB k' abc0 abc1' AB0) abc0 abc1' v0 v1' r = Ok m /\
      forall abc, sketch_messages p Leaf ctx agg_param AB0 (other_AB k' abc0 abc AB0) abc0 abc v0 v1' r = Ok m -> abc = abc1'.
Proof. exact (fun p lim HO => sketch_private0 p Leaf (view_leaf p lim HO)). Qed.
Print Assumptions C64_leaf0.

Theorem C64_leaf1 : forall (p : Poplar1) (lim : Z), Poplar1Ok p lim ->
  forall ctx agg_param (k k' : F (id_field_leaf (p1_idpf p))) n v0 v0' v1 r abc1 AB1,
  honest_values k n v0 v1 -> honest_values k' n v0' v1 -> length r = n ->
  forall abc0, exists m,
    sketch_messages p Leaf ctx agg_param (other_AB k abc0 abc1 AB1) AB1 abc0 abc1 v0 v1 r = Ok m /\
    exists abc0',
      sketch_messages p Leaf ctx agg_param (other_AB k' abc0' abc1 AB1) AB1 abc0' abc1 v0' v1 r = Ok m /\
      forall abc, sketch_messages p Leaf ctx agg_param (other_AB k' abc abc1 AB1) AB1 abc abc1 v0' v1 r = Ok m -> abc = abc0'.
Proof. exact (fun p lim HO => sketch_private1 p Leaf (view_leaf p lim HO)). Qed.
Print Assumptions C64_leaf1.

(** Two clients, one with its measurement under the first prefix and one under
    the second. *)
Example C64_example :
  let v0 := [map fof [10; 20]%Z; map fof [30; 40]%Z] : list (list (F Field64)) in
  let v1 := [map fof [-9; -13]%Z; map fof [-30; -40]%Z] in
  let v1' := [map fof [-10; -20]%Z; map fof [-29; -37]%Z] in
  honest_values (fof 7) 2 v0 v1 /\ honest_values (fof 3) 2 v0 v1' /\
  is_ok (sketch_messages toy_p1 Inner [] (0%Z, [[false]; [true]]) (fof 1, fof 2) (other_AB (fof 7) (fof 1, fof 2, fof 3) (fof 4, fof 5, fof 6) (fof 1, fof 2))
    (fof 1, fof 2, fof 3) (fof 4, fof 5, fof 6) v0 v1 (map fof [8; 9]%Z)) = true.
Proof.
  cbv zeta. split; [|split; [|vm_compute; reflexivity]].
  all: split; [reflexivity|]; split; [reflexivity|]; split; [apply Forall_forall; cbn; intuition (subst; reflexivity)|]; split; [apply Forall_forall; cbn; intuition (subst; reflexivity)|];
    split; [|intros [|[|i]] Hi; [apply F_eq; vm_compute; reflexivity .. | lia]].
  - exists 0. intros [|[|i]] Hi; [apply F_eq; vm_compute; reflexivity .. | lia].
  - exists 1. intros [|[|i]] Hi; [apply F_eq; vm_compute; reflexivity .. | lia].
Qed.
