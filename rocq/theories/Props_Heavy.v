(** Property C87: the heavy hitters protocol that the document builds from Poplar1
    (draft-irtf-cfrg-vdaf.md:4741-4786). *)
From Verif Require Import HeavyHitters HeavySpec HeavyFacts HeavyRun Poplar1Spec Poplar1Props Poplar1Inst Field FieldProofs Vdaf.
From Verif Require Import Poplar1 Xof XofSpec Idpf RobustSpec DeploySpec Props_Poplar1 Props_Robust1 IdpfInst Roots.
From Coq Require Import Lia.
Open Scope nat_scope.

(** C87.  For honest clients the Collector obtains, in lexicographic order and
    without repetitions, exactly the strings held by at least [T] clients, ... *)
Theorem C87_honest : forall ts aes bound bits,
  (forall k b, length b = 16 -> length (aes k b) = 16) -> (Z.of_nat bound < 2 ^ 120)%Z -> 0 < bits -> (Z.of_nat bits <= 65536)%Z ->
  let p := p1_obj ts aes bound bits in
  forall key ctx ms T, length key = 32 -> ctx_ok ctx -> p1_sizes_ok p ms -> Forall (fun r => length (fst (fst r)) = bits) ms ->
  (Z.of_nat (length ms) < MODULUS Field64)%Z ->
  let query ap := run_vdaf (p1_vdaf p) key ap ctx ms in
  let strings := map (fun r => fst (fst r)) ms in
  (exists l h, heavy_hitters query T bits = Ok (l, h) /\ sorted_prefixes l /\
     (forall y, In y l <-> length y = bits /\ (T <= Z.of_nat (holders y strings))%Z) /\ valid_history h) \/
  (heavy_hitters query T bits = Raise OutOfFuel /\ exists n, p1_ran_out p n).
Proof.
  intros ts aes bound bits Ha Hb H0 H1 p key ctx ms T Hk Hc Hs Hm HN query strings.
  destruct (heavy_hitters query T bits) as [[l h]|e] eqn:E.
  - left. exists l, h. split; [easy|]. apply (exact_result query T bits strings H0); [|intros; eapply honest_exact; eassumption|easy].
    unfold strings. apply Forall_map. exact Hm.
  - right. destruct (honest_total ts aes bound bits Ha Hb H0 H1 key ctx Hk Hc ms Hs Hm HN T) as [(l & h & X)|(e' & X & -> & R)].
    + unfold query, p in E. rewrite E in X. discriminate.
    + split; [|exact R]. unfold query, p in E. rewrite E in X. exact X.
Qed.
Print Assumptions C87_honest.

(** ... the Aggregators see one aggregation parameter per level, whose prefixes are
    at level 0 both strings of one bit and at level [k] > 0 exactly the extensions
    by one bit of the strings of [k] bits that at least [T] clients' strings start
    with, down to the last level or to the first where there are none, ... *)
Theorem C87_tree : forall ts aes bound bits,
  (forall k b, length b = 16 -> length (aes k b) = 16) -> (Z.of_nat bound < 2 ^ 120)%Z -> 0 < bits -> (Z.of_nat bits <= 65536)%Z ->
  let p := p1_obj ts aes bound bits in
  forall key ctx ms T l h, length key = 32 -> ctx_ok ctx -> p1_sizes_ok p ms -> Forall (fun r => length (fst (fst r)) = bits) ms ->
  (Z.of_nat (length ms) < MODULUS Field64)%Z ->
  heavy_hitters (fun ap => run_vdaf (p1_vdaf p) key ap ctx ms) T bits = Ok (l, h) ->
  let strings := map (fun r => fst (fst r)) ms in
  0 < length h <= bits /\
  (forall k, k < length h -> fst (nth k h (0%Z, [])) = Z.of_nat k /\
     forall y, In y (snd (nth k h (0%Z, []))) <-> length y = S k /\ (k = 0 \/ (T <= Z.of_nat (count_prefix (firstn k y) strings))%Z)) /\
  (length h = bits \/ forall y, length y = length h -> (Z.of_nat (count_prefix y strings) < T)%Z).
Proof.
  intros ts aes bound bits Ha Hb H0 H1 p key ctx ms T l h Hk Hc Hs Hm HN E strings.
  apply (exact_tree (fun ap => run_vdaf (p1_vdaf p) key ap ctx ms) T bits strings H0) with (l := l); [|exact E].
  intros; eapply honest_exact; eassumption.
Qed.
Print Assumptions C87_tree.

(** ... and no aggregation parameter has more than max(2, 2 floor(N / T)) prefixes
    for [N] clients. *)
Theorem C87_cost : forall ts aes bound bits,
  (forall k b, length b = 16 -> length (aes k b) = 16) -> (Z.of_nat bound < 2 ^ 120)%Z -> 0 < bits -> (Z.of_nat bits <= 65536)%Z ->
  let p := p1_obj ts aes bound bits in
  forall key ctx ms T l h, length key = 32 -> ctx_ok ctx -> p1_sizes_ok p ms -> Forall (fun r => length (fst (fst r)) = bits) ms ->
  (Z.of_nat (length ms) < MODULUS Field64)%Z -> (0 < T)%Z ->
  heavy_hitters (fun ap => run_vdaf (p1_vdaf p) key ap ctx ms) T bits = Ok (l, h) ->
  let N := Z.of_nat (length ms) in
  (forall ap, In ap h -> (Z.of_nat (length (snd ap)) <= Z.max 2 (2 * (N / T)))%Z) /\ (Z.of_nat (length l) <= N / T)%Z.
Proof.
  intros ts aes bound bits Ha Hb H0 H1 p key ctx ms T l h Hk Hc Hs Hm HN HT E N.
  pose proof (exact_cost (fun ap => run_vdaf (p1_vdaf p) key ap ctx ms) T bits (map (fun r => fst (fst r)) ms)) as X.
  cbv zeta in X. rewrite map_length in X. apply X; [exact H0| |exact HT|exact E]. intros; eapply honest_exact; eassumption.
Qed.
Print Assumptions C87_cost.

(** Attackers: [K] clients upload arbitrary strings.  If those that pass
    verification for the parameters used are one-hot or zero there (the verification
    lets others pass for few choices of the randomness, C68), a string held by [T]
    honest clients is found, and a string found is held by [T - K] honest clients. *)
Theorem C87_robust : forall ts aes bound bits,
  (forall k b, length b = 16 -> length (aes k b) = 16) -> (Z.of_nat bound < 2 ^ 120)%Z -> 0 < bits -> (Z.of_nat bits <= 65536)%Z ->
  let p := p1_obj ts aes bound bits in
  forall key ctx, length key = 32 -> ctx_ok ctx ->
  forall ms us, p1_sizes_ok p ms -> Forall (fun r => length (fst (fst r)) = bits) ms ->
  let strings := map (fun r => fst (fst r)) ms in
  (Z.of_nat (length ms + length us) < MODULUS Field64)%Z ->
  forall T l h, heavy_hitters (deployed_query p ctx key (uploaded (p1_vdaf p) ctx ms ++ us)) T bits = Ok (l, h) ->
  (forall ap, In ap h -> one_hot_uploads p ctx key us ap) ->
  (exists n, p1_ran_out p n) \/
  (sorted_prefixes l /\
   (forall y, In y l -> length y = bits /\ (T <= Z.of_nat (holders y strings + length us))%Z) /\
   (forall y, length y = bits -> (T <= Z.of_nat (holders y strings))%Z -> In y l) /\ valid_history h /\
   ((0 < T)%Z -> let B := Z.of_nat (length ms + length us) in
    (forall ap, In ap h -> (Z.of_nat (length (snd ap)) <= Z.max 2 (2 * (B / T)))%Z) /\ (Z.of_nat (length l) <= B / T)%Z)).
Proof. exact deployed_robust. Qed.
Print Assumptions C87_robust.

(** The protocol finishes. *)
Theorem C87_finishes : forall ts aes bound bits,
  (forall k b, length b = 16 -> length (aes k b) = 16) -> (Z.of_nat bound < 2 ^ 120)%Z -> 0 < bits -> (Z.of_nat bits <= 65536)%Z ->
  let p := p1_obj ts aes bound bits in
  forall key ctx, length key = 32 -> ctx_ok ctx ->
  forall ms us, p1_sizes_ok p ms -> Forall (fun r => length (fst (fst r)) = bits) ms ->
  (Z.of_nat (length ms + length us) < MODULUS Field64)%Z ->
  forall T, (0 < T)%Z -> (Z.of_nat (length ms + length us) < 2 ^ 31)%Z -> (forall ap, agg_param_wf ap -> one_hot_uploads p ctx key us ap) ->
  (exists n, p1_ran_out p n) \/
  exists l h, heavy_hitters (deployed_query p ctx key (uploaded (p1_vdaf p) ctx ms ++ us)) T bits = Ok (l, h).
Proof. exact deployed_total. Qed.
Print Assumptions C87_finishes.

(** Three clients, two of them with the same string. *)
Definition heavy_reports : list (list bool * bytes * bytes) := toy_reports ++ [([true; true], repeat x05 16, repeat x06 128)].
Definition heavy_run (T : Z) := heavy_hitters (fun ap => run_vdaf (p1_vdaf toy_p1) (repeat x07 32) ap [x09] heavy_reports) T 2.
Definition heavy_runs := Eval vm_compute in map heavy_run [2; 1; 4]%Z.
Example C87_example : p1_sizes_ok toy_p1 heavy_reports /\ Forall (fun r => length (fst (fst r)) = 2) heavy_reports /\
  heavy_runs = [Ok ([[true; true]], [(0%Z, [[false]; [true]]); (1%Z, [[true; false]; [true; true]])]);
    Ok ([[true; false]; [true; true]], [(0%Z, [[false]; [true]]); (1%Z, [[true; false]; [true; true]])]);
    Ok ([], [(0%Z, [[false]; [true]])])].
Proof.
  split; [repeat constructor|]. split; [repeat constructor|]. reflexivity.
Qed.

Lemma none_true {A} (f : A -> bool) l u : existsb f l = false -> In u l -> f u = true -> False.
Proof. intros E Hu C. assert (X : existsb f l = true) by (apply existsb_exists; eauto). congruence. Qed.

(** The same clients, and uploads that are not honest. *)
Definition heavy_uploads := uploaded (p1_vdaf toy_p1) [x09] heavy_reports ++ mixed_up1 ++ toy_garbage1.
Definition heavy_mixed := Eval vm_compute in heavy_hitters (deployed_query toy_p1 [x09] (repeat x07 32) heavy_uploads) 2 2.
Example C87_example_robust :
  heavy_mixed = Ok ([[true; true]], [(0%Z, [[false]; [true]]); (1%Z, [[true; false]; [true; true]])]) /\
  one_hot_uploads toy_p1 [x09] (repeat x07 32) (mixed_up1 ++ toy_garbage1) (1%Z, [[true; false]; [true; true]]).
Proof.
  split; [reflexivity|]. intros agg_param u E Hu C. exfalso.
  assert (X : match p1_encode_agg_param (1%Z, [[true; false]; [true; true]]) with
    | Ok a => existsb (counted (p1_vdaf toy_p1) [x09] (repeat x07 32) a) (mixed_up1 ++ toy_garbage1) | Raise _ => true end = false)
    by (vm_compute; reflexivity).
  rewrite E in X. exact (none_true _ _ u X Hu C).
Qed.
