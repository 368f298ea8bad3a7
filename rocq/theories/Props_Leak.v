(** Property C102: what the heavy hitters protocol reveals about a batch of honest
    clients (draft-irtf-cfrg-vdaf.md:6102-6114). *)
From Verif Require Import LeakSpec LeakFacts HeavyHitters HeavySpec HeavyFacts HeavyRun Poplar1Spec Poplar1Props Poplar1Inst Field FieldProofs Vdaf.
From Verif Require Import Poplar1 Xof XofSpec Idpf Props_Poplar1 IdpfInst Roots.
From Coq Require Import Permutation Lia.
Open Scope nat_scope.

(** C102.  Two batches, verification keys and contexts: the Collector sees the same
    aggregation parameters and the same answers exactly if both batches have the
    same number of strings that start with [y] for every [y] of the prefix tree of
    the first; the heavy hitters are then also the same. *)
Theorem C102_view : forall ts aes bound bits,
  (forall k b, length b = 16 -> length (aes k b) = 16) -> (Z.of_nat bound < 2 ^ 120)%Z -> 0 < bits -> (Z.of_nat bits <= 65536)%Z ->
  let p := p1_obj ts aes bound bits in
  forall key ctx ms key' ctx' ms' T l h l' h',
  length key = 32 -> ctx_ok ctx -> p1_sizes_ok p ms -> Forall (fun r => length (fst (fst r)) = bits) ms -> (Z.of_nat (length ms) < MODULUS Field64)%Z ->
  length key' = 32 -> ctx_ok ctx' -> p1_sizes_ok p ms' -> Forall (fun r => length (fst (fst r)) = bits) ms' -> (Z.of_nat (length ms') < MODULUS Field64)%Z ->
  let query ap := run_vdaf (p1_vdaf p) key ap ctx ms in
  let query' ap := run_vdaf (p1_vdaf p) key' ap ctx' ms' in
  let strings := map (fun r => fst (fst r)) ms in
  let strings' := map (fun r => fst (fst r)) ms' in
  heavy_hitters query T bits = Ok (l, h) -> heavy_hitters query' T bits = Ok (l', h') ->
  (seen query h = seen query' h' <-> forall y, in_tree T bits strings y -> count_prefix y strings = count_prefix y strings') /\
  (seen query h = seen query' h' -> l = l').
Proof.
  intros ts aes bound bits Ha Hb H0 H1 p key ctx ms key' ctx' ms' T l h l' h' Hk Hc Hs Hm HN Hk' Hc' Hs' Hm' HN' query query' strings strings' E E'.
  assert (X : forall level prefixes counts, level < bits -> level_ok level prefixes -> query (Z.of_nat level, prefixes) = Ok counts ->
    counts = map (zcount strings) prefixes) by exact (honest_exact ts aes bound bits Ha Hb H0 H1 key ctx Hk Hc ms Hs Hm HN).
  assert (X' : forall level prefixes counts, level < bits -> level_ok level prefixes -> query' (Z.of_nat level, prefixes) = Ok counts ->
    counts = map (zcount strings') prefixes) by exact (honest_exact ts aes bound bits Ha Hb H0 H1 key' ctx' Hk' Hc' ms' Hs' Hm' HN').
  pose proof (seen_same query query' T bits strings strings' H0 X X' l l' h h' E E') as A.
  pose proof (seen_counts query query' T bits strings strings' H0 X X' l h h' E) as B.
  split; [split; [exact B|intros Q; exact (proj2 (A Q))]|]. intros Q. exact (proj1 (A (B Q))).
Qed.
Print Assumptions C102_view.

(** C102.  With threshold one (or less) the Collector learns the whole batch but for
    its order. *)
Theorem C102_everything : forall ts aes bound bits,
  (forall k b, length b = 16 -> length (aes k b) = 16) -> (Z.of_nat bound < 2 ^ 120)%Z -> 0 < bits -> (Z.of_nat bits <= 65536)%Z ->
  let p := p1_obj ts aes bound bits in
  forall key ctx ms key' ctx' ms' T l h l' h',
  length key = 32 -> ctx_ok ctx -> p1_sizes_ok p ms -> Forall (fun r => length (fst (fst r)) = bits) ms -> (Z.of_nat (length ms) < MODULUS Field64)%Z ->
  length key' = 32 -> ctx_ok ctx' -> p1_sizes_ok p ms' -> Forall (fun r => length (fst (fst r)) = bits) ms' -> (Z.of_nat (length ms') < MODULUS Field64)%Z ->
  let query ap := run_vdaf (p1_vdaf p) key ap ctx ms in
  let query' ap := run_vdaf (p1_vdaf p) key' ap ctx' ms' in
  heavy_hitters query T bits = Ok (l, h) -> heavy_hitters query' T bits = Ok (l', h') -> (T <= 1)%Z ->
  seen query h = seen query' h' <-> Permutation (map (fun r => fst (fst r)) ms) (map (fun r => fst (fst r)) ms').
Proof.
  intros ts aes bound bits Ha Hb H0 H1 p key ctx ms key' ctx' ms' T l h l' h' Hk Hc Hs Hm HN Hk' Hc' Hs' Hm' HN' query query' E E' HT.
  apply (seen_small query query' T bits _ _ H0) with (l := l) (l' := l'); try assumption.
  - exact (honest_exact ts aes bound bits Ha Hb H0 H1 key ctx Hk Hc ms Hs Hm HN).
  - exact (honest_exact ts aes bound bits Ha Hb H0 H1 key' ctx' Hk' Hc' ms' Hs' Hm' HN').
  - apply Forall_map. exact Hm.
  - apply Forall_map. exact Hm'.
Qed.
Print Assumptions C102_everything.

(** Two clients with different strings that start with the same bit: no string is
    heavy, but the Collector sees that both start with this bit and how they go on. *)
Definition leak_query ap := run_vdaf (p1_vdaf toy_p1) (repeat x07 32) ap [x09] toy_reports.
Definition leak_run := Eval vm_compute in heavy_hitters leak_query 2 2.
Definition leak_seen := Eval vm_compute in match leak_run with Ok (_, h) => map (fun x => (snd (fst x), snd x)) (seen leak_query h) | Raise _ => [] end.
Example C102_example : leak_run = Ok ([], [(0%Z, [[false]; [true]]); (1%Z, [[true; false]; [true; true]])]) /\
  leak_seen = [([[false]; [true]], Ok [0; 2]%Z); ([[true; false]; [true; true]], Ok [1; 1]%Z)] /\
  in_tree 2 2 (map (fun r => fst (fst r)) toy_reports) [true; false] /\ ~ in_tree 2 2 (map (fun r => fst (fst r)) toy_reports) [false; false].
Proof.
  split; [reflexivity|]. split; [reflexivity|]. split.
  - split; [cbn; lia|]. right. vm_compute. discriminate.
  - intros (_ & [X|X]); [discriminate|]. revert X. vm_compute. intros X. now apply X.
Qed.
