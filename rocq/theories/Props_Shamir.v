(** Properties C51 and C57: Shamir secret sharing (poc/example_flp_shamir.py), for
    every prime field. *)
From Coq Require Import Znumtheory.
From Verif Require Import Shamir ShamirSpec ShamirFacts Primes.
Open Scope nat_scope.

(** C51.  Any list of at least [t] distinct indices gives back the secret, except
    that shamir_unshard raises IndexError when more than one share is used and all
    coefficients of some polynomial are zero (poly_interp returns an empty list
    then, and the code takes its element 0). *)
Theorem C51_reconstruct : forall (P : FieldClass), prime (MODULUS P) ->
  forall (meas : list (F P)) rand t n index,
  (Z.of_nat n < MODULUS P)%Z -> length rand = length meas -> Forall (fun r => length r = t - 1) rand ->
  index <> [] -> NoDup index -> Forall (fun j => j < n) index -> t <= length index ->
  exists shares, shamir_shard meas rand n = Ok shares /\ length shares = n /\ Forall (fun s => length s = length meas) shares /\
    shamir_unshard (map Z.of_nat index) (select shares index) =
    if forallb (unshard_ok index) (polys_of meas rand) then Ok meas else Raise IndexError.
Proof. exact @reconstruct. Qed.
Print Assumptions C51_reconstruct.

(** C51.  A vector without zeros is always reconstructed. *)
Theorem C51_nonzero : forall (P : FieldClass), prime (MODULUS P) ->
  forall (meas : list (F P)) rand t n index,
  (Z.of_nat n < MODULUS P)%Z -> length rand = length meas -> Forall (fun r => length r = t - 1) rand ->
  index <> [] -> NoDup index -> Forall (fun j => j < n) index -> t <= length index -> ~ In f0 meas ->
  exists shares, shamir_shard meas rand n = Ok shares /\
    shamir_unshard (map Z.of_nat index) (select shares index) = Ok meas.
Proof.
  intros P Hp meas rand t n index A B C D E G H N.
  destruct (reconstruct Hp meas rand t n index A B C D E G H) as (shares & S & _ & _ & U). exists shares. split; [exact S|].
  replace (forallb (unshard_ok index) (polys_of meas rand)) with true in U; [exact U|]. symmetry. apply forallb_forall.
  intros c Hc. unfold polys_of in Hc. apply in_map_iff in Hc. destruct Hc as ([m r] & <- & Hin). apply in_combine_l in Hin.
  unfold unshard_ok. cbn [fst snd existsb]. destruct (feqb m f0) eqn:Z; [|now rewrite orb_true_r].
  apply FieldFacts.feqb_eq in Z. subst m. contradiction.
Qed.
Print Assumptions C51_nonzero.

(** C51.  Sharing is linear: the sums of the shares with the given indices give
    back the sum of the secrets, with the same exception for the summed
    polynomials. *)
Theorem C51_aggregate : forall (P : FieldClass), prime (MODULUS P) ->
  forall L t n index (reports : list (list (F P) * list (list (F P)))), 1 <= t ->
  (Z.of_nat n < MODULUS P)%Z ->
  Forall (fun r => length (fst r) = L /\ length (snd r) = L /\ Forall (fun v => length v = t - 1) (snd r)) reports ->
  index <> [] -> NoDup index -> Forall (fun j => j < n) index -> t <= length index ->
  exists shares, mapM (fun r => shamir_shard (fst r) (snd r) n) reports = Ok shares /\
  exists aggs, mapM (fun j => foldM vec_add (map (fun s => nth j s []) shares) (fzeros L)) index = Ok aggs /\
    shamir_unshard (map Z.of_nat index) aggs =
    if forallb (unshard_ok index) (poly_sum L t (map (fun r => polys_of (fst r) (snd r)) reports))
    then Ok (vsum L (map fst reports)) else Raise IndexError.
Proof. exact @aggregate. Qed.
Print Assumptions C51_aggregate.

(** C51, the exception is met. *)
Theorem C51_zero_refuted : exists shares : list (list (F Field64)),
  shamir_shard [f0] [[f0]] 3 = Ok shares /\ shamir_unshard [0; 1]%Z (select shares [0; 1]) = Raise IndexError.
Proof.
  destruct (reconstruct prime_Field64 [f0] [[f0]] 2 3 [0; 1]) as (shares & S & _ & _ & U); try (repeat constructor; fail).
  - discriminate.
  - repeat constructor; cbn; [intros [H|[]]; discriminate H|intros []].
  - exists shares. split; [exact S|]. exact U.
Qed.
Print Assumptions C51_zero_refuted.

Example C51_example : match shamir_shard (map fof [13; 37]%Z : list (F Field64)) [[fof 5]; [fof 6]]%Z 3 with
  | Ok shares =>
    map (map fint) shares = [[18; 43]; [23; 49]; [28; 55]]%Z /\
    match shamir_unshard [0; 2]%Z (select shares [0; 2]) with Ok m => map fint m = [13; 37]%Z | Raise _ => False end
  | Raise _ => False
  end.
Proof. vm_compute. split; reflexivity. Qed.

(** C57.  Privacy: whatever the shares with fewer than [t] indices ([t - 1] of
    them), every secret vector explains them with exactly one choice of the random
    coefficients. *)
Theorem C57_privacy : forall (P : FieldClass), prime (MODULUS P) ->
  forall (meas : list (F P)) n index (view : list (list (F P))),
  (Z.of_nat n < MODULUS P)%Z -> NoDup index -> Forall (fun j => j < n) index ->
  length view = length index -> Forall (fun v => length v = length meas) view ->
  exists rand, (length rand = length meas /\ Forall (fun r => length r = length index) rand /\
      exists shares, shamir_shard meas rand n = Ok shares /\ select shares index = view) /\
    forall rand', length rand' = length meas -> Forall (fun r => length r = length index) rand' ->
      (exists shares, shamir_shard meas rand' n = Ok shares /\ select shares index = view) -> rand' = rand.
Proof. exact @privacy. Qed.
Print Assumptions C57_privacy.

Example C57_example : exists rand : list (list (F Field64)),
  length rand = 1 /\ exists shares, shamir_shard [fof 3] rand 3 = Ok shares /\ select shares [1] = [[fof 7]].
Proof.
  destruct (privacy prime_Field64 [fof 3] 3 [1] [[fof 7]]) as (rand & (A & _ & B) & _); try (repeat constructor; fail).
  - repeat constructor. intros [].
  - exists rand. now split.
Qed.
