(** Properties C96 and C97: what the counts of Poplar1 do not guarantee, and the
    steering attack (draft-irtf-cfrg-vdaf.md:6102-6162). *)
From Verif Require Import VotesSpec VotesFacts SteerSpec SteerFacts HeavyRun HeavyFacts Poplar1Spec Poplar1 Vdaf Idpf IdpfSpec Field FieldProofs Props_Poplar1 Props_Heavy Poplar1Inst.
From Coq Require Import Lia.
Open Scope nat_scope.

(** C96.  A Client need not vote consistently.  For every choice of levels there
    is a public share that, with the input shares of the honest report, passes
    verification for every key and every aggregation parameter, and counts for the
    prefix of the measurement at the chosen levels and for nothing at the others. *)
Theorem C96_levels : forall (p : Poplar1) (lim : Z), Poplar1Ok p lim -> forall ctx m nonce rand ps iss (votes : nat -> bool),
  ctx_ok ctx -> length m = id_BITS (p1_idpf p) -> length nonce = p1_NONCE_SIZE -> length rand = p1_RAND_SIZE p ->
  p1_shard p ctx m nonce rand = Ok (ps, iss) ->
  idpf_ran_out (p1_idpf p) \/
  exists ps', idpf_public_wf (p1_idpf p) ps' /\
    forall key level prefixes, level < id_BITS (p1_idpf p) -> NoDup prefixes -> Forall (fun x => length x = S level) prefixes ->
    length key = SEED_SIZE (p1_xof p) -> (Z.of_nat level < 65536)%Z ->
    run_vdaf (sending (p1_vdaf p)) key (Z.of_nat level, prefixes) ctx [((ps', iss), nonce, [])] = Ok (vote_counts votes level m prefixes) \/
    (run_vdaf (sending (p1_vdaf p)) key (Z.of_nat level, prefixes) ctx [((ps', iss), nonce, [])] = Raise OutOfFuel /\ p1_ran_out p (length prefixes)).
Proof. exact votes_any. Qed.
Print Assumptions C96_levels.

(** C96.  So the counts of two levels need not be the counts of any strings:
    one vote for a prefix of the measurement, none for the prefix of it. *)
Theorem C96_not_counts : forall m level, S level < length m ->
  let votes l := l =? S level in
  let short := [firstn (S level) m] in let long := [firstn (S (S level)) m] in
  vote_counts votes level m short = [0%Z] /\ vote_counts votes (S level) m long = [1%Z] /\
  forall strings, ~ (true_counts strings short = [0%Z] /\ true_counts strings long = [1%Z]).
Proof.
  intros m level H votes short long. unfold short, long, vote_counts, true_counts, votes. cbn [map].
  destruct (list_eq_dec _ _ _) as [_|C]; [|congruence]. destruct (list_eq_dec _ _ _) as [_|C]; [|congruence].
  rewrite Nat.eqb_refl, (proj2 (Nat.eqb_neq level (S level))) by lia. split; [reflexivity|]. split; [reflexivity|].
  intros strings [E1 E2]. apply (f_equal (hd 5%Z)) in E1, E2. cbn [hd] in E1, E2.
  pose proof (zcount_anti strings (firstn (S (S level)) m) (S level)) as A. unfold zcount in A. rewrite firstn_firstn, Nat.min_l in A by lia. lia.
Qed.
Print Assumptions C96_not_counts.

(** C97.  Steering.  If an Aggregator adds [delta x] to its share of the count of
    every candidate prefix [x], the Collector obtains the strings all of whose
    prefixes reach the threshold with the additions; nothing else changes. *)
Theorem C97_steered : forall ts aes bound bits,
  (forall k b, length b = 16 -> length (aes k b) = 16) -> (Z.of_nat bound < 2 ^ 120)%Z -> 0 < bits -> (Z.of_nat bits <= 65536)%Z ->
  let p := p1_obj ts aes bound bits in
  forall key ctx, length key = 32 -> ctx_ok ctx -> forall ms, p1_sizes_ok p ms -> Forall (fun r => length (fst (fst r)) = bits) ms ->
  let strings := map (fun r => fst (fst r)) ms in
  forall j delta, j < 2 -> (forall x, (0 <= delta x)%Z /\ (Z.of_nat (length ms) + delta x < MODULUS Field64)%Z) -> forall T,
  (exists l h, heavy_hitters (steered_query p key ctx ms j delta) T bits = Ok (l, h) /\
     forall y, In y l <-> length y = bits /\
       forall k, k < bits -> (T <= Z.of_nat (count_prefix (firstn (S k) y) strings) + delta (firstn (S k) y))%Z) \/
  (heavy_hitters (steered_query p key ctx ms j delta) T bits = Raise OutOfFuel /\ exists n, p1_ran_out p n).
Proof.
  intros ts aes bound bits Ha Hb H0 H1 p key ctx Hk Hc ms Hs Hm strings j delta Hj HD T.
  exact (steered_result ts aes bound bits Ha Hb H0 H1 key ctx Hk Hc ms Hs Hm j Hj delta HD T).
Qed.
Print Assumptions C97_steered.

(** C97.  By adding [T - T'] everywhere the threshold becomes [T'].  With [T'] = 1
    the attackers obtain every string that some client holds. *)
Theorem C97_everything : forall ts aes bound bits,
  (forall k b, length b = 16 -> length (aes k b) = 16) -> (Z.of_nat bound < 2 ^ 120)%Z -> 0 < bits -> (Z.of_nat bits <= 65536)%Z ->
  let p := p1_obj ts aes bound bits in
  forall key ctx, length key = 32 -> ctx_ok ctx -> forall ms, p1_sizes_ok p ms -> Forall (fun r => length (fst (fst r)) = bits) ms ->
  let strings := map (fun r => fst (fst r)) ms in
  forall j T T', j < 2 -> (T' <= T)%Z -> (Z.of_nat (length ms) + (T - T') < MODULUS Field64)%Z ->
  let query := steered_query p key ctx ms j (fun _ => T - T')%Z in
  (exists l h, heavy_hitters query T bits = Ok (l, h) /\ forall y, In y l <-> length y = bits /\ (T' <= Z.of_nat (holders y strings))%Z) \/
  (heavy_hitters query T bits = Raise OutOfFuel /\ exists n, p1_ran_out p n).
Proof.
  intros ts aes bound bits Ha Hb H0 H1 p key ctx Hk Hc ms Hs Hm strings j T T' Hj HT HN query.
  destruct (C97_steered ts aes bound bits Ha Hb H0 H1 key ctx Hk Hc ms Hs Hm j (fun _ => T - T')%Z Hj ltac:(intros; lia) T) as [(l & h & E & HI)|E]; [left|right; exact E].
  exists l, h. split; [exact E|]. intros y. rewrite HI. fold strings. split; intros [Ly H]; (split; [exact Ly|]).
  - specialize (H (bits - 1) ltac:(lia)). rewrite firstn_all2 in H by lia.
    rewrite count_holders in H; [lia|]. unfold strings. apply Forall_map. rewrite Ly. exact Hm.
  - intros k Hk'. pose proof (zcount_anti strings y (S k)) as A. unfold zcount in A.
    rewrite (count_holders strings y) in A; [lia|]. unfold strings. apply Forall_map. rewrite Ly. exact Hm.
Qed.
Print Assumptions C97_everything.

(** C97.  By adding [T] to the prefixes of one string the attackers obtain, besides
    the heavy hitters, that string, together with the number of its holders. *)
Theorem C97_target : forall ts aes bound bits,
  (forall k b, length b = 16 -> length (aes k b) = 16) -> (Z.of_nat bound < 2 ^ 120)%Z -> 0 < bits -> (Z.of_nat bits <= 65536)%Z ->
  let p := p1_obj ts aes bound bits in
  forall key ctx, length key = 32 -> ctx_ok ctx -> forall ms, p1_sizes_ok p ms -> Forall (fun r => length (fst (fst r)) = bits) ms ->
  let strings := map (fun r => fst (fst r)) ms in
  forall j T target, j < 2 -> (0 < T)%Z -> (Z.of_nat (length ms) + T < MODULUS Field64)%Z -> length target = bits ->
  let query := steered_query p key ctx ms j (towards target T) in
  (exists l h, heavy_hitters query T bits = Ok (l, h) /\
     (forall y, In y l <-> length y = bits /\ (y = target \/ (T <= Z.of_nat (holders y strings))%Z)) /\
     exists i counts, query (last h (0%Z, [])) = Ok counts /\ nth i (snd (last h (0%Z, []))) [] = target /\
       (nth i counts 0 = Z.of_nat (holders target strings) + T)%Z) \/
  (heavy_hitters query T bits = Raise OutOfFuel /\ exists n, p1_ran_out p n).
Proof.
  intros ts aes bound bits Ha Hb H0 H1 p key ctx Hk Hc ms Hs Hm strings j T target Hj HT HN HL query.
  assert (HD : forall x, (0 <= towards target T x)%Z /\ (Z.of_nat (length ms) + towards target T x < MODULUS Field64)%Z)
    by (intros x; unfold towards; destruct (list_eq_dec _ _ _); lia).
  destruct (C97_steered ts aes bound bits Ha Hb H0 H1 key ctx Hk Hc ms Hs Hm j (towards target T) Hj HD T) as [(l & h & E & HI)|E]; [left|right; exact E].
  exists l, h. split; [exact E|]. fold strings in HI.
  assert (HH : forall y, length y = bits -> count_prefix y strings = holders y strings).
  { intros y Ly. apply count_holders. unfold strings. apply Forall_map. rewrite Ly. exact Hm. }
  assert (IT : In target l).
  { apply HI. split; [exact HL|]. intros k Hk'. unfold towards. rewrite firstn_length_le by lia. destruct (list_eq_dec _ _ _) as [_|C]; [lia | congruence]. }
  split.
  - intros y. rewrite HI. split; intros [Ly H]; (split; [exact Ly|]).
    + destruct (list_eq_dec Bool.bool_dec y target) as [->|N]; [now left|right].
      specialize (H (bits - 1) ltac:(lia)). rewrite firstn_all2 in H by lia. unfold towards in H. rewrite (firstn_all2 target) in H by lia.
      destruct (list_eq_dec _ _ _); [contradiction|]. rewrite HH in H by exact Ly. lia.
    + destruct H as [->|H]; [now apply HI|]. intros k Hk'. pose proof (zcount_anti strings y (S k)) as A. unfold zcount in A.
      rewrite (HH y Ly) in A. pose proof (HD (firstn (S k) y)). lia.
  - destruct bits as [|b]; [lia|]. destruct (levels_last query T b 0 [] [[false]; [true]] l h E ltac:(intros ->; destruct IT)) as (h' & pf & counts & Eh & Eq & El).
    rewrite Eh, last_last. cbn [snd]. rewrite El in IT.
    destruct (heavy_incl query T (S b)) with (l := l) (h := h) (ap := (Z.of_nat (0 + b), pf)) as (k & pf' & Ek & Hk' & OK).
    + intros level prefixes cs Hl HLv Eqq. destruct (steered_counts ts aes bound (S b) Ha Hb H0 H1 key ctx Hk Hc ms Hs Hm j Hj (towards target T) HD level prefixes Hl HLv) as [X|[X _]];
        unfold query, p in Eqq; rewrite X in Eqq; [injection Eqq as <-; apply map_length | discriminate].
    + exact E.
    + rewrite Eh. apply in_or_app. right. now left.
    + injection Ek as Ek <-. apply Nat2Z.inj in Ek. subst k.
      destruct (steered_counts ts aes bound (S b) Ha Hb H0 H1 key ctx Hk Hc ms Hs Hm j Hj (towards target T) HD b pf Hk' OK) as [X|[X _]];
        pose proof (eq_trans (eq_sym X) Eq) as Y; [|discriminate]. injection Y as Y.
      rewrite <- Y in IT. apply heavy_In in IT; [|apply map_length]. destruct IT as (i & Hi & Et & _). exists i, counts. split; [exact Eq|]. split; [exact Et|].
      rewrite <- Y. rewrite (nth_indep _ 0%Z ((fun x => zcount strings x + towards target T x)%Z [])) by now rewrite map_length.
      rewrite (map_nth (fun x => zcount strings x + towards target T x)%Z). rewrite Et. unfold zcount, towards. rewrite HH by exact HL.
      rewrite firstn_all. destruct (list_eq_dec _ _ _); [reflexivity | congruence].
Qed.
Print Assumptions C97_target.

(** C96, an instance: a report for 10 that does not vote at level 0, and votes at
    level 1. *)
Definition C96_nonce : bytes := repeat x01 16.
Definition C96_rand : bytes := repeat x02 128.
Definition C96_outcome : res (list Z * list Z * list Z) := Eval vm_compute in
  let* dst := p1_dst USAGE_SHARD_RAND [x09] in
  let* st := xof_init (p1_xof toy_p1) (repeat x02 32) dst C96_nonce in
  let* (_, st) := next_vec (p1_xof toy_p1) (id_field_inner (p1_idpf toy_p1)) st 1 in
  let* (kl, st) := next_vec (p1_xof toy_p1) (id_field_leaf (p1_idpf toy_p1)) st 1 in
  let* (honest, iss) := p1_shard toy_p1 [x09] [true; false] C96_nonce C96_rand in
  let* (ps, _) := idpf_gen (p1_idpf toy_p1) [true; false] [[f0; f0]] (f1 :: kl) [x09] C96_nonce (repeat x02 32) in
  let run ps level prefixes := run_vdaf (sending (p1_vdaf toy_p1)) (repeat x07 32) (level, prefixes) [x09] [((ps, iss), C96_nonce, [])] in
  let* c := run honest 0%Z [[false]; [true]] in
  let* c0 := run ps 0%Z [[false]; [true]] in
  let* c1 := run ps 1%Z [[true; false]; [true; true]] in
  Ok (c, c0, c1).
Example C96_example : C96_outcome = Ok ([0; 1], [0; 0], [1; 0])%Z /\
  vote_counts (fun l => l =? 1) 0 [true; false] [[false]; [true]] = [0; 0]%Z /\
  vote_counts (fun l => l =? 1) 1 [true; false] [[true; false]; [true; true]] = [1; 0]%Z.
Proof. split; [reflexivity|]. split; reflexivity. Qed.

(** C97, an instance: with the reports of C87_example and threshold 2, the string 10
    held by one client is found, too. *)
Definition steered_toy (delta : list bool -> Z) := heavy_hitters (steered_query toy_p1 (repeat x07 32) [x09] heavy_reports 1 delta) 2 2.
Definition C97_outcomes := Eval vm_compute in map (fun d => match steered_toy d with Ok (l, _) => Some l | Raise _ => None end)
  [(fun _ => 0%Z); (fun _ => 1%Z); towards [false; true] 2].
Example C97_example : C97_outcomes = [Some [[true; true]]; Some [[true; false]; [true; true]]; Some [[false; true]; [true; true]]].
Proof. reflexivity. Qed.
