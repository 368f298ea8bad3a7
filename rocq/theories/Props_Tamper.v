(** C98: what changing the public share of a Poplar1 report reveals. *)
From Verif Require Import TamperSpec TamperIdpf TamperFacts Poplar1Inst Primes Props_Poplar1 IdpfFacts BaseFacts.
Open Scope nat_scope.

(** C98.  Public shares are malleable: adding [delta] to the payload of a level is
    adding [delta], or subtracting it, to the value of the point function at that
    level, for whoever holds the unchanged keys. *)
Theorem C98_malleable : forall (idpf : Idpf) alpha beta_inner beta_leaf ctx nonce rand level delta ps keys,
  level < id_BITS idpf -> of_level idpf level (id_VALUE_LEN idpf) delta ->
  idpf_gen idpf alpha beta_inner beta_leaf ctx nonce rand = Ok (ps, keys) ->
  exists d, (d = delta \/ d = fv_neg delta) /\
    idpf_gen idpf alpha (plus_inner level d beta_inner) (plus_leaf d beta_leaf) ctx nonce rand = Ok (tampered level delta ps, keys).
Proof. exact tampered_gen. Qed.
Print Assumptions C98_malleable.

Lemma level_prime ts aes bound bits level : prime (level_modulus (p1_obj ts aes bound bits) level).
Proof. unfold level_modulus. destruct (_ <? _); [exact prime_Field64 | exact prime_Field255]. Qed.

(** C98.  If both Aggregators use a public share in which [d] has been added to the
    count at one level, they accept the report at that level exactly if the
    verification randomness [x] of the candidate on the path of the measurement is
    zero, which it is if there is none, or is the root of a linear equation. *)
Theorem C98_tampered : forall ts aes bound bits,
  (forall k b, length b = 16 -> length (aes k b) = 16) -> (Z.of_nat bound < 2 ^ 120)%Z -> 0 < bits -> (Z.of_nat bits <= 65536)%Z ->
  let p := p1_obj ts aes bound bits in
  forall level d, level < bits -> let q := level_modulus p level in (d mod q <> 0)%Z ->
  forall ctx m nonce rand ps is0 is1,
  ctx_ok ctx -> length m = bits -> length nonce = p1_NONCE_SIZE -> length rand = p1_RAND_SIZE p ->
  p1_shard p ctx m nonce rand = Ok (ps, [is0; is1]) ->
  exists e k, ((e - 1 - d) mod q = 0 \/ (e - 1 + d) mod q = 0)%Z /\
    forall key prefixes, NoDup prefixes -> Forall (fun x => length x = S level) prefixes -> length key = SEED_SIZE (p1_xof p) ->
    let run := p1_execute p key ctx (Z.of_nat level, prefixes) nonce (tampered level (delta_at p level d) ps) is0 is1 in
    (exists v, rand_at p key ctx nonce level (length prefixes) = Ok v /\
       length (fv_vals v) = length prefixes /\ Forall (fun x => 0 <= x < q)%Z (fv_vals v) /\
       let x := path_draw prefixes level m (fv_vals v) in
       (x = 0 \/ (e * x + k) mod q = 0 -> exists out, run = Ok out)%Z /\
       (x <> 0 -> (e * x + k) mod q <> 0 -> run = Raise (ValueError "sketch verification failed"))%Z) \/
    (run = Raise OutOfFuel /\ p1_ran_out p (length prefixes)).
Proof.
  intros ts aes bound bits Ha Hb Hb0 Hbits p level d HL q Hd.
  destruct (p1_obj_ok ts aes bound bits Ha Hb Hb0) as [lim HO].
  apply (tampered_report p lim HO level d HL ltac:(lia) (level_prime _ _ _ _ _) Hd).
Qed.
Print Assumptions C98_tampered.

(** C98.  So whoever can make the Aggregators use a changed public share learns
    whether the measurement starts with a candidate prefix [y] of their choice:
    if it does not, the report is accepted; if it does, it is rejected for all but
    two values of the verification randomness. *)
Theorem C98_reveals : forall ts aes bound bits,
  (forall k b, length b = 16 -> length (aes k b) = 16) -> (Z.of_nat bound < 2 ^ 120)%Z -> 0 < bits -> (Z.of_nat bits <= 65536)%Z ->
  let p := p1_obj ts aes bound bits in
  forall level d, level < bits -> let q := level_modulus p level in (d mod q <> 0)%Z -> ((d * d) mod q <> 1)%Z ->
  forall ctx m nonce rand ps is0 is1,
  ctx_ok ctx -> length m = bits -> length nonce = p1_NONCE_SIZE -> length rand = p1_RAND_SIZE p ->
  p1_shard p ctx m nonce rand = Ok (ps, [is0; is1]) ->
  exists r0, (0 <= r0 < q)%Z /\ forall key y, length key = SEED_SIZE (p1_xof p) -> length y = S level ->
    let run := p1_execute p key ctx (Z.of_nat level, [y]) nonce (tampered level (delta_at p level d) ps) is0 is1 in
    (run = Raise OutOfFuel /\ p1_ran_out p 1) \/
    (y <> firstn (S level) m /\ exists out, run = Ok out) \/
    (y = firstn (S level) m /\ exists v r, rand_at p key ctx nonce level 1 = Ok v /\ fv_vals v = [r] /\
       ((r = 0 \/ r = r0 -> exists out, run = Ok out)%Z /\
        (r <> 0 -> r <> r0 -> run = Raise (ValueError "sketch verification failed"))%Z)).
Proof.
  intros ts aes bound bits Ha Hb Hb0 Hbits p level d HL q Hd Hd2 ctx m nonce rand ps is0 is1 Hc Hm Hn Hr ES.
  destruct (C98_tampered ts aes bound bits Ha Hb Hb0 Hbits level d HL Hd ctx m nonce rand ps is0 is1 Hc Hm Hn Hr ES) as (e & k & He & HT).
  pose proof (level_prime ts aes bound bits level) as Hp.
  destruct (line_root q e k Hp (shifts_nonzero _ _ _ Hp Hd2 He)) as (r0 & Hr0 & HR).
  exists r0. split; [exact Hr0|]. intros key y Hk Hy run.
  destruct (HT key [y]) as [(v & Hv & Lv & Fv & HX)|HF]; [| | exact Hk | | left; exact HF].
  1: { constructor; [easy | constructor]. }
  1: { constructor; [easy | constructor]. }
  right. destruct (fv_vals v) as [|r [|? ?]] eqn:Ev; try discriminate Lv. cbn [path_draw] in HX.
  inversion Fv as [|? ? Hr1 _]; subst. cbv zeta in HX. destruct HX as [H1 H2].
  destruct (list_eq_dec Bool.bool_dec y (firstn (S level) m)) as [E|E].
  - right. split; [exact E|]. exists v, r. split; [exact Hv|]. split; [exact Ev|]. specialize (HR r Hr1). split.
    + intros [C|C]; apply H1; [left; exact C | right; now apply HR].
    + intros C1 C2. apply H2; [exact C1|]. intros C. now apply C2, HR.
  - left. split; [exact E|]. apply H1. now left.
Qed.
Print Assumptions C98_reveals.

(** The measurement 10, the public share of which has been changed at the first
    level: asked about the prefix 0, the Aggregators accept; asked about 1, they
    reject; the unchanged report is accepted. *)
Definition C98_runs : list bool := Eval vm_compute in
  match p1_shard toy_p1 [x09] [true; false] (repeat x01 16) (repeat x02 128) with
  | Ok (ps, [is0; is1]) =>
    let run level ps y := match p1_execute toy_p1 (repeat x07 32) [x09] (level, [y]) (repeat x01 16) ps is0 is1 with Ok _ => true | Raise _ => false end in
    let bad level := tampered level (delta_at toy_p1 level 2) ps in
    [run 0%Z (bad 0) [false]; run 0%Z (bad 0) [true]; run 0%Z ps [true];
     run 1%Z (bad 1) [true; true]; run 1%Z (bad 1) [true; false]; run 1%Z (bad 0) [true; false]]
  | _ => []
  end.
Example C98_example : C98_runs = [true; false; true; true; false; true].
Proof. reflexivity. Qed.
Example C98_hypotheses : toy_p1 = p1_obj toy_ts toy_aes 30 2 /\
  (2 mod MODULUS Field64 <> 0)%Z /\ ((2 * 2) mod MODULUS Field64 <> 1)%Z.
Proof. split; [reflexivity|]. split; discriminate. Qed.
