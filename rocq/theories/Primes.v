(** Primality of the four moduli of field.py, by Pocklington's criterion. *)
From Verif Require Export FieldFacts.
From Coq Require Import Zpow_facts.
Open Scope Z_scope.

Lemma prime_divisor n : 1 < n -> exists p, prime p /\ (p | n).
Proof.
  intros H. assert (0 <= n) as Hn by lia. revert n Hn H.
  apply (Z_lt_induction (fun n => 1 < n -> exists p, prime p /\ (p | n))).
  intros n IH H. destruct (prime_dec n) as [Hp|Hp].
  - exists n. split; auto. apply Z.divide_refl.
  - apply not_prime_divide in Hp as (d & Hd & Hdiv); auto.
    destruct (IH d) as (p & Hp & Hpd); [lia|lia|].
    exists p. split; auto. eapply Z.divide_trans; eauto.
Qed.

Lemma composite_small_factor n : 1 < n -> ~ prime n -> exists p, prime p /\ (p | n) /\ p * p <= n.
Proof.
  intros H Hp. apply not_prime_divide in Hp as (d & Hd & (c & Hc)); auto.
  assert (exists m, 1 < m /\ (m | n) /\ m * m <= n) as (m & Hm & Hmn & Hmm).
  { destruct (Z.le_ge_cases d c).
    - exists d. repeat split; try lia. exists c; lia. nia.
    - exists c. assert (1 < c) by nia. repeat split; try lia. exists d; lia. nia. }
  destruct (prime_divisor m) as (p & Hp & Hpm); auto.
  exists p. split; auto. split; [eapply Z.divide_trans; eauto|].
  apply Z.divide_pos_le in Hpm; [|lia]. apply prime_ge_2 in Hp. nia.
Qed.

(** ** Trial division for small primes *)
Fixpoint no_divisor (n d : Z) (fuel : nat) : bool :=
  match fuel with
  | O => false
  | S f => if n <? d * d then true
           else if n mod d =? 0 then false else no_divisor n (d + 1) f
  end.

Lemma no_divisor_sound n fuel : forall d, 2 <= d -> no_divisor n d fuel = true ->
  forall p, d <= p -> p * p <= n -> ~ (p | n).
Proof.
  induction fuel as [|fuel IH]; intros d Hd H p Hp Hpp Hdiv; simpl in H; [discriminate|].
  pose proof (Z.mul_le_mono_nonneg d p d p ltac:(lia) Hp ltac:(lia) Hp).
  destruct (Z.ltb_spec n (d * d)); [lia|].
  destruct (Z.eqb_spec (n mod d) 0) as [|n0]; [discriminate|].
  destruct (Z.eq_dec p d) as [->|Hne].
  - apply n0. apply Z.mod_divide; [lia|auto].
  - apply (IH (d + 1) ltac:(lia) H p); auto; lia.
Qed.

Lemma trial_prime n fuel : 1 < n -> no_divisor n 2 fuel = true -> prime n.
Proof.
  intros Hn H. destruct (prime_dec n) as [|Hp]; auto.
  apply composite_small_factor in Hp as (p & Hp & Hd & Hpp); auto.
  exfalso. eapply (no_divisor_sound n fuel 2); eauto; [lia|]. now apply prime_ge_2.
Qed.

(** ** Orders *)
Section Order.
Context {P : FieldClass}.
Add Ring Fring4 : (@F_ring P).

Lemma fpow_mult_one (b : F P) n k : fpow b n = f1 -> fpow b (n * k) = f1.
Proof. intros H. rewrite fpow_mul, H. apply fpow_1_l. Qed.

Lemma fpow_gcd (b : F P) n m d : 0 <= n -> 0 < m -> 0 <= d ->
  fpow b (Z.to_N n) = f1 -> fpow b (Z.to_N m) = f1 -> Z.gcd n m = d -> fpow b (Z.to_N d) = f1.
Proof.
  intros Hn Hm Hd H1 H2 Hg.
  destruct (Z.gcd_bezout n m d Hg) as (u & v & E).
  set (uu := u mod m). assert (0 <= uu) by (apply Z.mod_pos_bound; lia).
  assert (exists k, uu * n = d + k * m) as (k & Hk).
  { exists (- v - (u / m) * n). unfold uu. rewrite Z.mod_eq by lia. nia. }
  destruct (Z.le_ge_cases 0 k).
  - assert (E' : (Z.to_N uu * Z.to_N n = Z.to_N d + Z.to_N k * Z.to_N m)%N) by nia.
    assert (fpow b (Z.to_N n * Z.to_N uu) = f1) as A by now apply fpow_mult_one.
    rewrite N.mul_comm, E', fpow_add, N.mul_comm, (fpow_mult_one b _ _ H2) in A.
    rewrite <- A. ring.
  - assert (E' : (Z.to_N d = Z.to_N n * Z.to_N uu + Z.to_N m * Z.to_N (- k))%N) by nia.
    rewrite E', fpow_add, !fpow_mult_one by auto. ring.
Qed.
End Order.

Lemma prime_power_divisor q e d : prime q -> 0 <= d ->
  (d | q ^ Z.of_nat (S e)) -> d <> q ^ Z.of_nat (S e) -> (d | q ^ Z.of_nat e).
Proof.
  intros Hq Hd (m & Hm) Hne. pose proof (prime_ge_2 _ Hq).
  assert (0 < q ^ Z.of_nat (S e)) by (apply Z.pow_pos_nonneg; lia).
  assert (m <> 1) by (intros ->; lia).
  assert (1 < m) by nia.
  destruct (prime_divisor m) as (r & Hr & Hrm); auto.
  assert (r = q) as ->.
  { apply (prime_power_prime r q (Z.of_nat (S e))); auto; [lia|].
    rewrite Hm. apply Z.divide_mul_l. auto. }
  destruct Hrm as (m' & ->). exists m'.
  rewrite Nat2Z.inj_succ, Z.pow_succ_r in Hm by lia. nia.
Qed.

Lemma order_prime_power {P : FieldClass} (b : F P) q e n : prime q -> 0 < n ->
  fpow b (Z.to_N n) = f1 ->
  fpow b (Z.to_N (q ^ Z.of_nat (S e))) = f1 ->
  fpow b (Z.to_N (q ^ Z.of_nat e)) <> f1 ->
  (q ^ Z.of_nat (S e) | n).
Proof.
  intros Hq Hn H1 H2 H3. pose proof (prime_ge_2 _ Hq).
  assert (0 < q ^ Z.of_nat (S e)) by (apply Z.pow_pos_nonneg; lia).
  set (d := Z.gcd n (q ^ Z.of_nat (S e))).
  assert (Hd : 0 <= d) by apply Z.gcd_nonneg.
  assert (Hb : fpow b (Z.to_N d) = f1).
  { eapply (fpow_gcd b n (q ^ Z.of_nat (S e))); eauto; lia. }
  destruct (Z.eq_dec d (q ^ Z.of_nat (S e))) as [E|E].
  - rewrite <- E. apply Z.gcd_divide_l.
  - exfalso. apply H3.
    destruct (prime_power_divisor q e d) as (c & Hc); auto.
    { apply Z.gcd_divide_r. }
    assert (0 < q ^ Z.of_nat e) by (apply Z.pow_pos_nonneg; lia).
    rewrite Hc. rewrite Z2N.inj_mul by nia. rewrite N.mul_comm. now apply fpow_mult_one.
Qed.

(** ** Pocklington's criterion *)
(** [x] minus a multiple of [m]; small if [mu] is about [2 ^ (2 * k + 8) / m]. *)
Definition barrett (m mu k x : Z) : Z := x - m * Z.shiftr (mu * Z.shiftr x (k - 8)) (k + 16).
Fixpoint zpm_pos (red : Z -> Z) (a : Z) (n : positive) : Z :=
  match n with
  | xH => a
  | xO k => let y := zpm_pos red a k in red (y * y)
  | xI k => let y := zpm_pos red a k in red (a * red (y * y))
  end.
Definition zpm (a n m : Z) : Z :=
  match n with
  | Zpos k => zpm_pos (barrett m (2 ^ (2 * (Z.log2 m + 1) + 8) / m) (Z.log2 m + 1)) a k mod m
  | _ => 1 mod m
  end.

Lemma barrett_mod m mu k x : m <> 0 -> barrett m mu k x mod m = x mod m.
Proof.
  intros H. unfold barrett. generalize (Z.shiftr (mu * Z.shiftr x (k - 8)) (k + 16)). intros q.
  replace (x - m * q) with (x + (- q) * m) by ring. now apply Z.mod_add.
Qed.

Lemma zpm_pos_spec red m a n : (forall x, red x mod m = x mod m) -> zpm_pos red a n mod m = a ^ Zpos n mod m.
Proof.
  intros R. induction n; cbn [zpm_pos].
  - rewrite R, <- Zmult_mod_idemp_r, R, (Zmult_mod (zpm_pos _ _ _)), IHn, <- Zmult_mod, Zmult_mod_idemp_r. f_equal.
    rewrite Pos2Z.inj_xI. rewrite Z.pow_add_r, Z.pow_1_r by lia.
    replace (2 * Zpos n) with (Zpos n + Zpos n) by lia. rewrite Z.pow_add_r by lia. ring.
  - rewrite R, Zmult_mod, IHn, <- Zmult_mod. f_equal.
    rewrite Pos2Z.inj_xO. replace (2 * Zpos n) with (Zpos n + Zpos n) by lia.
    now rewrite Z.pow_add_r by lia.
  - now rewrite Z.pow_1_r.
Qed.

Lemma zpm_spec a n m : m <> 0 -> 0 <= n -> zpm a n m = a ^ n mod m.
Proof.
  intros Hm H. destruct n as [|n|n]; [reflexivity| |lia].
  apply zpm_pos_spec. intros x. now apply barrett_mod.
Qed.

(** A certificate is a witness and a list of (prime q, exponent e - 1). *)
Definition cert_entry := (Z * nat)%type.
Definition cert_prod (c : list cert_entry) : Z :=
  fold_right (fun '(q, e) acc => q ^ Z.of_nat (S e) * acc) 1 c.
(** The numbers [k * F + 1] for [k] from 1 to [K] do not divide [n]. *)
Fixpoint none_divides (n F : Z) (K : nat) : bool :=
  match K with
  | O => true
  | S K' => negb (n mod (Z.of_nat K * F + 1) =? 0) && none_divides n F K'
  end.
Definition cert_ok (n a : Z) (K : nat) (c : list cert_entry) : bool :=
  let F := cert_prod c in
  (1 <? n) && ((n - 1) mod F =? 0) && (n <? (Z.of_nat (S K) * F) * (Z.of_nat (S K) * F)) && none_divides n F K &&
  (zpm a (n - 1) n =? 1) &&
  forallb (fun '(q, _) => Z.gcd (zpm a ((n - 1) / q) n - 1) n =? 1) c.

Definition small_field (p : Z) : FieldClass := {| modulus_pos := Z.to_pos p; ENCODED_SIZE := 0 |}.

Lemma pow_one_mod_factor n p z : 1 < p -> (p | n) -> 0 < n -> z mod n = 1 mod n ->
  fof z = f1 :> F (small_field p).
Proof.
  intros Hp Hd Hn Hz. apply fof_eq. unfold MODULUS. simpl. rewrite Z2Pos.id by lia.
  destruct Hd as (k & ->).
  rewrite (Z.div_mod z (k * p)) by lia. rewrite Hz.
  replace (k * p * (z / (k * p))) with ((k * (z / (k * p))) * p) by ring.
  rewrite Z.add_comm, Z.mod_add by lia.
  rewrite <- Znumtheory.Zmod_div_mod; auto; try lia. exists k; lia.
Qed.

Lemma none_divides_sound n F K : 0 < F -> none_divides n F K = true -> forall k, 0 < k <= Z.of_nat K -> ~ (k * F + 1 | n).
Proof.
  intros HF. induction K as [|K IH]; intros H k Hk; [lia|]. cbn [none_divides] in H.
  apply andb_true_iff in H as [H1 H2]. destruct (Z.eq_dec k (Z.of_nat (S K))) as [->|]; [|apply IH; [exact H2|lia]].
  intros D. apply Z.mod_divide in D.
  - rewrite D in H1. discriminate H1.
  - nia.
Qed.

Lemma pocklington n a K c : cert_ok n a K c = true ->
  Forall (fun '(q, _) => prime q) c -> NoDup (map (fun '(q, _) => q) c) -> prime n.
Proof.
  unfold cert_ok. intros H Hq Hnd. cbv zeta in H.
  apply andb_true_iff in H as [H Hall]. apply andb_true_iff in H as [H Hfermat]. apply andb_true_iff in H as [H Hnone].
  apply andb_true_iff in H as [H Hbig]. apply andb_true_iff in H as [Hn Hdiv].
  apply Z.ltb_lt in Hn, Hbig. apply Z.eqb_eq in Hdiv, Hfermat. rewrite zpm_spec in Hfermat by lia.
  rewrite forallb_forall in Hall.
  assert (Hpos : 0 < cert_prod c).
  { clear -Hq. induction Hq as [|[q e] c Hq Hc IH]; cbn [cert_prod fold_right]; [lia|].
    apply prime_ge_2 in Hq. apply Z.mul_pos_pos; auto. apply Z.pow_pos_nonneg; lia. }
  apply Z.mod_divide in Hdiv; [|lia].
  destruct (prime_dec n) as [|Hnp]; auto. exfalso.
  apply composite_small_factor in Hnp as (p & Hp & Hpn & Hpp); auto.
  pose proof (prime_ge_2 _ Hp) as Hp2.
  set (P := small_field p).
  assert (HM : MODULUS P = p). { unfold MODULUS. simpl. rewrite Z2Pos.id; lia. }
  assert (HPp : prime (MODULUS P)) by now rewrite HM.
  (* every prime power of the certificate divides p - 1 *)
  assert (Hent : forall q e, In (q, e) c -> (q ^ Z.of_nat (S e) | n - 1) ->
                 (q ^ Z.of_nat (S e) | p - 1)).
  { intros q e Hin Hqn. pose proof (Hall _ Hin) as Hc2. cbn beta iota zeta in Hc2. pose proof Hfermat as Hc1.
    apply Z.eqb_eq in Hc2.
    rewrite Forall_forall in Hq. pose proof (Hq _ Hin) as Hqp. cbn beta iota in Hqp.
    pose proof (prime_ge_2 _ Hqp) as Hq2.
    assert (Hqe : 0 < q ^ Z.of_nat e) by (apply Z.pow_pos_nonneg; lia).
    rewrite Nat2Z.inj_succ, Z.pow_succ_r in Hqn by lia.
    destruct Hqn as (r & Hr).
    assert (0 < r) by nia.
    assert (Hdivq : (n - 1) / q = q ^ Z.of_nat e * r).
    { rewrite Hr. replace (r * (q * q ^ Z.of_nat e)) with ((q ^ Z.of_nat e * r) * q) by ring.
      apply Z.div_mul. lia. }
    rewrite zpm_spec in Hc2 by (try apply Z.div_pos; lia).
    rewrite Hdivq in Hc2.
    set (b := fpow (fof a : F P) (Z.to_N r)).
    apply (order_prime_power b q e (p - 1) Hqp); [lia| | |].
    - unfold b. rewrite <- fpow_mul, N.mul_comm, fpow_mul.
      assert (fof a <> f0 :> F P) as Hanz.
      { intros E. assert (fof (a ^ (n - 1)) = f1 :> F P) as E1.
        { apply (pow_one_mod_factor n p); try lia; auto. rewrite Hc1, Z.mod_small; lia. }
        assert (E2 : fof (a ^ (n - 1)) = fpow (fof a : F P) (Z.to_N (n - 1))).
        { rewrite fpow_fof. now rewrite Z2N.id by lia. }
        rewrite E2, E, fpow_0_l in E1 by lia. symmetry in E1. revert E1. apply f1_neq_f0; auto. }
      rewrite <- HM. rewrite fermat by auto. apply fpow_1_l.
    - unfold b. rewrite <- fpow_mul, <- Z2N.inj_mul by (try lia; apply Z.pow_nonneg; lia).
      rewrite fpow_fof, Z2N.id by (apply Z.mul_nonneg_nonneg; [lia|apply Z.pow_nonneg; lia]).
      apply (pow_one_mod_factor n p); try lia; auto.
      rewrite Nat2Z.inj_succ, Z.pow_succ_r, <- Hr, Hc1, Z.mod_small by lia. auto.
    - unfold b. rewrite <- fpow_mul, <- Z2N.inj_mul by lia.
      rewrite fpow_fof, Z2N.id by nia. intros E.
      apply fof_eq in E. rewrite HM in E.
      rewrite (Z.mul_comm r) in E. set (A := a ^ (q ^ Z.of_nat e * r)) in *.
      assert (p | A mod n - 1) as Hd.
      { destruct Hpn as (k & Hk).
        assert (p | A - 1) as (k2 & Hk2).
        { apply Z.mod_divide; [lia|]. rewrite Zminus_mod, E, Z.sub_diag. apply Zmod_0_l. }
        exists (k2 - (A / n) * k). rewrite Z.mod_eq by lia. nia. }
      assert (p | 1) as H1.
      { rewrite <- Hc2. apply Z.gcd_greatest; auto. }
      apply Z.divide_1_r_nonneg in H1; lia. }
  (* hence their product does *)
  assert (Hprod : (cert_prod c | p - 1)).
  { clear Hall Hpos Hbig Hnone Hfermat. revert Hdiv Hent Hq Hnd. generalize (p - 1) as m. clear.
    intros m. induction c as [|[q e] c IH]; intros Hdiv Hent Hq Hnd.
    - apply Z.divide_1_l.
    - cbn [cert_prod fold_right] in *. fold (cert_prod c) in *.
      inversion Hq as [|? ? Hq1 Hq2]; subst. inversion Hnd as [|? ? Hn1 Hn2]; subst.
      assert (H1 : (q ^ Z.of_nat (S e) | m)).
      { eapply Hent; [left; eauto|]. eapply Z.divide_trans; [|eauto]. apply Z.divide_factor_l. }
      assert (H2 : (cert_prod c | m)).
      { apply IH; auto.
        - eapply Z.divide_trans; [|eauto]. apply Z.divide_factor_r.
        - intros; eapply Hent; [right|]; eauto. }
      assert (Hrel : rel_prime (cert_prod c) (q ^ Z.of_nat (S e))).
      { clear -Hq1 Hq2 Hn1. induction Hq2 as [|[q' e'] c Hq' Hc IH].
        - apply rel_prime_1.
        - cbn [cert_prod fold_right]. fold (cert_prod c).
          simpl in Hn1. apply rel_prime_sym, rel_prime_mult.
          + apply rel_prime_Zpower; try lia. apply prime_rel_prime; auto.
            intros Hd. apply prime_div_prime in Hd; auto; subst.
          + apply rel_prime_sym. apply IH. tauto. }
      destruct H1 as (k & ->).
      rewrite (Z.mul_comm k). apply Z.mul_divide_mono_l.
      eapply Gauss; [|exact Hrel]. now rewrite Z.mul_comm. }
  destruct Hprod as (k & Hk). assert (0 < k) by nia.
  apply (none_divides_sound n (cert_prod c) K Hpos Hnone k).
  - split; [lia|]. destruct (Z_le_gt_dec k (Z.of_nat K)) as [|Hgt]; [assumption|].
    assert (Z.of_nat (S K) * cert_prod c <= k * cert_prod c) by (apply Z.mul_le_mono_nonneg_r; lia).
    assert (0 <= Z.of_nat (S K) * cert_prod c) by (apply Z.mul_nonneg_nonneg; lia). nia.
  - replace (k * cert_prod c + 1) with p by lia. exact Hpn.
Qed.

(** ** Certificates *)
Ltac by_trial := apply (trial_prime _ 3000); [lia | vm_compute; reflexivity].
Ltac by_pocklington a K c :=
  apply (pocklington _ a K c);
  [ vm_compute; reflexivity
  | repeat (apply Forall_cons; [assumption|]); apply Forall_nil
  | repeat constructor; simpl; intuition discriminate ].

Lemma prime_127 : prime 127. Proof. by_trial. Qed.
Lemma prime_8574133 : prime 8574133. Proof. by_trial. Qed.
Lemma prime_1919519569386763 : prime 1919519569386763.
Proof. pose proof prime_8574133; pose proof prime_127. by_pocklington 2 0%nat [(8574133, 0%nat); (127, 0%nat)]. Qed.
Lemma prime_a : prime 75445702479781427272750846543864801.
Proof. pose proof prime_1919519569386763; pose proof prime_2. by_pocklington 7 20%nat [(1919519569386763, 0%nat); (2, 4%nat)]. Qed.
Lemma prime_b : prime 74058212732561358302231226437062788676166966415465897661863160754340907.
Proof. pose proof prime_a. by_pocklington 2 3%nat [(75445702479781427272750846543864801, 0%nat)]. Qed.

Lemma prime_Field64 : prime (MODULUS Field64).
Proof. pose proof prime_2. by_pocklington 7 1%nat [(2, 31%nat)]. Qed.
Lemma prime_Field96 : prime (MODULUS Field96).
Proof. pose proof prime_2. by_pocklington 3 0%nat [(2, 63%nat)]. Qed.
Lemma prime_Field128 : prime (MODULUS Field128).
Proof. pose proof prime_2. by_pocklington 7 0%nat [(2, 65%nat)]. Qed.
Lemma prime_Field255 : prime (MODULUS Field255).
Proof.
  pose proof prime_b.
  by_pocklington 2 0%nat [(74058212732561358302231226437062788676166966415465897661863160754340907, 0%nat)].
Qed.
