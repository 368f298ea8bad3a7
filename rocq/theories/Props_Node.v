(** Property C108: the seeds and the control bits of the IDPF tree
    (poc/vdaf_poc/idpf_bbcggi21.py:265-287). *)
From Verif Require Import NodeFacts IdpfFacts PostFacts IdpfInst Poplar1 Props_Idpf BaseFacts.
From Coq Require Import List ZArith Lia.
Import ListNotations.
Open Scope nat_scope.

(** C108.  Expanding a node splits two seeds' worth of XOF output into two seeds
    whose lowest bit is zero and the two bits taken from there; nothing is lost.
    The XOF is that of the inner levels on all levels but the last. *)
Theorem C108_split : forall (i : Idpf) (lim : Z), IdpfOk i lim -> forall level seed ctx nonce,
  ctx_ok ctx -> length seed = id_KEY_SIZE i ->
  exists s0 s1 t0 t1, extend i level seed ctx nonce = Ok ((s0, s1), (t0, t1)) /\
    length s0 = id_KEY_SIZE i /\ length s1 = id_KEY_SIZE i /\ even_seed s0 /\ even_seed s1 /\
    (level < id_BITS i - 1 -> puts_out (id_xof_inner i) 0 seed ctx nonce (with_bit s0 t0) (with_bit s1 t1)) /\
    (id_BITS i - 1 <= level -> puts_out (id_xof_leaf i) 0 seed ctx nonce (with_bit s0 t0) (with_bit s1 t1)).
Proof. intros i lim HO level seed ctx nonce. exact (extend_split i lim HO level seed ctx nonce). Qed.
Print Assumptions C108_split.

(** C108.  The seeds of all correction words of [gen] have that bit zero, whatever
    it is called with: the public share holds no XOR of control bits that the
    Aggregators could read there. *)
Theorem C108_words : forall (i : Idpf) alpha beta_inner beta_leaf ctx nonce rand ps keys,
  idpf_gen i alpha beta_inner beta_leaf ctx nonce rand = Ok (ps, keys) ->
  Forall (fun cw : CorrectionWord i => even_seed (fst (fst cw))) ps.
Proof. exact gen_even. Qed.
Print Assumptions C108_words.

(** C108.  So have those of every Poplar1 report. *)
Theorem C108_poplar1 : forall (p : Poplar1) ctx m nonce rand ps iss, p1_shard p ctx m nonce rand = Ok (ps, iss) ->
  Forall (fun cw : CorrectionWord (p1_idpf p) => even_seed (fst (fst cw))) ps.
Proof.
  intros p ctx m nonce rand ps iss E. unfold p1_shard in E.
  repeat (match type of E with
    | bind ?a _ = Ok _ => apply bind_Ok in E; let H := fresh "H" in let x := fresh "x" in destruct E as (x & H & E); cbv zeta in E
    | (let '(_, _) := ?x in _) = _ => destruct x
    end).
  injection E as <- _. eapply gen_even. eassumption.
Qed.
Print Assumptions C108_poplar1.

(** The bit that is cut off is not lost on the other side: two expansions that
    agree put out the same. *)
Theorem C108_lossless : forall s s' t t', even_seed s -> even_seed s' -> with_bit s t = with_bit s' t' -> s = s' /\ t = t'.
Proof.
  intros s s' t t' (b & r & -> & Hb) (b' & r' & -> & Hb') E. cbn [with_bit] in E. injection E as E <-.
  apply (f_equal b2z) in E. pose proof (b2z_range b). pose proof (b2z_range b').
  assert (B : forall b : Byte.byte, Z.even (b2z b) = true -> (b2z b <= 254)%Z).
  { intros c Hc. pose proof (b2z_range c). apply Z.even_spec in Hc. destruct Hc as [k Hk]. lia. }
  pose proof (B b Hb). pose proof (B b' Hb').
  apply Z.even_spec in Hb. apply Z.even_spec in Hb'. destruct Hb as [k Hk], Hb' as [k' Hk'].
  rewrite !b2z_z2b in E by (destruct t, t'; lia).
  destruct t, t'; try lia; (split; [f_equal; apply b2z_inj; lia | reflexivity]).
Qed.
Print Assumptions C108_lossless.

(** The hypotheses are met; both bits occur. *)
Definition C108_outcome : res (list (bool * bool * bool)) := Eval vm_compute in
  mapM (fun seed : bytes =>
    let* (s, t) := extend (idpf_obj toy_ts toy_aes 10 2 3) 2 seed [x09] (repeat x02 16) in
    Ok (Z.even (b2z (nth 0 (fst s) x01)), fst t, snd t)) (map (fun b => repeat b 16) [x00; x03; x08]).
Example C108_example : C108_outcome = Ok [(true, true, false); (true, true, true); (true, false, true)].
Proof. reflexivity. Qed.
Example C108_hypotheses : IdpfOk (idpf_obj toy_ts (fun _ b => b) 10 2 3) (2 ^ 132) /\ ctx_ok [x09] /\
  length (repeat x01 16) = id_KEY_SIZE (idpf_obj toy_ts (fun _ b => b) 10 2 3).
Proof. split; [exact (proj1 (idpf_init_ok toy_ts (fun _ b => b) 10 2 3 _ (fun _ b Hb => Hb) eq_refl eq_refl)) | now split]. Qed.
(** A seed with its bit left in does not qualify. *)
Example C108_odd : ~ even_seed (repeat x01 16).
Proof. intros (b & r & E & H). injection E as <- <-. discriminate. Qed.
