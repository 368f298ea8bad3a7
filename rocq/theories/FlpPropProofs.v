(** Lemmas closing the theorems of Props_Flp.v. *)
From Verif Require Import Base Common Field Poly FlpBBCGGI19 Circuits Spec CircuitSpec BaseFacts CommonFacts
  FieldFacts PolyAlg Roots PolyFacts FieldProofs PolyProofs GadgetFacts CircuitFacts InterpFacts VecFacts FlpFacts RangeInt CircuitProofs
  CircuitInstances MeasFacts FlpSpec FlpProofs FlpInstances.
Open Scope nat_scope.

(** ** Range-checked integers *)
Section Rc.
Context {P : FieldClass}.
Notation F := (F P).

Lemma rc_encode_decode max v : (0 < max < MODULUS P)%Z -> (0 <= v <= max)%Z ->
  exists e : list F, encode_range_checked_int v max = Ok e /\ length e = bit_length max /\ Forall is_bit e /\
    decode_range_checked_int e max = Ok (fof v).
Proof.
  intros Hm Hv. destruct (encode_rc (P := P) max v) as (e & E & Hl & Hb & Hi & _); try lia.
  exists e. split; [easy|]. split; [easy|]. split; [easy|].
  rewrite decode_rc, rc_value_int, Hi by (try easy; lia). reflexivity.
Qed.
Lemma rc_decode_range max (e : list F) : (0 < max < MODULUS P)%Z -> length e = bit_length max -> Forall is_bit e ->
  exists x, decode_range_checked_int e max = Ok (fof x) /\ (0 <= x <= max)%Z.
Proof.
  intros Hm Hl Hb. exists (rc_int max e). rewrite decode_rc, rc_value_int by (try easy; lia). split; [easy|].
  apply rc_int_range; (easy || lia).
Qed.
Lemma rc_decode_linear max (a b : list F) k : (0 < max < MODULUS P)%Z -> length a = bit_length max -> length b = bit_length max ->
  exists x y, decode_range_checked_int a max = Ok x /\ decode_range_checked_int b max = Ok y /\
    decode_range_checked_int (zip_with fadd a b) max = Ok (fadd x y) /\
    decode_range_checked_int (map (fmul k) a) max = Ok (fmul k x).
Proof.
  intros Hm Ha Hb. exists (rc_value max a), (rc_value max b). rewrite !decode_rc; try easy; try lia.
  - now rewrite rc_value_add, rc_value_scale by lia.
  - rewrite map_length. lia.
  - rewrite zip_with_length. lia.
Qed.
Lemma rc_decode_short max (e : list F) : (0 < max < MODULUS P)%Z -> length e < bit_length max ->
  decode_range_checked_int e max = Raise IndexError.
Proof. apply decode_rc_short. Qed.
End Rc.

(** ** Gadgets *)
Section Gd.
Context {P : NttFieldClass} (HP : NttOk P).
Notation F := (F P).
Add Ring FringFPP : (@F_ring P).

Lemma gadget_commutes L g (cs : list (list F)) : 1 <= L -> gwf P L g ->
  (Z.of_nat (np2 (gadget_poly_len (DEGREE g) (2 ^ L))) <= GEN_ORDER P)%Z ->
  length cs = ARITY g -> (forall c, In c cs -> length c = 2 ^ L) ->
  exists c M, np2 (gadget_poly_len (DEGREE g) (2 ^ L)) = 2 ^ M /\ length c <= DEGREE g * (2 ^ L - 1) + 1 /\
    gadget_eval_poly g (map (evals L) cs) = Ok (evals M c) /\
    forall x, gadget_eval g (map (fun w => peval w x) cs) = Ok (peval c x).
Proof.
  intros HL Hg Hf Hl Hc. exists (gcomp g cs), (glog g L). rewrite glog_pow in *. split; [easy|]. split.
  - now apply (gcomp_length L g cs).
  - assert (HM : glog g L <= gen_log P).
    { apply (le_gen_log HP). rewrite pow2_nat_Z in Hf. exact Hf. }
    split; [now apply gadget_eval_poly_spec|]. intros x.
    rewrite (gadget_eval_gval L) by (try easy; now rewrite map_length). f_equal. now apply (gval_peval L).
Qed.

(** PolyEval gadgets built by the constructor are usable. *)
Lemma skipn_nth_cons {A} (l : list A) i d : i < length l -> skipn i l = nth i l d :: skipn (S i) l.
Proof.
  revert i. induction l as [|a l IH]; intros [|i] Hi; cbn in Hi; try lia; [easy|]. cbn [skipn nth].
  apply IH. lia.
Qed.
Lemma strip_loop_spec i (p : list Z) : i <= length p -> Forall (fun c => c = 0%Z) (skipn i p) ->
  (Forall (fun c => c = 0%Z) p) \/
  exists n, n < length p /\ strip_ints_loop i p = firstn (S n) p /\ nth n p 0%Z <> 0%Z /\
    Forall (fun c => c = 0%Z) (skipn (S n) p).
Proof.
  induction i as [|i IH]; intros Hi Hz; cbn [strip_ints_loop]; [now left|].
  destruct (Z.eqb_spec (nth i p 0%Z) 0) as [E|E].
  - apply IH; [lia|]. rewrite (skipn_nth_cons p i 0%Z) by lia. now constructor.
  - right. exists i. repeat split; try easy; lia.
Qed.
Lemma peval_zeros (l : list F) x : allzero l -> peval l x = f0.
Proof.
  intros H. induction H as [|a l Ha _ IH]; [easy|]. cbn [peval]. rewrite IH, Ha. ring.
Qed.
Lemma PolyEval_init_ok (p : list Z) calls : Forall (fun c => - MODULUS P < c < MODULUS P)%Z p ->
  (exists i, 1 <= i < length p /\ nth i p 0%Z <> 0%Z) ->
  exists g, PolyEval_init p calls = Ok g /\ gwf P (wlog calls) g /\ ARITY g = 1 /\
    forall x : F, gadget_eval g [x] = Ok (peval (map fof p) x).
Proof.
  intros Hr (i & Hi & Ei). unfold PolyEval_init.
  destruct (strip_loop_spec (length p) p) as [Hz | (n & Hn & Es & Hnz & Hz)];
    [lia | rewrite skipn_all; constructor | |].
  { exfalso. apply Ei. rewrite Forall_forall in Hz. apply Hz, nth_In. lia. }
  assert (Hin : i <= n).
  { destruct (Nat.le_gt_cases i n); [easy|]. exfalso. apply Ei. rewrite Forall_forall in Hz.
    replace i with (S n + (i - S n)) by lia. rewrite <- nth_skipn'. apply Hz, nth_In. rewrite skipn_length. lia. }
  rewrite Es. assert (Hlen : length (firstn (S n) p) = S n) by (rewrite firstn_length; lia).
  rewrite Hlen. cbn [Nat.ltb Nat.leb]. eexists; split; [reflexivity|].
  assert (Hr' : Forall (fun c => - MODULUS P < c < MODULUS P)%Z (firstn (S n) p)).
  { rewrite <- (firstn_skipn (S n) p) in Hr. now apply Forall_app in Hr. }
  assert (Hwf : gwf P (wlog calls) (PolyEval (firstn (S n) p) (np2 (gadget_poly_len (S n - 1) (wire_poly_len calls))))).
  { cbn [gwf]. rewrite Hlen. rewrite wire_poly_len_pow. split; [easy|]. split; [lia|]. split; [easy|].
    intros Ha. apply Hnz. unfold allzero in Ha. rewrite Forall_map, Forall_forall in Ha.
    assert (E : nth n (firstn (S n) p) 0%Z = nth n p 0%Z).
    { rewrite nth_firstn'. replace (n <? S n) with true; [easy|]. symmetry. apply Nat.ltb_lt. lia. }
    rewrite <- E. specialize (Ha (nth n (firstn (S n) p) 0%Z)). rewrite Forall_forall in Hr'.
    assert (Hin' : In (nth n (firstn (S n) p) 0%Z) (firstn (S n) p)) by (apply nth_In; lia).
    specialize (Ha Hin'). specialize (Hr' _ Hin'). revert Ha Hr'. generalize (nth n (firstn (S n) p) 0%Z). intros z Hz' Hr'.
    pose proof (mod_gt_1 HP) as HM.
    apply (f_equal val) in Hz'. unfold f0 in Hz'. rewrite !val_fof in Hz'. rewrite Zmod_0_l in Hz'.
    apply Z.mod_divide in Hz'; [|lia]. destruct Hz' as [q Hq].
    assert (Hc : (q = 0 \/ 1 <= q \/ q <= -1)%Z) by lia. destruct Hc as [-> | [Hc | Hc]]; [lia | nia | nia]. }
  split; [exact Hwf|]. split; [easy|]. intros x.
  rewrite (gadget_eval_gval _ _ _ Hwf) by easy. f_equal. cbn [gval nth].
  rewrite <- (firstn_skipn (S n) p) at 2. rewrite map_app.
  assert (Hz2 : allzero (map fof (skipn (S n) p) : list F)).
  { apply Forall_map. eapply Forall_impl; [|exact Hz]. intros z ->. reflexivity. }
  revert Hz2. generalize (map fof (skipn (S n) p) : list F). intros t Ht.
  induction (map fof (firstn (S n) p) : list F) as [|a l IH]; cbn [peval app]; [|now rewrite IH].
  symmetry. now apply peval_zeros.
Qed.
End Gd.
