(** Property C85: the program that writes the test vectors and the tests that read
    them, for every TurboSHAKE128 and block cipher. *)
From Coq Require Import Strings.String.
From Verif Require Import GenMain GenMainFacts TestVecSpec Prio3Spec Poplar1Spec RunSpec MeasFacts MeasSpec Roots
  FlpProofs FlpSpec FlpInstances TestCircuitFacts NegProofs NegPrio3 XofTestsFacts XofTestsSpec IdpfInst Prio3Inst
  Props_Prio3 Props_Tests Props_Poplar1 Props_TestVec Props_Neg.
Open Scope nat_scope.

(** C85.  The tests construct from the integers of a test vector the VDAF that the
    test vector is for (in the multiproof variant, if the field and the number of
    proofs are the ones written in the test). *)
Theorem C85_load : forall ts aes bound i o, construct ts aes bound i = Ok o -> recorded i ->
  load ts aes bound (class_of i) (document i o) = Ok o.
Proof. exact load_document. Qed.
Print Assumptions C85_load.

(** The condition is necessary: the number of proofs is not recorded, so no function
    of name and integers can tell the VDAFs apart. *)
Theorem C85_multiproof_refuted : forall ts aes bound, exists i i' o o', construct ts aes bound i = Ok o /\ construct ts aes bound i' = Ok o' /\
  test_vec_name i = test_vec_name i' /\ document i o = document i' o' /\ o <> o'.
Proof.
  intros ts aes bound.
  exists (IMultiproof 2 Field64 3 2 1 1), (IMultiproof 2 Field64 2 2 1 1). do 2 eexists.
  split; [reflexivity|]. split; [reflexivity|]. split; [reflexivity|]. split; [reflexivity|].
  intros E. apply (f_equal (fun o => match o with OPrio3 p => p3_PROOFS p | OPoplar1 _ => 0 end)) in E. discriminate E.
Qed.
Print Assumptions C85_multiproof_refuted.

(** C85.  The parameters are new entries: none of them has the name of another entry
    of a test vector, and all other integers stay as they were. *)
Theorem C85_params : forall i d k,
  (In k (snd (test_vec_set_type_param i d)) -> ~ In k vector_keys /\ exists x, dict_get (fst (test_vec_set_type_param i d)) k = Ok x) /\
  (~ In k (snd (test_vec_set_type_param i d)) -> dict_get (fst (test_vec_set_type_param i d)) k = dict_get d k).
Proof.
  intros i d k. split; [|apply type_param_keys]. intros H. split; [exact (type_params_apart i d k H)|].
  destruct i; cbn [test_vec_set_type_param fst snd] in *; rewrite ?dict_get_set; cbn [In] in H;
    repeat match goal with |- context [String.eqb ?a k] => destruct (String.eqb_spec a k); [eexists; reflexivity|] end;
    tauto.
Qed.
Print Assumptions C85_params.

(** The calls of gen_test_vec_for_vdaf() in main(): the file, the aggregate result
    and the only reasons for which there may be no file. *)
Definition main_expected (ts : TurboShake) (aes : BlockCipher) (bound : nat) : list (string * json_result * Prop) :=
  let p3 P ID v shares proofs := p3_excuse (prio3_obj P ID v ts bound shares proofs) (test_points_ok v) in
  let p1 bits n := p1_ran_out (p1_obj ts aes bound bits) n in
  [("Prio3Count_0.json"%string, JInt 1, p3 Field64 1%Z (Count Field64) 2 1);
   ("Prio3Count_1.json"%string, JInt 1, p3 Field64 1%Z (Count Field64) 3 1);
   ("Prio3Count_2.json"%string, JInt 3, p3 Field64 1%Z (Count Field64) 2 1);
   ("Prio3Sum_0.json"%string, JInt 100, p3 Field64 2%Z (Sum Field64 255) 2 1);
   ("Prio3Sum_1.json"%string, JInt 100, p3 Field64 2%Z (Sum Field64 255) 3 1);
   ("Prio3Sum_2.json"%string, JInt 1521, p3 Field64 2%Z (Sum Field64 1337) 2 1);
   ("Prio3SumVec_0.json"%string, JInts [256; 257; 258; 259; 260; 261; 262; 263; 264; 265]%Z, p3 Field128 3%Z (SumVec Field128 10 255 9) 2 1);
   ("Prio3SumVec_1.json"%string, JInts [45328; 76286; 26980]%Z, p3 Field128 3%Z (SumVec Field128 3 32000 7) 3 1);
   ("Prio3SumVecWithMultiproof_0.json"%string, JInts [256; 257; 258; 259; 260; 261; 262; 263; 264; 265]%Z,
     p3 Field64 (Z.of_N 0xFFFFFFFF) (SumVec Field64 10 255 9) 2 3);
   ("Prio3SumVecWithMultiproof_1.json"%string, JInts [45328; 76286; 26980]%Z, p3 Field64 (Z.of_N 0xFFFFFFFF) (SumVec Field64 3 65535 7) 3 3);
   ("Prio3Histogram_0.json"%string, JInts [0; 0; 1; 0]%Z, p3 Field128 4%Z (Histogram Field128 4 2) 2 1);
   ("Prio3Histogram_1.json"%string, JInts [0; 0; 1; 0; 0; 0; 0; 0; 0; 0; 0]%Z, p3 Field128 4%Z (Histogram Field128 11 3) 3 1);
   ("Prio3Histogram_2.json"%string, JInts ([3; 1; 2] ++ repeat 0 14 ++ [1] ++ repeat 0 24 ++ [1] ++ repeat 0 56 ++ [2])%Z,
     p3 Field128 4%Z (Histogram Field128 100 10) 2 1);
   ("Prio3MultihotCountVec_0.json"%string, JInts [0; 1; 1; 0]%Z, p3 Field128 5%Z (MultihotCountVec Field128 4 2 2) 2 1);
   ("Prio3MultihotCountVec_1.json"%string, JInts [0; 1; 0; 0; 0; 0; 0; 0; 0; 1]%Z, p3 Field128 5%Z (MultihotCountVec Field128 10 2 3) 4 1);
   ("Prio3MultihotCountVec_2.json"%string, JInts [2; 3; 4; 1]%Z, p3 Field128 5%Z (MultihotCountVec Field128 4 4 1) 2 1);
   ("Prio3HigherDegree_0.json"%string, JInt 2, p3 Field64 (Z.of_N 0xFFFFFFFF) HigherDegree 2 1);
   ("Poplar1_0.json"%string, JInts [0; 1]%Z, p1 4 2);
   ("Poplar1_1.json"%string, JInts [0; 0; 0; 1]%Z, p1 4 4);
   ("Poplar1_2.json"%string, JInts [0; 0; 0; 1]%Z, p1 4 4);
   ("Poplar1_3.json"%string, JInts [0; 0; 0; 0; 0; 1; 0]%Z, p1 4 7);
   ("Poplar1_4.json"%string, JInts [0; 1]%Z, p1 11 2);
   ("Poplar1_5.json"%string, JInts [0; 0; 1; 0]%Z, p1 11 4)].

Ltac side_tac := vm_compute; repeat split; first [discriminate | lia | reflexivity | exact I].
Ltac each := repeat (apply Forall_cons || apply Forall_nil); cbn [fst snd].
Ltac in_tac := vm_compute; tauto.

Section Pos.
Context (ts : TurboShake) (aes : BlockCipher) (bound : nat).
Notation gives := (gives ts aes bound).
Notation gen_positive := (gen_positive ts aes bound).
Notation ex P ID v shares proofs := (p3_excuse (prio3_obj P ID v ts bound shares proofs) (test_points_ok v)).

Lemma key_length : length main_key = 32.
Proof. reflexivity. Qed.

Lemma std_both (P : NttFieldClass) (HP : NttOk P) v : std_circuit P v -> ValidOk v /\ truncate_linear v.
Proof. exact (std_ok HP v). Qed.

Lemma pos_count shares  ms n r : 2 <= shares < 256 -> Forall (fun m => m = 0 \/ m = 1)%Z ms -> r = (zsuml ms mod MODULUS Field64)%Z ->
  In (TestPrio3Count, file_name (ICount (Z.of_nat shares)) (str_nat (Z.of_nat n))) files_read ->
  forallb (enc_ok (prio3_obj Field64 1%Z (Count Field64) ts bound shares 1)) ms = true ->
  gives (gen_positive (ICount (Z.of_nat shares)) (o_count ts bound shares) JInt tt main_ctx ms n) (file_name (ICount (Z.of_nat shares)) (str_nat (Z.of_nat n)))
    (JInt r) (ex Field64 1%Z (Count Field64) shares 1).
Proof.
  intros Hs  HM -> HI HE.
  destruct (std_both Field64 NttOk_Field64 (Count Field64) ltac:(apply std_Count; vm_compute; discriminate)) as [HV HT].
  apply (circuit_positive ts aes bound Field64 NttOk_Field64 (proj1 fields_wf) 1%Z (Count Field64) shares 1 (ICount (Z.of_nat shares)) JInt ms n);
    [split; vm_compute; congruence|exact Hs|change (MODULUS Field64) with 18446744069414584321%Z; lia|lia|exact HV|exact HT| |exact I|exact HI|exact HE|].
  - cbn [construct]. now rewrite (proj1 (C29_count ts bound shares [] [] [] Hs)).
  - intros reports HSz E. subst ms. exact (proj2 (C29_count ts bound shares main_key main_ctx reports Hs) main_ctx_ok key_length HSz HM).
Qed.

Lemma pos_sum shares max ms n r : 2 <= shares < 256 -> (0 < max)%Z -> (2 ^ Z.of_nat (bit_length max) < MODULUS Field64)%Z -> fits Field64 (Sum_gadget (bit_length max)) (bit_length max) -> Forall (fun m => 0 <= m <= max)%Z ms -> r = (zsuml ms mod MODULUS Field64)%Z ->
  In (TestPrio3Sum, file_name (ISum (Z.of_nat shares) max) (str_nat (Z.of_nat n))) files_read ->
  forallb (enc_ok (prio3_obj Field64 2%Z (Sum Field64 max) ts bound shares 1)) ms = true ->
  gives (gen_positive (ISum (Z.of_nat shares) max) (o_sum ts bound shares max) JInt tt main_ctx ms n) (file_name (ISum (Z.of_nat shares) max) (str_nat (Z.of_nat n)))
    (JInt r) (ex Field64 2%Z (Sum Field64 max) shares 1).
Proof.
  intros Hs H0 H1 H2 HM -> HI HE.
  destruct (std_both Field64 NttOk_Field64 (Sum Field64 max) ltac:(apply (std_Sum _ max); [apply Sum_init_Ok; now split|exact H0|exact H2])) as [HV HT].
  apply (circuit_positive ts aes bound Field64 NttOk_Field64 (proj1 fields_wf) 2%Z (Sum Field64 max) shares 1 (ISum (Z.of_nat shares) max) JInt ms n);
    [split; vm_compute; congruence|exact Hs|change (MODULUS Field64) with 18446744069414584321%Z; lia|lia|exact HV|exact HT| |exact I|exact HI|exact HE|].
  - cbn [construct]. now rewrite (proj1 (C29_sum ts bound shares max [] [] [] Hs H0 H1 H2)).
  - intros reports HSz E. subst ms. exact (proj2 (C29_sum ts bound shares max main_key main_ctx reports Hs H0 H1 H2) main_ctx_ok key_length HSz HM).
Qed.

Lemma pos_sumvec shares len max chunk ms n r : 2 <= shares < 256 -> 1 <= len -> 1 <= chunk -> (0 < max)%Z -> (2 ^ Z.of_nat (bit_length max) < MODULUS Field128)%Z -> fits Field128 (ParallelSum Mul chunk) (SumVec_calls len (bit_length max) chunk) -> Forall (fun m => length m = len /\ Forall (fun x => 0 <= x <= max)%Z m) ms -> r = map (fun x => x mod MODULUS Field128)%Z (col_totals len ms) ->
  In (TestPrio3SumVec, file_name (ISumVec (Z.of_nat shares) (Z.of_nat len) max (Z.of_nat chunk)) (str_nat (Z.of_nat n))) files_read ->
  forallb (enc_ok (prio3_obj Field128 3%Z (SumVec Field128 len max chunk) ts bound shares 1)) ms = true ->
  gives (gen_positive (ISumVec (Z.of_nat shares) (Z.of_nat len) max (Z.of_nat chunk)) (o_sumvec ts bound shares len max chunk) JInts tt main_ctx ms n) (file_name (ISumVec (Z.of_nat shares) (Z.of_nat len) max (Z.of_nat chunk)) (str_nat (Z.of_nat n)))
    (JInts r) (ex Field128 3%Z (SumVec Field128 len max chunk) shares 1).
Proof.
  intros Hs H0 H1 H2 H3 H4 HM -> HI HE.
  destruct (std_both Field128 NttOk_Field128 (SumVec Field128 len max chunk) ltac:(apply (std_SumVec _ (Z.of_nat len) max (Z.of_nat chunk)); [apply SumVec_init_Ok; rewrite ?Nat2Z.id; repeat split; try lia; exact H3|rewrite !Nat2Z.id; exact H4])) as [HV HT].
  apply (circuit_positive ts aes bound Field128 NttOk_Field128 (proj2 fields_wf) 3%Z (SumVec Field128 len max chunk) shares 1 (ISumVec (Z.of_nat shares) (Z.of_nat len) max (Z.of_nat chunk)) JInts ms n);
    [split; vm_compute; congruence|exact Hs|change (MODULUS Field128) with 340282366920938462946865773367900766209%Z; lia|lia|exact HV|exact HT| |exact I|exact HI|exact HE|].
  - cbn [construct]. now rewrite (proj1 (C29_sumvec ts bound shares len max chunk [] [] [] Hs H0 H1 H2 H3 H4)).
  - intros reports HSz E. subst ms. exact (proj2 (C29_sumvec ts bound shares len max chunk main_key main_ctx reports Hs H0 H1 H2 H3 H4) main_ctx_ok key_length HSz HM).
Qed.

Lemma pos_multiproof shares len max chunk ms n r : 2 <= shares < 256 -> 1 <= len -> 1 <= chunk -> (0 < max)%Z -> (2 ^ Z.of_nat (bit_length max) < MODULUS Field64)%Z -> fits Field64 (ParallelSum Mul chunk) (SumVec_calls len (bit_length max) chunk) -> Forall (fun m => length m = len /\ Forall (fun x => 0 <= x <= max)%Z m) ms -> r = map (fun x => x mod MODULUS Field64)%Z (col_totals len ms) ->
  In (TestPrio3SumVecWithMultiproof, file_name (IMultiproof (Z.of_nat shares) Field64 3 (Z.of_nat len) max (Z.of_nat chunk)) (str_nat (Z.of_nat n))) files_read ->
  forallb (enc_ok (prio3_obj Field64 (Z.of_N 0xFFFFFFFF) (SumVec Field64 len max chunk) ts bound shares 3)) ms = true ->
  gives (gen_positive (IMultiproof (Z.of_nat shares) Field64 3 (Z.of_nat len) max (Z.of_nat chunk)) (o_multiproof ts bound shares len max chunk) JInts tt main_ctx ms n) (file_name (IMultiproof (Z.of_nat shares) Field64 3 (Z.of_nat len) max (Z.of_nat chunk)) (str_nat (Z.of_nat n)))
    (JInts r) (ex Field64 (Z.of_N 0xFFFFFFFF) (SumVec Field64 len max chunk) shares 3).
Proof.
  intros Hs H0 H1 H2 H3 H4 HM -> HI HE.
  destruct (std_both Field64 NttOk_Field64 (SumVec Field64 len max chunk) ltac:(apply (std_SumVec _ (Z.of_nat len) max (Z.of_nat chunk)); [apply SumVec_init_Ok; rewrite ?Nat2Z.id; repeat split; try lia; exact H3|rewrite !Nat2Z.id; exact H4])) as [HV HT].
  apply (circuit_positive ts aes bound Field64 NttOk_Field64 (proj1 fields_wf) (Z.of_N 0xFFFFFFFF) (SumVec Field64 len max chunk) shares 3 (IMultiproof (Z.of_nat shares) Field64 3 (Z.of_nat len) max (Z.of_nat chunk)) JInts ms n);
    [split; vm_compute; congruence|exact Hs|change (MODULUS Field64) with 18446744069414584321%Z; lia|lia|exact HV|exact HT| |split; reflexivity|exact HI|exact HE|].
  - cbn [construct]. now rewrite (proj1 (C29_multiproof Field64 ts bound shares 3 len max chunk [] [] [] NttOk_Field64 (proj1 fields_wf) ltac:(change (MODULUS Field64) with 18446744069414584321%Z; lia) ltac:(lia) Hs H0 H1 H2 H3 H4)).
  - intros reports HSz E. subst ms. exact (proj2 (C29_multiproof Field64 ts bound shares 3 len max chunk main_key main_ctx reports NttOk_Field64 (proj1 fields_wf) ltac:(change (MODULUS Field64) with 18446744069414584321%Z; lia) ltac:(lia) Hs H0 H1 H2 H3 H4) main_ctx_ok key_length HSz HM).
Qed.

Lemma pos_histogram shares len chunk ms n r : 2 <= shares < 256 -> 1 <= len -> 1 <= chunk -> fits Field128 (ParallelSum Mul chunk) (Histogram_calls len chunk) -> Forall (fun m => 0 <= m < Z.of_nat len)%Z ms -> r = map (fun i => Z.of_nat (count_occ Z.eq_dec ms (Z.of_nat i)) mod MODULUS Field128)%Z (seq 0 len) ->
  In (TestPrio3Histogram, file_name (IHistogram (Z.of_nat shares) (Z.of_nat len) (Z.of_nat chunk)) (str_nat (Z.of_nat n))) files_read ->
  forallb (enc_ok (prio3_obj Field128 4%Z (Histogram Field128 len chunk) ts bound shares 1)) ms = true ->
  gives (gen_positive (IHistogram (Z.of_nat shares) (Z.of_nat len) (Z.of_nat chunk)) (o_histogram ts bound shares len chunk) JInts tt main_ctx ms n) (file_name (IHistogram (Z.of_nat shares) (Z.of_nat len) (Z.of_nat chunk)) (str_nat (Z.of_nat n)))
    (JInts r) (ex Field128 4%Z (Histogram Field128 len chunk) shares 1).
Proof.
  intros Hs H0 H1 H2 HM -> HI HE.
  destruct (std_both Field128 NttOk_Field128 (Histogram Field128 len chunk) ltac:(apply (std_Histogram _ (Z.of_nat len) (Z.of_nat chunk)); [apply Histogram_init_Ok; rewrite ?Nat2Z.id; repeat split; lia|rewrite !Nat2Z.id; exact H2])) as [HV HT].
  apply (circuit_positive ts aes bound Field128 NttOk_Field128 (proj2 fields_wf) 4%Z (Histogram Field128 len chunk) shares 1 (IHistogram (Z.of_nat shares) (Z.of_nat len) (Z.of_nat chunk)) JInts ms n);
    [split; vm_compute; congruence|exact Hs|change (MODULUS Field128) with 340282366920938462946865773367900766209%Z; lia|lia|exact HV|exact HT| |exact I|exact HI|exact HE|].
  - cbn [construct]. now rewrite (proj1 (C29_histogram ts bound shares len chunk [] [] [] Hs H0 H1 H2)).
  - intros reports HSz E. subst ms. exact (proj2 (C29_histogram ts bound shares len chunk main_key main_ctx reports Hs H0 H1 H2) main_ctx_ok key_length HSz HM).
Qed.

Lemma pos_multihot shares len mw chunk ms n r : 2 <= shares < 256 -> 1 <= len -> 1 <= mw <= len -> (Z.of_nat len < MODULUS Field128)%Z -> 1 <= chunk -> fits Field128 (ParallelSum Mul chunk) (Multihot_calls len mw chunk) -> Forall (fun m => length m = len /\ (weight m <= Z.of_nat mw)%Z) ms -> r = map (fun i => Z.of_nat (length (filter (fun m => nth i m false) ms)) mod MODULUS Field128)%Z (seq 0 len) ->
  In (TestPrio3MultihotCountVec, file_name (IMultihot (Z.of_nat shares) (Z.of_nat len) (Z.of_nat mw) (Z.of_nat chunk)) (str_nat (Z.of_nat n))) files_read ->
  forallb (enc_ok (prio3_obj Field128 5%Z (MultihotCountVec Field128 len mw chunk) ts bound shares 1)) ms = true ->
  gives (gen_positive (IMultihot (Z.of_nat shares) (Z.of_nat len) (Z.of_nat mw) (Z.of_nat chunk)) (o_multihot ts bound shares len mw chunk) JInts tt main_ctx ms n) (file_name (IMultihot (Z.of_nat shares) (Z.of_nat len) (Z.of_nat mw) (Z.of_nat chunk)) (str_nat (Z.of_nat n)))
    (JInts r) (ex Field128 5%Z (MultihotCountVec Field128 len mw chunk) shares 1).
Proof.
  intros Hs H0 H1 H2 H3 H4 HM -> HI HE.
  destruct (std_both Field128 NttOk_Field128 (MultihotCountVec Field128 len mw chunk) ltac:(apply (std_MultihotCountVec _ (Z.of_nat len) (Z.of_nat mw) (Z.of_nat chunk)); [apply MultihotCountVec_init_Ok; rewrite ?Nat2Z.id; repeat split; try lia; exact H2|rewrite !Nat2Z.id; exact H4])) as [HV HT].
  apply (circuit_positive ts aes bound Field128 NttOk_Field128 (proj2 fields_wf) 5%Z (MultihotCountVec Field128 len mw chunk) shares 1 (IMultihot (Z.of_nat shares) (Z.of_nat len) (Z.of_nat mw) (Z.of_nat chunk)) JInts ms n);
    [split; vm_compute; congruence|exact Hs|change (MODULUS Field128) with 340282366920938462946865773367900766209%Z; lia|lia|exact HV|exact HT| |exact I|exact HI|exact HE|].
  - cbn [construct]. now rewrite (proj1 (C29_multihot ts bound shares len mw chunk [] [] [] Hs H0 H1 H2 H3 H4)).
  - intros reports HSz E. subst ms. exact (proj2 (C29_multihot ts bound shares len mw chunk main_key main_ctx reports Hs H0 H1 H2 H3 H4) main_ctx_ok key_length HSz HM).
Qed.

Lemma pos_higher shares ms n r : 2 <= shares < 256 -> Forall (fun m => 0 <= m <= 2)%Z ms -> r = (zsuml ms mod MODULUS Field64)%Z ->
  In (TestPrio3HigherDegree, file_name (IHigherDegree (Z.of_nat shares)) (str_nat (Z.of_nat n))) files_read ->
  forallb (enc_ok (Prio3HigherDegree ts bound shares)) ms = true ->
  gives (gen_positive (IHigherDegree (Z.of_nat shares)) (o_higher_degree ts bound shares) JInt tt main_ctx ms n)
    (file_name (IHigherDegree (Z.of_nat shares)) (str_nat (Z.of_nat n))) (JInt r) (ex Field64 (Z.of_N 0xFFFFFFFF) HigherDegree shares 1).
Proof.
  intros Hs HM -> HI HE.
  apply (circuit_positive ts aes bound Field64 NttOk_Field64 (proj1 fields_wf) (Z.of_N 0xFFFFFFFF) HigherDegree shares 1 (IHigherDegree (Z.of_nat shares)) JInt ms n);
    [split; vm_compute; congruence|exact Hs|change (MODULUS Field64) with 18446744069414584321%Z; lia|lia|exact HigherDegree_ok|exact HigherDegree_truncate| |exact I|exact HI|exact HE|].
  - cbn [construct]. unfold Prio3_init. rewrite (proj2 (Z.leb_le _ _)), (proj2 (Z.ltb_lt _ _)), Nat2Z.id by lia. reflexivity.
  - intros reports HSz E. subst ms. exact (C69_higher_degree ts bound shares main_key main_ctx reports Hs main_ctx_ok key_length HSz HM).
Qed.
End Pos.

Ltac calls_tac := each; first [now left | now right | lia | (split; [reflexivity | each; lia]) | (split; [reflexivity | vm_compute; discriminate]) | (vm_compute; reflexivity) | discriminate].
Ltac nd_tac := repeat (apply NoDup_cons; [cbn [In]; intuition discriminate|]); apply NoDup_nil.

(** C85.  What the calls of gen_test_vec_for_vdaf() in main() give: a file that the
    test of its name accepts, with the right aggregate result; unless, for Prio3, the
    derived query randomness is rejected (or the model's loop bound is hit). *)
Theorem C85_positive : forall ts aes bound, (forall k b, length b = 16 -> length (aes k b) = 16) -> (Z.of_nat bound < 2 ^ 120)%Z ->
  Forall2 (fun m '(name, result, excuse) => gives ts aes bound m name result excuse) (main_positive ts aes bound) (main_expected ts aes bound).
Proof.
  intros ts aes bound Ha Hb. unfold main_positive, main_expected.
  cbn [app map combine range seq poplar1_tests_4 poplar1_tests_11 Nat.sub].
  apply Forall2_cons; [exact (pos_count ts aes bound 2 [1]%Z 0 1 ltac:(lia) ltac:(calls_tac) ltac:(vm_compute; reflexivity) ltac:(in_tac) ltac:(vm_compute; reflexivity))|].
  apply Forall2_cons; [exact (pos_count ts aes bound 3 [1]%Z 1 1 ltac:(lia) ltac:(calls_tac) ltac:(vm_compute; reflexivity) ltac:(in_tac) ltac:(vm_compute; reflexivity))|].
  apply Forall2_cons; [exact (pos_count ts aes bound 2 [0; 1; 1; 0; 1]%Z 2 3 ltac:(lia) ltac:(calls_tac) ltac:(vm_compute; reflexivity) ltac:(in_tac) ltac:(vm_compute; reflexivity))|].
  apply Forall2_cons; [exact (pos_sum ts aes bound 2 255 [100]%Z 0 100 ltac:(lia) ltac:(lia) ltac:(side_tac) ltac:(side_tac) ltac:(calls_tac) ltac:(vm_compute; reflexivity) ltac:(in_tac) ltac:(vm_compute; reflexivity))|].
  apply Forall2_cons; [exact (pos_sum ts aes bound 3 255 [100]%Z 1 100 ltac:(lia) ltac:(lia) ltac:(side_tac) ltac:(side_tac) ltac:(calls_tac) ltac:(vm_compute; reflexivity) ltac:(in_tac) ltac:(vm_compute; reflexivity))|].
  apply Forall2_cons; [exact (pos_sum ts aes bound 2 1337 [0; 1; 1337; 99; 42; 0; 0; 42]%Z 2 1521 ltac:(lia) ltac:(lia) ltac:(side_tac) ltac:(side_tac) ltac:(calls_tac) ltac:(vm_compute; reflexivity) ltac:(in_tac) ltac:(vm_compute; reflexivity))|].
  apply Forall2_cons; [exact (pos_sumvec ts aes bound 2 10 255 9 [map Z.of_nat (range 0 10); repeat 1%Z 10; repeat 255%Z 10] 0 [256; 257; 258; 259; 260; 261; 262; 263; 264; 265]%Z
    ltac:(lia) ltac:(lia) ltac:(lia) ltac:(lia) ltac:(side_tac) ltac:(side_tac) ltac:(cbn [map range seq repeat Nat.sub]; calls_tac) ltac:(vm_compute; reflexivity) ltac:(in_tac) ltac:(vm_compute; reflexivity))|].
  apply Forall2_cons; [exact (pos_sumvec ts aes bound 3 3 32000 7 [[10000; 32000; 9]; [19342; 19615; 3061]; [15986; 24671; 23910]]%Z 1 [45328; 76286; 26980]%Z
    ltac:(lia) ltac:(lia) ltac:(lia) ltac:(lia) ltac:(side_tac) ltac:(side_tac) ltac:(calls_tac) ltac:(vm_compute; reflexivity) ltac:(in_tac) ltac:(vm_compute; reflexivity))|].
  apply Forall2_cons; [exact (pos_multiproof ts aes bound 2 10 255 9 [map Z.of_nat (range 0 10); repeat 1%Z 10; repeat 255%Z 10] 0 [256; 257; 258; 259; 260; 261; 262; 263; 264; 265]%Z
    ltac:(lia) ltac:(lia) ltac:(lia) ltac:(lia) ltac:(side_tac) ltac:(side_tac) ltac:(cbn [map range seq repeat Nat.sub]; calls_tac) ltac:(vm_compute; reflexivity) ltac:(in_tac) ltac:(vm_compute; reflexivity))|].
  apply Forall2_cons; [exact (pos_multiproof ts aes bound 3 3 65535 7 [[10000; 32000; 9]; [19342; 19615; 3061]; [15986; 24671; 23910]]%Z 1 [45328; 76286; 26980]%Z
    ltac:(lia) ltac:(lia) ltac:(lia) ltac:(lia) ltac:(side_tac) ltac:(side_tac) ltac:(calls_tac) ltac:(vm_compute; reflexivity) ltac:(in_tac) ltac:(vm_compute; reflexivity))|].
  apply Forall2_cons; [exact (pos_histogram ts aes bound 2 4 2 [2]%Z 0 [0; 0; 1; 0]%Z ltac:(lia) ltac:(lia) ltac:(lia) ltac:(side_tac) ltac:(calls_tac) ltac:(vm_compute; reflexivity) ltac:(in_tac) ltac:(vm_compute; reflexivity))|].
  apply Forall2_cons; [exact (pos_histogram ts aes bound 3 11 3 [2]%Z 1 [0; 0; 1; 0; 0; 0; 0; 0; 0; 0; 0]%Z ltac:(lia) ltac:(lia) ltac:(lia) ltac:(side_tac) ltac:(calls_tac) ltac:(vm_compute; reflexivity) ltac:(in_tac) ltac:(vm_compute; reflexivity))|].
  apply Forall2_cons; [exact (pos_histogram ts aes bound 2 100 10 [2; 99; 99; 17; 42; 0; 0; 1; 2; 0]%Z 2
    ([3; 1; 2] ++ repeat 0 14 ++ [1] ++ repeat 0 24 ++ [1] ++ repeat 0 56 ++ [2])%Z ltac:(lia) ltac:(lia) ltac:(lia) ltac:(side_tac) ltac:(calls_tac) ltac:(vm_compute; reflexivity) ltac:(in_tac) ltac:(vm_compute; reflexivity))|].
  apply Forall2_cons; [exact (pos_multihot ts aes bound 2 4 2 2 [[false; true; true; false]] 0 [0; 1; 1; 0]%Z
    ltac:(lia) ltac:(lia) ltac:(lia) ltac:(side_tac) ltac:(lia) ltac:(side_tac) ltac:(calls_tac) ltac:(vm_compute; reflexivity) ltac:(in_tac) ltac:(vm_compute; reflexivity))|].
  apply Forall2_cons; [exact (pos_multihot ts aes bound 4 10 2 3 [[false; true; false; false; false; false; false; false; false; true]] 1 [0; 1; 0; 0; 0; 0; 0; 0; 0; 1]%Z
    ltac:(lia) ltac:(lia) ltac:(lia) ltac:(side_tac) ltac:(lia) ltac:(side_tac) ltac:(calls_tac) ltac:(vm_compute; reflexivity) ltac:(in_tac) ltac:(vm_compute; reflexivity))|].
  apply Forall2_cons; [exact (pos_multihot ts aes bound 2 4 4 1 [[false; true; true; false]; [false; false; true; false]; [false; false; false; false];
     [true; true; true; false]; [true; true; true; true]] 2 [2; 3; 4; 1]%Z
    ltac:(lia) ltac:(lia) ltac:(lia) ltac:(side_tac) ltac:(lia) ltac:(side_tac) ltac:(calls_tac) ltac:(vm_compute; reflexivity) ltac:(in_tac) ltac:(vm_compute; reflexivity))|].
  apply Forall2_cons; [exact (pos_higher ts aes bound 2 [2]%Z 0 2 ltac:(lia) ltac:(calls_tac) ltac:(vm_compute; reflexivity) ltac:(in_tac) ltac:(vm_compute; reflexivity))|].
  apply Forall2_cons; [exact (poplar1_positive ts aes bound 4 0 [[false]; [true]] [[true; true; false; true]] 0 Ha Hb
    ltac:(lia) ltac:(nd_tac) ltac:(each; reflexivity) ltac:(lia) ltac:(lia) ltac:(reflexivity) ltac:(each; reflexivity) ltac:(reflexivity) ltac:(in_tac))|].
  apply Forall2_cons; [exact (poplar1_positive ts aes bound 4 1 [[false; false]; [false; true]; [true; false]; [true; true]] [[true; true; false; true]] 1 Ha Hb
    ltac:(lia) ltac:(nd_tac) ltac:(each; reflexivity) ltac:(lia) ltac:(lia) ltac:(reflexivity) ltac:(each; reflexivity) ltac:(reflexivity) ltac:(in_tac))|].
  apply Forall2_cons; [exact (poplar1_positive ts aes bound 4 2 [[false; false; false]; [false; true; false]; [true; false; false]; [true; true; false]] [[true; true; false; true]] 2 Ha Hb
    ltac:(lia) ltac:(nd_tac) ltac:(each; reflexivity) ltac:(lia) ltac:(lia) ltac:(reflexivity) ltac:(each; reflexivity) ltac:(reflexivity) ltac:(in_tac))|].
  apply Forall2_cons; [exact (poplar1_positive ts aes bound 4 3 [[false; false; false; true]; [false; false; true; true]; [false; true; false; true]; [false; true; true; true];
       [true; false; false; true]; [true; true; false; true]; [true; true; true; true]] [[true; true; false; true]] 3 Ha Hb
    ltac:(lia) ltac:(nd_tac) ltac:(each; reflexivity) ltac:(lia) ltac:(lia) ltac:(reflexivity) ltac:(each; reflexivity) ltac:(reflexivity) ltac:(in_tac))|].
  apply Forall2_cons; [exact (poplar1_positive ts aes bound 11 0 [[false]; [true]] [poplar1_meas_11] 4 Ha Hb
    ltac:(lia) ltac:(nd_tac) ltac:(each; reflexivity) ltac:(lia) ltac:(lia) ltac:(reflexivity) ltac:(each; reflexivity) ltac:(reflexivity) ltac:(in_tac))|].
  apply Forall2_cons; [exact (poplar1_positive ts aes bound 11 10 [repeat false 11; [true; true; false; false; true; false; false; false; false; false; false];
        poplar1_meas_11; repeat true 11] [poplar1_meas_11] 5 Ha Hb
    ltac:(lia) ltac:(unfold poplar1_meas_11; nd_tac) ltac:(each; reflexivity) ltac:(lia) ltac:(lia) ltac:(reflexivity) ltac:(each; reflexivity) ltac:(reflexivity) ltac:(in_tac))|].
  apply Forall2_nil.
Qed.
Print Assumptions C85_positive.

(** The vectors of the generators of negative test vectors have no aggregate result. *)
Ltac unbind E := repeat (apply bind_Ok in E as ([[? ?] ?] & _ & E) || apply bind_Ok in E as ([? ?] & _ & E) || apply bind_Ok in E as (? & _ & E)).
Lemma failure_none p none key nonce rand ctx ps is0 is1 tv : prio3_message_failure p none key nonce rand ctx ps is0 is1 = Ok tv -> tv_agg_result tv = None.
Proof. unfold prio3_message_failure. intros E. unbind E. apply Ok_inj in E. now subst tv. Qed.
Lemma count_none p none ctx m vecs : gen_negative_count p none ctx m = Ok vecs -> Forall (fun tv => tv_agg_result tv = None) vecs.
Proof.
  unfold gen_negative_count. intros E. apply bind_Ok in E as ([[ps is0] is1] & _ & E).
  apply bind_Ok in E as (b0 & _ & E). apply bind_Ok in E as (v0 & E0 & E).
  apply bind_Ok in E as (b1 & _ & E). apply bind_Ok in E as (v1 & E1 & E).
  apply bind_Ok in E as (b2 & _ & E). apply bind_Ok in E as (v2 & E2 & E).
  apply bind_Ok in E as (b3 & _ & E). apply bind_Ok in E as (v3 & E3 & E). apply Ok_inj in E. subst vecs.
  repeat apply Forall_cons; try apply Forall_nil; eapply failure_none; eassumption.
Qed.
Lemma histogram_none p none key nonce ctx m vecs : gen_negative_histogram p none key nonce ctx m = Ok vecs -> Forall (fun tv => tv_agg_result tv = None) vecs.
Proof.
  unfold gen_negative_histogram. intros E. apply bind_Ok in E as ([[ps is0] is1] & _ & E).
  apply bind_Ok in E as (b0 & _ & E). apply bind_Ok in E as (v0 & E0 & E).
  apply bind_Ok in E as (b1 & _ & E). apply bind_Ok in E as (v1 & E1 & E).
  apply bind_Ok in E as (b2 & _ & E). apply bind_Ok in E as (v2 & E2 & E).
  apply bind_Ok in E as (v3 & E3 & E). apply Ok_inj in E. subst vecs.
  repeat apply Forall_cons; try apply Forall_nil; try (eapply failure_none; eassumption).
  unfold bad_verifier_message in E3. unbind E3. apply Ok_inj in E3. now subst v3.
Qed.
Lemma poplar1_none p none ctx m ap tv : gen_poplar1_negative p none ctx m ap = Ok tv -> tv_agg_result tv = None.
Proof.
  unfold gen_poplar1_negative. intros E. apply bind_Ok in E as ([ps iss] & _ & E).
  destruct iss as [|is0 [|is1 [|]]]; try discriminate E. apply bind_Ok in E as (bad & _ & E).
  unfold poplar1_message_failure in E. unbind E. apply Ok_inj in E. now subst tv.
Qed.

(** A file of a negative test vector. *)
Definition negative_file (ts : TurboShake) (aes : BlockCipher) (bound : nat) (f : file) : Prop :=
  file_passes ts aes bound f /\ f_result f = None.

Lemma neg_files ts aes bound i o show (vecs : list (test_vec (vd_Measurement (object_vdaf o)) (vd_AggResult (object_vdaf o)))) suffixes :
  construct ts aes bound i = Ok o -> recorded i -> length vecs = length suffixes ->
  Forall (fun s => In (class_of i, file_name i s) files_read) suffixes ->
  Forall (fun tv => forall result_eqb, check_test_vector (object_vdaf o) result_eqb tv = Ok tt) vecs ->
  Forall (fun tv => tv_agg_result tv = None) vecs ->
  let files := map (fun '(tv, suffix) => vec_file i o show tv suffix) (combine vecs suffixes) in
  Forall (negative_file ts aes bound) files /\ map f_name files = map (file_name i) suffixes.
Proof.
  intros HC HR. revert suffixes. induction vecs as [|tv vecs IH]; intros [|s suffixes] HL HI HP HN; try discriminate HL.
  - split; [apply Forall_nil|reflexivity].
  - apply Forall_inv in HI as HI1. apply Forall_inv in HP as HP1. apply Forall_inv in HN as HN1.
    apply Forall_inv_tail in HI, HP, HN. injection HL as HL. destruct (IH suffixes HL HI HP HN) as [A B].
    cbn [combine map]. split; [|now rewrite B]. apply Forall_cons; [|exact A]. split.
    + apply file_intro; try assumption. intros eqb _. apply HP1.
    + cbn [vec_file f_result]. now rewrite HN1.
Qed.

Lemma neg_count ts aes bound vecs : gen_negative_count (prio3_obj Field64 1 (Count Field64) ts bound 2 1) 0%Z main_ctx 1%Z = Ok vecs ->
  let i := ICount 2 in let o := o_count ts bound 2 in
  let suffixes := ["bad_meas_share"; "bad_wire_seed"; "bad_gadget_poly"; "bad_helper_seed"]%string in
  let files := map (fun '(tv, suffix) => vec_file i o JInt tv suffix) (combine vecs suffixes) in
  Forall (negative_file ts aes bound) files /\ map f_name files = map (file_name i) suffixes.
Proof.
  intros E i o suffixes.
  destruct (std_both Field64 NttOk_Field64 (Count Field64) ltac:(apply std_Count; vm_compute; discriminate)) as [HV HT].
  assert (HC : construct ts aes bound i = Ok o).
  { change i with (ICount (Z.of_nat 2)). cbn [construct]. now rewrite (proj1 (C29_count ts bound 2 [] [] [] ltac:(lia))). }
  set (p := prio3_obj Field64 1 (Count Field64) ts bound 2 1) in *.
  pose proof (fun eqb => C78_count p (obj_lim Field64 bound) ltac:(apply obj_ok; try assumption; first [exact NttOk_Field64 | exact (proj1 fields_wf) | (split; vm_compute; congruence) | lia | (vm_compute; reflexivity)])
    eq_refl _ _ (flp_ok NttOk_Field64 (Count Field64) HV HT) main_ctx main_ctx_ok eqb 0%Z 1%Z _ vecs eq_refl eq_refl E) as H.
  apply neg_files; [exact HC|exact I|exact (proj1 (H (fun _ _ => true)))| | |].
  - subst suffixes. repeat apply Forall_cons; try apply Forall_nil; in_tac.
  - apply Forall_forall. intros tv Hin eqb. exact (proj1 (Forall_forall _ _) (proj2 (H eqb)) tv Hin).
  - exact (count_none p _ _ _ vecs E).
Qed.

Lemma neg_histogram ts aes bound key nonce vecs : length key = 32 -> length nonce = 16 ->
  gen_negative_histogram (prio3_obj Field128 4 (Histogram Field128 5 2) ts bound 2 1) 0%Z key nonce main_ctx 3%Z = Ok vecs ->
  let i := IHistogram 2 5 2 in let o := o_histogram ts bound 2 5 2 in
  let suffixes := ["bad_leader_jr_blind"; "bad_helper_jr_blind"; "bad_public_share"; "bad_verifier_message"]%string in
  let files := map (fun '(tv, suffix) => vec_file i o JInts tv suffix) (combine vecs suffixes) in
  Forall (negative_file ts aes bound) files /\ map f_name files = map (file_name i) suffixes.
Proof.
  intros HK HN E i o suffixes.
  destruct (std_both Field128 NttOk_Field128 (Histogram Field128 5 2)
    ltac:(apply (std_Histogram _ 5%Z 2%Z); [reflexivity|side_tac])) as [HV HT].
  assert (HC : construct ts aes bound i = Ok o).
  { change i with (IHistogram (Z.of_nat 2) (Z.of_nat 5) (Z.of_nat 2)). cbn [construct].
    now rewrite (proj1 (C29_histogram ts bound 2 5 2 [] [] [] ltac:(lia) ltac:(lia) ltac:(lia) ltac:(side_tac))). }
  set (p := prio3_obj Field128 4 (Histogram Field128 5 2) ts bound 2 1) in *.
  pose proof (fun eqb => C78_histogram p (obj_lim Field128 bound) ltac:(apply obj_ok; try assumption; first [exact NttOk_Field128 | exact (proj2 fields_wf) | (split; vm_compute; congruence) | lia | (vm_compute; reflexivity)])
    eq_refl _ _ (flp_ok NttOk_Field128 (Histogram Field128 5 2) HV HT) main_ctx main_ctx_ok eqb 0%Z 3%Z _ key nonce vecs HK HN eq_refl eq_refl E) as H.
  apply neg_files; [exact HC|exact I|exact (proj1 (H (fun _ _ => true)))| | |].
  - subst suffixes. repeat apply Forall_cons; try apply Forall_nil; in_tac.
  - apply Forall_forall. intros tv Hin eqb. exact (proj1 (Forall_forall _ _) (proj2 (H eqb)) tv Hin).
  - exact (histogram_none p _ _ _ _ _ vecs E).
Qed.

Lemma neg_poplar1 ts aes bound f : (forall k b, length b = 16 -> length (aes k b) = 16) -> (Z.of_nat bound < 2 ^ 120)%Z ->
  main_negative_poplar1 ts aes bound = Ok f -> negative_file ts aes bound f /\ f_name f = "Poplar1_bad_corr_inner.json"%string.
Proof.
  intros Ha Hb. unfold main_negative_poplar1. set (p := p1_obj ts aes bound 2).
  assert (HC : construct ts aes bound (IPoplar1 2) = Ok (OPoplar1 p)).
  { change 2%Z with (Z.of_nat 2). cbn [construct]. rewrite p1_init_cases, (proj2 (Z.ltb_lt 0 (Z.of_nat 2))), Nat2Z.id by lia. reflexivity. }
  rewrite HC. cbn [bind]. intros E. apply bind_Ok in E as (tv & E & Ef). apply Ok_inj in Ef. subst f.
  destruct (p1_obj_ok ts aes bound 2 Ha Hb ltac:(lia)) as (lim & HO). fold p in HO.
  split; [|reflexivity]. split.
  - apply file_intro; [exact HC|exact I|in_tac|]. intros eqb _.
    pose proof (C78_poplar1 p lim HO (proj1 IdpfInst.idpf_fields_wf) (proj2 IdpfInst.idpf_fields_wf) eq_refl [] main_ctx [false; true] 0 [[false]; [true]] eqb
      main_ctx_ok eq_refl ltac:(nd_tac) ltac:(each; reflexivity) ltac:(cbn; lia) ltac:(cbn; lia)) as H.
    change (Z.of_nat 0) with 0%Z in H. rewrite E in H. apply H; [|reflexivity].
    split; [cbn [fst]; lia|]. split; [reflexivity|]. each; reflexivity.
  - exact (f_equal (option_map JInts) (poplar1_none p [] main_ctx [false; true] (0%Z, [[false]; [true]]) tv E)).
Qed.

(** The files of the negative test vectors, in the order in which they are written. *)
Definition negative_names : list string :=
  ["Prio3Count_bad_meas_share.json"; "Prio3Count_bad_wire_seed.json"; "Prio3Count_bad_gadget_poly.json"; "Prio3Count_bad_helper_seed.json";
   "Prio3Histogram_bad_leader_jr_blind.json"; "Prio3Histogram_bad_helper_jr_blind.json"; "Prio3Histogram_bad_public_share.json";
   "Prio3Histogram_bad_verifier_message.json"; "Poplar1_bad_corr_inner.json"]%string.

Definition positive_names : list string :=
  ["Prio3Count_0.json"; "Prio3Count_1.json"; "Prio3Count_2.json"; "Prio3Sum_0.json"; "Prio3Sum_1.json"; "Prio3Sum_2.json";
   "Prio3SumVec_0.json"; "Prio3SumVec_1.json"; "Prio3SumVecWithMultiproof_0.json"; "Prio3SumVecWithMultiproof_1.json";
   "Prio3Histogram_0.json"; "Prio3Histogram_1.json"; "Prio3Histogram_2.json";
   "Prio3MultihotCountVec_0.json"; "Prio3MultihotCountVec_1.json"; "Prio3MultihotCountVec_2.json"; "Prio3HigherDegree_0.json";
   "Poplar1_0.json"; "Poplar1_1.json"; "Poplar1_2.json"; "Poplar1_3.json"; "Poplar1_4.json"; "Poplar1_5.json"]%string.
Lemma names_once : NoDup (positive_names ++ negative_names).
Proof.
  assert (E : nodup string_dec (positive_names ++ negative_names) = positive_names ++ negative_names) by reflexivity.
  rewrite <- E. apply NoDup_nodup.
Qed.
Lemma names_incl (l l' : list string) : forallb (fun x => existsb (String.eqb x) l') l = true -> forall x, In x l -> In x l'.
Proof.
  intros H x Hx. apply (proj1 (forallb_forall _ _) H) in Hx. apply existsb_exists in Hx as (y & Hy & E).
  apply String.eqb_eq in E. now subst y.
Qed.

Lemma positive_files ts aes bound ms ex files :
  Forall2 (fun m '(name, result, excuse) => gives ts aes bound m name result excuse) ms ex -> mapM (fun f => f) ms = Ok files ->
  Forall (file_passes ts aes bound) files /\ map f_name files = map (fun x => fst (fst x)) ex /\
  map f_result files = map (fun x => Some (snd (fst x))) ex.
Proof.
  intros H. revert files. induction H as [|m [[name r] excuse] ms ex [HG _] H IH]; intros files E.
  - apply Ok_inj in E. subst files. split; [apply Forall_nil|split; reflexivity].
  - cbn [mapM] in E. apply bind_Ok in E as (f & Ef & E). apply bind_Ok in E as (fs & Es & E). apply Ok_inj in E. subst files.
    destruct (HG f Ef) as (A & B & C). destruct (IH fs Es) as (A' & B' & C'). split; [now apply Forall_cons|].
    cbn [map fst snd]. now rewrite B, B', C, C'.
Qed.

Lemma neg_prio3 ts aes bound neg : main_negative_prio3 ts aes bound = Ok neg ->
  Forall (negative_file ts aes bound) neg /\ map f_name neg = firstn 8 negative_names.
Proof.
  intros En. unfold main_negative_prio3 in En. apply bind_Ok in En as (? & _ & En). apply bind_Ok in En as (v0 & E0 & En).
    apply bind_Ok in En as (? & _ & En). apply bind_Ok in En as (v1 & E1 & En). apply Ok_inj in En. subst neg.
    destruct (neg_count ts aes bound v0 E0) as [A B].
    destruct (neg_histogram ts aes bound _ _ v1 (GenMainFacts.gen_rand_length _) (GenMainFacts.gen_rand_length _) E1) as [A' B'].
    split; [apply Forall_app; split; [exact A|exact A']|]. rewrite map_app.
    match goal with |- ?x ++ ?y = _ => change x with (map f_name (map (fun '(tv, suffix) => vec_file (ICount 2) (o_count ts bound 2) JInt tv suffix)
      (combine v0 ["bad_meas_share"; "bad_wire_seed"; "bad_gadget_poly"; "bad_helper_seed"]%string)));
      change y with (map f_name (map (fun '(tv, suffix) => vec_file (IHistogram 2 5 2) (o_histogram ts bound 2 5 2) JInts tv suffix)
      (combine v1 ["bad_leader_jr_blind"; "bad_helper_jr_blind"; "bad_public_share"; "bad_verifier_message"]%string))) end.
    rewrite B, B'. reflexivity.
Qed.
Lemma expected_names ts aes bound : map (fun x => fst (fst x)) (main_expected ts aes bound) = positive_names.
Proof. reflexivity. Qed.
Lemma names_read : (forall x, In x (positive_names ++ negative_names) -> In x (map snd files_read)) /\
  (forall x, In x (map snd files_read) -> In x (positive_names ++ negative_names)).
Proof. split; apply names_incl; reflexivity. Qed.

Lemma zip_results (files : list file) (ex : list (string * json_result * Prop)) :
  map f_name files = map (fun x => fst (fst x)) ex -> map f_result files = map (fun x => Some (snd (fst x))) ex ->
  map (fun f => (f_name f, f_result f)) files = map (fun x => (fst (fst x), Some (snd (fst x)))) ex.
Proof.
  revert ex. induction files as [|f files IH]; intros [|x ex] P2 P3; try discriminate; [reflexivity|].
  cbn [map] in *. injection P2 as A P2. injection P3 as B P3. now rewrite A, B, (IH ex P2 P3).
Qed.
Lemma main_parts ts aes bound files idpf xof0 xof1 : gen_main ts aes bound = Ok (files, idpf, xof0, xof1) ->
  exists pos neg last, mapM (fun f => f) (main_positive ts aes bound) = Ok pos /\ main_negative_prio3 ts aes bound = Ok neg /\
  main_negative_poplar1 ts aes bound = Ok last /\ files = pos ++ neg ++ [last].
Proof.
  unfold gen_main. intros E.
  apply bind_Ok in E as (pos & Ep & E). apply bind_Ok in E as (id & _ & E). apply bind_Ok in E as (iv & _ & E).
  apply bind_Ok in E as (x0 & _ & E). apply bind_Ok in E as (x1 & _ & E).
  apply bind_Ok in E as (neg & En & E). apply bind_Ok in E as (last & El & E). apply Ok_inj in E.
  exists pos, neg, last. repeat split; try assumption. congruence.
Qed.

(** C85.  The program writes exactly the files that the tests read, each once; the
    test that reads a file constructs the VDAF the file was made with and accepts it;
    and the aggregate results are the true ones. *)
Theorem C85_main : forall ts aes bound, (forall k b, length b = 16 -> length (aes k b) = 16) -> (Z.of_nat bound < 2 ^ 120)%Z ->
  forall files idpf xof0 xof1, gen_main ts aes bound = Ok (files, idpf, xof0, xof1) ->
  Forall (file_passes ts aes bound) files /\
  NoDup (map f_name files) /\ (forall name, In name (map f_name files) <-> In name (map snd files_read)) /\
  map (fun f => (f_name f, f_result f)) files =
    map (fun x => (fst (fst x), Some (snd (fst x)))) (main_expected ts aes bound) ++ map (fun name => (name, None)) negative_names.
Proof.
  intros ts aes bound Ha Hb files idpf xof0 xof1 E. apply main_parts in E as (pos & neg & last & Ep & En & El & ->).
  destruct (positive_files ts aes bound _ _ pos (C85_positive ts aes bound Ha Hb) Ep) as (P1 & P2 & P3).
  destruct (neg_poplar1 ts aes bound last Ha Hb El) as [[L1 L2] L3].
  pose proof (neg_prio3 ts aes bound neg En) as N.
  destruct N as [N1 N2].
  assert (EN : map f_name (pos ++ neg ++ [last]) = positive_names ++ negative_names).
  { rewrite !map_app, P2, N2, expected_names. cbn [map]. rewrite L3. reflexivity. }
  split; [|split; [|split]].
  - apply Forall_app. split; [exact P1|]. apply Forall_app. split; [|now apply Forall_cons].
    eapply Forall_impl; [|exact N1]. intros f Hf. exact (proj1 Hf).
  - rewrite EN. exact names_once.
  - intros name. rewrite EN. split; [apply (proj1 names_read)|apply (proj2 names_read)].
  - rewrite !map_app. f_equal.
    + exact (zip_results pos _ P2 P3).
    + transitivity (map (fun name => (name, @None json_result)) (firstn 8 negative_names ++ ["Poplar1_bad_corr_inner.json"%string])); [|reflexivity].
      rewrite map_app. f_equal; [|cbn [map]; now rewrite L2, L3]. rewrite <- N2, map_map. apply map_ext_in. intros f Hf.
      f_equal. exact (proj2 (proj1 (Forall_forall _ _) N1 f Hf)).
Qed.
Print Assumptions C85_main.

(** C85.  Printing a test vector succeeds if and only if every verifier message is in
    a round that has verifier shares; otherwise it raises TypeError. *)
Theorem C85_printed : forall (M R : Type) (str_meas : M -> string) (str_result : option R -> string) name params type_params (tv : test_vec M R),
  (forall k, In k type_params -> exists x, dict_get params k = Ok x) ->
  match pretty_print_vdaf_test_vec str_meas str_result name params type_params tv with
  | Ok _ => Forall (fun report => length (rv_verifier_messages report) <= length (rv_verifier_shares report)) (tv_reports tv)
  | Raise e => e = TypeError /\ exists report, In report (tv_reports tv) /\
      length (rv_verifier_shares report) < length (rv_verifier_messages report)
  end.
Proof.
  intros M R sm sr name params tps tv H. pose proof (pretty_print_cases sm sr name params tps tv H) as C.
  destruct (pretty_print_vdaf_test_vec _ _ _ _ _ _); [exact C|]. destruct C as (C & report & HI & N). split; [exact C|].
  exists report. split; [exact HI|]. unfold rounds_ok in N. lia.
Qed.
Print Assumptions C85_printed.

(** C85.  Every test vector that gen_test_vec_for_vdaf() makes is printed, with the
    parameters that test_vec_set_type_param() has recorded. *)
Theorem C85_prints : forall (vdaf : Vdaf) i d ap ctx ms tv str_meas str_result name,
  gen_test_vec_for_vdaf vdaf ap ctx ms = Ok tv ->
  let '(params, keys) := test_vec_set_type_param i d in
  exists lines, pretty_print_vdaf_test_vec str_meas str_result name params keys tv = Ok lines.
Proof.
  intros vdaf i d ap ctx ms tv sm sr name E. destruct (test_vec_set_type_param i d) as [params keys] eqn:EP.
  assert (HK : forall k, In k keys -> exists x, dict_get params k = Ok x).
  { intros k Hk. pose proof (proj1 (C85_params i d k)) as X. rewrite EP in X. exact (proj2 (X Hk)). }
  pose proof (pretty_print_cases sm sr name params keys tv HK) as C. destruct (pretty_print_vdaf_test_vec _ _ _ _ _ _) as [lines|e].
  - now exists lines.
  - exfalso. destruct C as (_ & report & HI & N). apply N. exact (proj1 (Forall_forall _ _) (generated_rounds vdaf ap ctx ms tv E) report HI).
Qed.
Print Assumptions C85_prints.

(** The hypotheses are met: the first test vector of main(), with a toy TurboSHAKE128. *)
Definition c85_ts : TurboShake := fun m d i => z2b ((Z.of_nat i + Z.of_nat (length m)) mod 251).
Definition c85_outcome : res (string * dict * option json_result * list string) := Eval vm_compute in
  let* f := gen_positive c85_ts (fun k b => b) 50 (ICount 2) (o_count c85_ts 50 2) JInt tt main_ctx [1%Z] 0 in
  let* lines := pretty_print_vdaf_test_vec (fun _ => "1"%string) (fun _ => "1"%string) (f_name f) (f_params f) [] (f_vec f) in
  Ok (f_name f, f_params f, f_result f, firstn 5 lines).
Example C85_example : c85_outcome = Ok ("Prio3Count_0.json", [("shares", 2%Z)], Some (JInt 1),
  ["---------- Prio3Count_0.json ---------------"; "operation_0:"; "  operation: ""shard"""; "  report_index: 0"; "  success: True"])%string.
Proof. reflexivity. Qed.
Example C85_example_load :
  load c85_ts (fun k b => b) 50 TestPoplar1 [("shares"%string, 2%Z)] = Raise KeyError /\
  recorded (ISum 2 255) /\ recorded (IMultiproof 2 Field64 3 10 255 9).
Proof. repeat split. Qed.
