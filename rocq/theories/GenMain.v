(** Model of the type parameters of test vectors, of the program that writes the
    test vectors (/repo/poc/gen_test_vec.py:617-873), of what it prints, and of the
    way the tests construct the VDAF of a test vector (/repo/poc/tests/test_test_vectors.py:653-800).
    A file is a value: its name, the integers at the top level of the JSON object and
    the test vector. *)
From Coq Require Import Strings.String.
From Verif Require Export TestVectors NegVectors XofTests Prio3 Poplar1 TestCircuits Prio3Spec Poplar1Inst.
Open Scope nat_scope.

(** The integers in a dictionary. *)
Definition dict := list (string * Z).
(** [d[k]] *)
Definition dict_get (d : dict) (k : string) : res Z :=
  match find (fun x => String.eqb (fst x) k) d with Some x => Ok (snd x) | None => Raise KeyError end.
(** [d[k] = v] *)
Fixpoint dict_set (d : dict) (k : string) (v : Z) : dict :=
  match d with
  | [] => [(k, v)]
  | x :: d => if String.eqb (fst x) k then (k, v) :: d else x :: dict_set d k v
  end.

(** A class of VDAFs and the arguments of its constructor, vdaf_prio3.py:637-754,
    vdaf_poplar1.py:62-66, tests/test_vdaf_prio3.py:33-46. *)
Inductive instance : Type :=
| ICount (shares : Z)
| ISum (shares max_measurement : Z)
| ISumVec (shares length max_measurement chunk_length : Z)
| IHistogram (shares length chunk_length : Z)
| IMultiproof (shares : Z) (field : NttFieldClass) (num_proofs : nat) (length max_measurement chunk_length : Z)
| IMultihot (shares length max_weight chunk_length : Z)
| IHigherDegree (shares : Z)
| IPoplar1 (bits : Z).

(** vdaf_prio3.py:643, 658, 673, 693, 710, 741, tests/test_vdaf_prio3.py:42,
    vdaf_poplar1.py:60 *)
Definition test_vec_name (i : instance) : string :=
  match i with
  | ICount _ => "Prio3Count"
  | ISum _ _ => "Prio3Sum"
  | ISumVec _ _ _ _ => "Prio3SumVec"
  | IHistogram _ _ _ => "Prio3Histogram"
  | IMultiproof _ _ _ _ _ _ => "Prio3SumVecWithMultiproof"
  | IMultihot _ _ _ _ => "Prio3MultihotCountVec"
  | IHigherDegree _ => "Prio3HigherDegree"
  | IPoplar1 _ => "Poplar1"
  end.

(** [test_vec_set_type_param]: the dictionary afterwards and the keys that were set.
    vdaf_prio3.py:521-522 and flp_bbcggi19.py:512-513 call the method of the circuit:
    flp_bbcggi19.py:180-185 (Count, HigherDegree), 1141-1143 (Sum), 1062-1066 (SumVec),
    785-788 (Histogram), 939-943 (MultihotCountVec); vdaf_poplar1.py:489-491. *)
Definition test_vec_set_type_param (i : instance) (d : dict) : dict * list string :=
  match i with
  | ICount _ | IHigherDegree _ => (d, [])
  | ISum _ max_measurement => (dict_set d "max_measurement" max_measurement, ["max_measurement"])
  | ISumVec _ length max_measurement chunk_length
  | IMultiproof _ _ _ length max_measurement chunk_length =>
    (dict_set (dict_set (dict_set d "length" length) "max_measurement" max_measurement) "chunk_length" chunk_length,
     ["length"; "max_measurement"; "chunk_length"])
  | IHistogram _ length chunk_length =>
    (dict_set (dict_set d "length" length) "chunk_length" chunk_length, ["length"; "chunk_length"])
  | IMultihot _ length max_weight chunk_length =>
    (dict_set (dict_set (dict_set d "length" length) "max_weight" max_weight) "chunk_length" chunk_length,
     ["length"; "max_weight"; "chunk_length"])
  | IPoplar1 bits => (dict_set d "bits" bits, ["bits"])
  end%string.

(** The objects that the constructors return. *)
Inductive object : Type := OPrio3 (p : Prio3) | OPoplar1 (p : Poplar1).
Definition object_vdaf (o : object) : Vdaf := match o with OPrio3 p => Prio3Vdaf p | OPoplar1 p => p1_vdaf p end.

Section Main.
Context (ts : TurboShake) (aes : BlockCipher) (bound : nat).

(** Calling the constructor. *)
Definition construct (i : instance) : res object :=
  match i with
  | ICount shares => let* p := Prio3Count ts bound shares in Ok (OPrio3 p)
  | ISum shares max => let* p := Prio3Sum ts bound shares max in Ok (OPrio3 p)
  | ISumVec shares len max chunk => let* p := Prio3SumVec ts bound shares len max chunk in Ok (OPrio3 p)
  | IHistogram shares len chunk => let* p := Prio3Histogram ts bound shares len chunk in Ok (OPrio3 p)
  | IMultiproof shares field proofs len max chunk =>
    let* p := Prio3SumVecWithMultiproof ts bound shares field proofs len max chunk in Ok (OPrio3 p)
  | IMultihot shares len max_weight chunk =>
    let* p := Prio3MultihotCountVec ts bound shares len max_weight chunk in Ok (OPrio3 p)
  | IHigherDegree shares =>
    let* p := Prio3_init Field64 (XofTurboShake128 ts bound) 0xFFFFFFFF 32 shares (FlpBBCGGI19 HigherDegree) 1 in Ok (OPrio3 p)
  | IPoplar1 bits => let* p := Poplar1_init ts aes bound bits in Ok (OPoplar1 p)
  end.

(** The integers that a test vector contains: test_utils.py:223-234,
    gen_test_vec.py:312-336, 413-437, 565-599. *)
Definition document (i : instance) (o : object) : dict :=
  fst (test_vec_set_type_param i [("shares"%string, Z.of_nat (vd_SHARES (object_vdaf o)))]).

(** test_test_vectors.py:653-800 [run_test]: the classes of tests, one for each
    class of VDAFs, and the VDAF they construct. *)
Inductive test_class : Type :=
| TestPrio3Count | TestPrio3Sum | TestPrio3SumVec | TestPrio3SumVecWithMultiproof | TestPrio3Histogram
| TestPrio3MultihotCountVec | TestPrio3HigherDegree | TestPoplar1.
Definition load (c : test_class) (d : dict) : res object :=
  match c with
  | TestPrio3Count => let* shares := dict_get d "shares" in construct (ICount shares)
  | TestPrio3Sum =>
    let* shares := dict_get d "shares" in let* max := dict_get d "max_measurement" in construct (ISum shares max)
  | TestPrio3SumVec =>
    let* shares := dict_get d "shares" in let* len := dict_get d "length" in
    let* max := dict_get d "max_measurement" in let* chunk := dict_get d "chunk_length" in
    construct (ISumVec shares len max chunk)
  | TestPrio3SumVecWithMultiproof =>
    let* shares := dict_get d "shares" in let* len := dict_get d "length" in
    let* max := dict_get d "max_measurement" in let* chunk := dict_get d "chunk_length" in
    construct (IMultiproof shares Field64 3 len max chunk)
  | TestPrio3Histogram =>
    let* shares := dict_get d "shares" in let* len := dict_get d "length" in
    let* chunk := dict_get d "chunk_length" in construct (IHistogram shares len chunk)
  | TestPrio3MultihotCountVec =>
    let* shares := dict_get d "shares" in let* len := dict_get d "length" in
    let* max_weight := dict_get d "max_weight" in let* chunk := dict_get d "chunk_length" in
    construct (IMultihot shares len max_weight chunk)
  | TestPrio3HigherDegree => let* shares := dict_get d "shares" in construct (IHigherDegree shares)
  | TestPoplar1 => let* bits := dict_get d "bits" in construct (IPoplar1 bits)
  end%string.

(** The files that the tests read, test_test_vectors.py:653-800. *)
Definition files_read : list (test_class * string) := [
  (TestPrio3Count, "Prio3Count_0.json"); (TestPrio3Count, "Prio3Count_1.json"); (TestPrio3Count, "Prio3Count_2.json");
  (TestPrio3Count, "Prio3Count_bad_meas_share.json"); (TestPrio3Count, "Prio3Count_bad_wire_seed.json");
  (TestPrio3Count, "Prio3Count_bad_gadget_poly.json"); (TestPrio3Count, "Prio3Count_bad_helper_seed.json");
  (TestPrio3Sum, "Prio3Sum_0.json"); (TestPrio3Sum, "Prio3Sum_1.json"); (TestPrio3Sum, "Prio3Sum_2.json");
  (TestPrio3SumVec, "Prio3SumVec_0.json"); (TestPrio3SumVec, "Prio3SumVec_1.json");
  (TestPrio3SumVecWithMultiproof, "Prio3SumVecWithMultiproof_0.json");
  (TestPrio3SumVecWithMultiproof, "Prio3SumVecWithMultiproof_1.json");
  (TestPrio3Histogram, "Prio3Histogram_0.json"); (TestPrio3Histogram, "Prio3Histogram_1.json");
  (TestPrio3Histogram, "Prio3Histogram_2.json"); (TestPrio3Histogram, "Prio3Histogram_bad_public_share.json");
  (TestPrio3Histogram, "Prio3Histogram_bad_leader_jr_blind.json");
  (TestPrio3Histogram, "Prio3Histogram_bad_helper_jr_blind.json");
  (TestPrio3Histogram, "Prio3Histogram_bad_verifier_message.json");
  (TestPrio3MultihotCountVec, "Prio3MultihotCountVec_0.json"); (TestPrio3MultihotCountVec, "Prio3MultihotCountVec_1.json");
  (TestPrio3MultihotCountVec, "Prio3MultihotCountVec_2.json");
  (TestPrio3HigherDegree, "Prio3HigherDegree_0.json");
  (TestPoplar1, "Poplar1_0.json"); (TestPoplar1, "Poplar1_1.json"); (TestPoplar1, "Poplar1_2.json");
  (TestPoplar1, "Poplar1_3.json"); (TestPoplar1, "Poplar1_4.json"); (TestPoplar1, "Poplar1_5.json");
  (TestPoplar1, "Poplar1_bad_corr_inner.json")]%string.

(** test_utils.py:403-411: the name of the file, without the directory. *)
Definition file_name (i : instance) (suffix : string) : string := (test_vec_name i ++ "_" ++ suffix ++ ".json")%string.

(** The JSON values of aggregate results. *)
Inductive json_result : Type := JInt (x : Z) | JInts (l : list Z).

(** A file under test_vec/vdaf. *)
Record file : Type := {
  f_name : string;
  f_params : dict;
  f_object : object;
  f_vec : test_vec (vd_Measurement (object_vdaf f_object)) (vd_AggResult (object_vdaf f_object));
  f_result : option json_result;
}.
Definition vec_file (i : instance) (o : object) (show : vd_AggResult (object_vdaf o) -> json_result)
  (tv : test_vec (vd_Measurement (object_vdaf o)) (vd_AggResult (object_vdaf o))) (suffix : string) : file :=
  {| f_name := file_name i suffix; f_params := document i o; f_object := o; f_vec := tv;
     f_result := option_map show (tv_agg_result tv) |}.

(** One call [gen_test_vec_for_vdaf(path, constructor(...), agg_param, ctx, measurements, n)]
    in main().  The object [o] is the one that the constructor returns; it is given
    besides the call because its type of measurements is that of [ms]. *)
Definition gen_positive (i : instance) (o : object) (show : vd_AggResult (object_vdaf o) -> json_result)
  (ap : vd_AggParam (object_vdaf o)) (ctx : bytes) (ms : list (vd_Measurement (object_vdaf o))) (n : nat) : res file :=
  let* _ := construct i in
  let* tv := gen_test_vec_for_vdaf (object_vdaf o) ap ctx ms in
  Ok (vec_file i o show tv (str_nat (Z.of_nat n))).

(** The objects of main(). *)
Definition o_count (shares : nat) : object := OPrio3 (prio3_obj Field64 1 (Count Field64) ts bound shares 1).
Definition o_sum (shares : nat) (max : Z) : object := OPrio3 (prio3_obj Field64 2 (Sum Field64 max) ts bound shares 1).
Definition o_sumvec (shares len : nat) (max : Z) (chunk : nat) : object :=
  OPrio3 (prio3_obj Field128 3 (SumVec Field128 len max chunk) ts bound shares 1).
Definition o_multiproof (shares len : nat) (max : Z) (chunk : nat) : object :=
  OPrio3 (prio3_obj Field64 (Z.of_N 0xFFFFFFFF) (SumVec Field64 len max chunk) ts bound shares 3).
Definition o_histogram (shares len chunk : nat) : object :=
  OPrio3 (prio3_obj Field128 4 (Histogram Field128 len chunk) ts bound shares 1).
Definition o_multihot (shares len mw chunk : nat) : object :=
  OPrio3 (prio3_obj Field128 5 (MultihotCountVec Field128 len mw chunk) ts bound shares 1).
Definition o_higher_degree (shares : nat) : object := OPrio3 (Prio3HigherDegree ts bound shares).
Definition o_poplar1 (bits : nat) : object := OPoplar1 (p1_obj ts aes bound bits).

(** gen_test_vec.py:620 *)
Definition main_ctx : bytes := byte_literal "some application".

(** gen_test_vec.py:623-854, in order; the lists of tests of Poplar1 are 764-789 and
    814-824. *)
Definition poplar1_tests_4 : list (Z * list (list bool)) := [
  (0%Z, [[false]; [true]]);
  (1%Z, [[false; false]; [false; true]; [true; false]; [true; true]]);
  (2%Z, [[false; false; false]; [false; true; false]; [true; false; false]; [true; true; false]]);
  (3%Z, [[false; false; false; true]; [false; false; true; true]; [false; true; false; true]; [false; true; true; true];
       [true; false; false; true]; [true; true; false; true]; [true; true; true; true]])].
Definition poplar1_meas_11 : list bool := [true; true; false; false; true; false; false; false; false; false; true].
Definition poplar1_tests_11 : list (Z * list (list bool)) := [
  (0%Z, [[false]; [true]]);
  (10%Z, [repeat false 11; [true; true; false; false; true; false; false; false; false; false; false];
        poplar1_meas_11; repeat true 11])].
Definition main_positive : list (res file) := [
  gen_positive (ICount 2) (o_count 2) JInt tt main_ctx [1]%Z 0;
  gen_positive (ICount 3) (o_count 3) JInt tt main_ctx [1]%Z 1;
  gen_positive (ICount 2) (o_count 2) JInt tt main_ctx [0; 1; 1; 0; 1]%Z 2;
  gen_positive (ISum 2 255) (o_sum 2 255) JInt tt main_ctx [100]%Z 0;
  gen_positive (ISum 3 255) (o_sum 3 255) JInt tt main_ctx [100]%Z 1;
  gen_positive (ISum 2 1337) (o_sum 2 1337) JInt tt main_ctx [0; 1; 1337; 99; 42; 0; 0; 42]%Z 2;
  gen_positive (ISumVec 2 10 255 9) (o_sumvec 2 10 255 9) JInts tt main_ctx [map Z.of_nat (range 0 10); repeat 1%Z 10; repeat 255%Z 10] 0;
  gen_positive (ISumVec 3 3 32000 7) (o_sumvec 3 3 32000 7) JInts tt main_ctx
    [[10000; 32000; 9]; [19342; 19615; 3061]; [15986; 24671; 23910]]%Z 1;
  gen_positive (IMultiproof 2 Field64 3 10 255 9) (o_multiproof 2 10 255 9) JInts tt main_ctx
    [map Z.of_nat (range 0 10); repeat 1%Z 10; repeat 255%Z 10] 0;
  gen_positive (IMultiproof 3 Field64 3 3 65535 7) (o_multiproof 3 3 65535 7) JInts tt main_ctx
    [[10000; 32000; 9]; [19342; 19615; 3061]; [15986; 24671; 23910]]%Z 1;
  gen_positive (IHistogram 2 4 2) (o_histogram 2 4 2) JInts tt main_ctx [2]%Z 0;
  gen_positive (IHistogram 3 11 3) (o_histogram 3 11 3) JInts tt main_ctx [2]%Z 1;
  gen_positive (IHistogram 2 100 10) (o_histogram 2 100 10) JInts tt main_ctx [2; 99; 99; 17; 42; 0; 0; 1; 2; 0]%Z 2;
  gen_positive (IMultihot 2 4 2 2) (o_multihot 2 4 2 2) JInts tt main_ctx [[false; true; true; false]] 0;
  gen_positive (IMultihot 4 10 2 3) (o_multihot 4 10 2 3) JInts tt main_ctx
    [[false; true; false; false; false; false; false; false; false; true]] 1;
  gen_positive (IMultihot 2 4 4 1) (o_multihot 2 4 4 1) JInts tt main_ctx
    [[false; true; true; false]; [false; false; true; false]; [false; false; false; false];
     [true; true; true; false]; [true; true; true; true]] 2;
  gen_positive (IHigherDegree 2) (o_higher_degree 2) JInt tt main_ctx [2]%Z 0] ++
  map (fun '(n, ap) => gen_positive (IPoplar1 4) (o_poplar1 4) JInts ap main_ctx [[true; true; false; true]] n)
    (combine (range 0 4) poplar1_tests_4) ++
  map (fun '(n, ap) => gen_positive (IPoplar1 11) (o_poplar1 11) JInts ap main_ctx [poplar1_meas_11] n)
    (combine (range 4 6) poplar1_tests_11).

(** gen_test_vec.py:107-347 [gen_prio3_negative_test_vec] *)
Definition main_negative_prio3 : res (list file) :=
  let i := ICount 2 in
  let p := prio3_obj Field64 1 (Count Field64) ts bound 2 1 in
  let* _ := construct i in
  let* vecs := gen_negative_count p 0%Z main_ctx 1%Z in
  let counts := map (fun '(tv, suffix) => vec_file i (OPrio3 p) JInt tv suffix)
    (combine vecs ["bad_meas_share"; "bad_wire_seed"; "bad_gadget_poly"; "bad_helper_seed"]%string) in
  let nonce := test_vec_gen_rand p3_NONCE_SIZE in
  let verify_key := test_vec_gen_rand (p3_VERIFY_KEY_SIZE p) in
  let i := IHistogram 2 5 2 in
  let p := prio3_obj Field128 4 (Histogram Field128 5 2) ts bound 2 1 in
  let* _ := construct i in
  let* vecs := gen_negative_histogram p 0%Z verify_key nonce main_ctx 3%Z in
  let histograms := map (fun '(tv, suffix) => vec_file i (OPrio3 p) JInts tv suffix)
    (combine vecs ["bad_leader_jr_blind"; "bad_helper_jr_blind"; "bad_public_share"; "bad_verifier_message"]%string) in
  Ok (counts ++ histograms).

(** gen_test_vec.py:451-610 [gen_poplar1_negative_test_vec] *)
Definition main_negative_poplar1 : res file :=
  let i := IPoplar1 2 in
  let p := p1_obj ts aes bound 2 in
  let* _ := construct i in
  let* tv := gen_poplar1_negative p [] main_ctx [false; true] (0%Z, [[false]; [true]]) in
  Ok (vec_file i (OPoplar1 p) JInts tv "bad_corr_inner").

(** gen_test_vec.py:617-873 [main] *)
Definition gen_main : res (list file * idpf_vec * xof_vec * xof_vec) :=
  let* positive := mapM (fun f => f) main_positive in
  let* idpf := IdpfBBCGGI21_init ts aes bound 2 10 in
  let* idpf := gen_test_vec_for_idpf idpf (repeat false 10) main_ctx in
  let* xof0 := gen_test_vec_for_xof (XofTurboShake128 ts bound) in
  let* xof1 := gen_test_vec_for_xof (XofFixedKeyAes128 ts aes bound) in
  let* negative := main_negative_prio3 in
  let* last := main_negative_poplar1 in
  Ok (positive ++ negative ++ [last], idpf, xof0, xof1).
End Main.

(** What is printed for a test vector.  [str] of measurements and of the result are
    arguments. *)
Section Print.
Context {M R : Type} (str_meas : M -> string) (str_result : option R -> string).
Open Scope string_scope.

(** [str] of an integer and of a Boolean. *)
Definition str_int (x : Z) : string := if (x <? 0)%Z then "-" ++ str_nat (- x) else str_nat x.
Definition str_bool (b : bool) : string := if b then "True" else "False".
Definition str_n (n : nat) : string := str_nat (Z.of_nat n).

(** [itertools.zip_longest(a, b)] *)
Fixpoint zip_longest {A B} (a : list A) (b : list B) : list (option A * option B) :=
  match a, b with
  | [], [] => []
  | x :: a, [] => (Some x, None) :: zip_longest a []
  | [], y :: b => (None, Some y) :: map (fun y => (None, Some y)) b
  | x :: a, y :: b => (Some x, Some y) :: zip_longest a b
  end.

Definition option_line {A} (x : option A) (line : A -> string) : list string :=
  match x with Some x => [line x] | None => [] end.

(** test_utils.py:424-433 *)
Definition print_operation (i : nat) (operation : operation) : list string :=
  ["operation_" ++ str_n i ++ ":"; "  operation: """ ++ op_operation operation ++ """"] ++
  option_line (op_round operation) (fun x => "  round: " ++ str_n x) ++
  option_line (op_aggregator_id operation) (fun x => "  aggregator_id: " ++ str_n x) ++
  option_line (op_report_index operation) (fun x => "  report_index: " ++ str_n x) ++
  ["  success: " ++ str_bool (op_success operation)].

(** [for (i, x) in enumerate(l)] with printed lines *)
Definition print_each {A} (l : list A) (print : nat -> A -> res (list string)) : res (list string) :=
  let* lines := mapM (fun '(i, x) => print i x) (combine (range 0 (length l)) l) in
  Ok (concat lines).
(** A header and a wrapped line. *)
Definition print_entry (header : string) (line : string) (tab : nat) : res (list string) :=
  let* lines := print_wrapped_line line tab in Ok (header :: lines).

(** test_utils.py:440-466; [enumerate(None)] raises TypeError *)
Definition print_report (n : nat) (report : report_vec M) : res (list string) :=
  let head := ["upload_" ++ str_n n ++ ":"; "  measurement: " ++ str_meas (rv_measurement report);
               "  nonce: """ ++ rv_nonce report ++ """"] in
  let* public := print_entry "  public_share: >-" (rv_public_share report) 4 in
  let* inputs := print_each (rv_input_shares report) (fun i share => print_entry ("  input_share_" ++ str_n i ++ ": >-") share 4) in
  let* rounds := print_each (zip_longest (rv_verifier_shares report) (rv_verifier_messages report)) (fun i '(shares, message) =>
    match shares with
    | None => Raise TypeError
    | Some shares =>
      let* lines := print_each shares (fun j share => print_entry ("    verifier_share_" ++ str_n j ++ ": >-") share 6) in
      let* msg := match message with
                  | Some message => print_entry "    verifier_message: >-" message 6
                  | None => Ok []
                  end in
      Ok (("  round_" ++ str_n i ++ ":")%string :: lines ++ msg)%list
    end) in
  let outs := map (fun '(j, share) => "  out_share_" ++ str_n j ++ ": " ++ share)
                (combine (range 0 (length (rv_out_shares report))) (rv_out_shares report)) in
  Ok (head ++ public ++ inputs ++ rounds ++ outs)%list.

(** test_utils.py:416-478 [pretty_print_vdaf_test_vec] *)
Definition pretty_print_vdaf_test_vec (name : string) (params : dict) (type_params : list string) (tv : test_vec M R)
  : res (list string) :=
  let* types := mapM (fun key => let* x := dict_get params key in Ok (key ++ ": " ++ str_int x)) type_params in
  let* reports := print_each (tv_reports tv) print_report in
  let* aggs := print_each (tv_agg_shares tv) (fun j share => print_entry ("agg_share_" ++ str_n j ++ ": >-") share 2) in
  Ok (["---------- " ++ name ++ " ---------------"]%string ++
      concat (map (fun '(i, o) => print_operation i o) (combine (range 0 (length (tv_operations tv))) (tv_operations tv))) ++
      types ++ ["verify_key: """ ++ tv_verify_key tv ++ """"; "agg_param: " ++ tv_agg_param tv]%string ++
      reports ++ aggs ++ ["agg_result: " ++ str_result (tv_agg_result tv); ""]%string)%list.
End Print.
