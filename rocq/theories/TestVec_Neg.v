(** The generators of negative test vectors, run with the parameters of
    /repo/poc/gen_test_vec.py, produce the vectors in /repo/test_vec/vdaf.  The
    outcomes are computed when this file is compiled, as in TestVec_More.v. *)
From Coq Require Import Strings.String.
From Verif Require Import TestVecRun NegVectors Prio3 Poplar1.
Open Scope string_scope.
Open Scope nat_scope.

Fixpoint list_eqb {A} (eqb : A -> A -> bool) (a b : list A) : bool :=
  match a, b with
  | [], [] => true
  | x :: a, y :: b => eqb x y && list_eqb eqb a b
  | _, _ => false
  end.
Definition opt_eqb (a b : option nat) : bool :=
  match a, b with None, None => true | Some x, Some y => x =? y | _, _ => false end.
Definition op_eqb (a b : operation) : bool :=
  String.eqb (op_operation a) (op_operation b) && opt_eqb (op_round a) (op_round b) &&
  opt_eqb (op_aggregator_id a) (op_aggregator_id b) && opt_eqb (op_report_index a) (op_report_index b) &&
  Bool.eqb (op_success a) (op_success b).
(** Equality of test vectors, except that the measurement is not compared and that
    both results must be absent. *)
Definition report_eqb {M} (a b : report_vec M) : bool :=
  String.eqb (rv_nonce a) (rv_nonce b) && String.eqb (rv_rand a) (rv_rand b) &&
  String.eqb (rv_public_share a) (rv_public_share b) && list_eqb String.eqb (rv_input_shares a) (rv_input_shares b) &&
  list_eqb (list_eqb String.eqb) (rv_verifier_shares a) (rv_verifier_shares b) &&
  list_eqb String.eqb (rv_verifier_messages a) (rv_verifier_messages b) && list_eqb String.eqb (rv_out_shares a) (rv_out_shares b).
Definition vec_eqb {M R} (a b : test_vec M R) : bool :=
  list_eqb op_eqb (tv_operations a) (tv_operations b) && (tv_shares a =? tv_shares b) &&
  String.eqb (tv_verify_key a) (tv_verify_key b) && String.eqb (tv_agg_param a) (tv_agg_param b) &&
  String.eqb (tv_ctx a) (tv_ctx b) && list_eqb report_eqb (tv_reports a) (tv_reports b) &&
  list_eqb String.eqb (tv_agg_shares a) (tv_agg_shares b) &&
  match tv_agg_result a, tv_agg_result b with None, None => true | _, _ => false end.
Definition produces {M R} (r : res (list (test_vec M R))) (published : list (test_vec M R)) : bool :=
  match r with Ok vecs => list_eqb vec_eqb vecs published | Raise _ => false end.

(** gen_test_vec.py:616 *)
Definition neg_ctx : bytes := hex "736f6d65206170706c69636174696f6e".

(** /repo/test_vec/vdaf/Prio3Count_bad_meas_share.json *)
Definition Prio3Count_bad_meas_share_published : test_vec Z Z :=
  {| tv_operations := [{| op_operation := "verify_init"; op_round := None; op_aggregator_id := Some 0; op_report_index := Some 0; op_success := true |};
       {| op_operation := "verify_init"; op_round := None; op_aggregator_id := Some 1; op_report_index := Some 0; op_success := true |};
       {| op_operation := "verifier_shares_to_message"; op_round := Some 0; op_aggregator_id := None; op_report_index := Some 0; op_success := false |}];
     tv_shares := 2; tv_verify_key := "000102030405060708090a0b0c0d0e0f101112131415161718191a1b1c1d1e1f"; tv_agg_param := ""; tv_ctx := "736f6d65206170706c69636174696f6e";
     tv_reports := [{| rv_measurement := 0%Z; rv_nonce := "000102030405060708090a0b0c0d0e0f"; rv_rand := "000102030405060708090a0b0c0d0e0f101112131415161718191a1b1c1d1e1f202122232425262728292a2b2c2d2e2f303132333435363738393a3b3c3d3e3f";
      rv_public_share := "";
      rv_input_shares := ["365e16daa732744c34dc71fa4c85d209f9af2ecf751609386ed9e2714ecc9e6bb2277498ac41e75c01d81b4cb8485926"; "000102030405060708090a0b0c0d0e0f101112131415161718191a1b1c1d1e1f"];
      rv_verifier_shares := [["cc7905720f16e5d985d99b904a1307128a61dbc07fa31d43257268349e7a7d72"; "3486fa8defe91a26a2eb81c1638c36bcf227593ab1b0e78b0d2775a9788ca884"]];
      rv_verifier_messages := []; rv_out_shares := [] |}];
     tv_agg_shares := []; tv_agg_result := None |}.

(** /repo/test_vec/vdaf/Prio3Count_bad_wire_seed.json *)
Definition Prio3Count_bad_wire_seed_published : test_vec Z Z :=
  {| tv_operations := [{| op_operation := "verify_init"; op_round := None; op_aggregator_id := Some 0; op_report_index := Some 0; op_success := true |};
       {| op_operation := "verify_init"; op_round := None; op_aggregator_id := Some 1; op_report_index := Some 0; op_success := true |};
       {| op_operation := "verifier_shares_to_message"; op_round := Some 0; op_aggregator_id := None; op_report_index := Some 0; op_success := false |}];
     tv_shares := 2; tv_verify_key := "000102030405060708090a0b0c0d0e0f101112131415161718191a1b1c1d1e1f"; tv_agg_param := ""; tv_ctx := "736f6d65206170706c69636174696f6e";
     tv_reports := [{| rv_measurement := 0%Z; rv_nonce := "000102030405060708090a0b0c0d0e0f"; rv_rand := "000102030405060708090a0b0c0d0e0f101112131415161718191a1b1c1d1e1f202122232425262728292a2b2c2d2e2f303132333435363738393a3b3c3d3e3f";
      rv_public_share := "";
      rv_input_shares := ["355e16daa732744c35dc71fa4c85d209f9af2ecf751609386ed9e2714ecc9e6bb2277498ac41e75c01d81b4cb8485926"; "000102030405060708090a0b0c0d0e0f101112131415161718191a1b1c1d1e1f"];
      rv_verifier_shares := [["cd7905720f16e5d9591413b6234dedbef3fe96d36cc09019257268349e7a7d72"; "3486fa8defe91a26a2eb81c1638c36bcf227593ab1b0e78b0d2775a9788ca884"]];
      rv_verifier_messages := []; rv_out_shares := [] |}];
     tv_agg_shares := []; tv_agg_result := None |}.

(** /repo/test_vec/vdaf/Prio3Count_bad_gadget_poly.json *)
Definition Prio3Count_bad_gadget_poly_published : test_vec Z Z :=
  {| tv_operations := [{| op_operation := "verify_init"; op_round := None; op_aggregator_id := Some 0; op_report_index := Some 0; op_success := true |};
       {| op_operation := "verify_init"; op_round := None; op_aggregator_id := Some 1; op_report_index := Some 0; op_success := true |};
       {| op_operation := "verifier_shares_to_message"; op_round := Some 0; op_aggregator_id := None; op_report_index := Some 0; op_success := false |}];
     tv_shares := 2; tv_verify_key := "000102030405060708090a0b0c0d0e0f101112131415161718191a1b1c1d1e1f"; tv_agg_param := ""; tv_ctx := "736f6d65206170706c69636174696f6e";
     tv_reports := [{| rv_measurement := 0%Z; rv_nonce := "000102030405060708090a0b0c0d0e0f"; rv_rand := "000102030405060708090a0b0c0d0e0f101112131415161718191a1b1c1d1e1f202122232425262728292a2b2c2d2e2f303132333435363738393a3b3c3d3e3f";
      rv_public_share := "";
      rv_input_shares := ["355e16daa732744c34dc71fa4c85d209f9af2ecf751609386ed9e2714ecc9e6bb2277498ac41e75c02d81b4cb8485926"; "000102030405060708090a0b0c0d0e0f101112131415161718191a1b1c1d1e1f"];
      rv_verifier_shares := [["ce7905720f16e5d9ef7657a336307ae8f3fe96d36cc0901989ae428528ddf2c2"; "3486fa8defe91a26a2eb81c1638c36bcf227593ab1b0e78b0d2775a9788ca884"]];
      rv_verifier_messages := []; rv_out_shares := [] |}];
     tv_agg_shares := []; tv_agg_result := None |}.

(** /repo/test_vec/vdaf/Prio3Count_bad_helper_seed.json *)
Definition Prio3Count_bad_helper_seed_published : test_vec Z Z :=
  {| tv_operations := [{| op_operation := "verify_init"; op_round := None; op_aggregator_id := Some 0; op_report_index := Some 0; op_success := true |};
       {| op_operation := "verify_init"; op_round := None; op_aggregator_id := Some 1; op_report_index := Some 0; op_success := true |};
       {| op_operation := "verifier_shares_to_message"; op_round := Some 0; op_aggregator_id := None; op_report_index := Some 0; op_success := false |}];
     tv_shares := 2; tv_verify_key := "000102030405060708090a0b0c0d0e0f101112131415161718191a1b1c1d1e1f"; tv_agg_param := ""; tv_ctx := "736f6d65206170706c69636174696f6e";
     tv_reports := [{| rv_measurement := 0%Z; rv_nonce := "000102030405060708090a0b0c0d0e0f"; rv_rand := "000102030405060708090a0b0c0d0e0f101112131415161718191a1b1c1d1e1f202122232425262728292a2b2c2d2e2f303132333435363738393a3b3c3d3e3f";
      rv_public_share := "";
      rv_input_shares := ["355e16daa732744c34dc71fa4c85d209f9af2ecf751609386ed9e2714ecc9e6bb2277498ac41e75c01d81b4cb8485926"; "010102030405060708090a0b0c0d0e0f101112131415161718191a1b1c1d1e1f"];
      rv_verifier_shares := [["cd7905720f16e5d9ef7657a336307ae8f3fe96d36cc09019257268349e7a7d72"; "5f89a4089ada54621fd540ea8fcb6d6c68fbc8bb74390fd5318c13cab79e5bfe"]];
      rv_verifier_messages := []; rv_out_shares := [] |}];
     tv_agg_shares := []; tv_agg_result := None |}.

Definition negative_count_outcome : bool := Eval vm_compute in
  produces (gen_negative_count {| p3_field := Field64; p3_flp := FlpBBCGGI19 (Count Field64);
              p3_xof := XofTurboShake128 turboshake128 1000; p3_ID := 1; p3_VERIFY_KEY_SIZE := 32; p3_SHARES := 2; p3_PROOFS := 1 |}
              0%Z neg_ctx 1%Z)
    [Prio3Count_bad_meas_share_published; Prio3Count_bad_wire_seed_published; Prio3Count_bad_gadget_poly_published;
     Prio3Count_bad_helper_seed_published].
Example negative_count : negative_count_outcome = true.
Proof. reflexivity. Qed.

(** /repo/test_vec/vdaf/Prio3Histogram_bad_leader_jr_blind.json *)
Definition Prio3Histogram_bad_leader_jr_blind_published : test_vec Z (list Z) :=
  {| tv_operations := [{| op_operation := "verify_init"; op_round := None; op_aggregator_id := Some 0; op_report_index := Some 0; op_success := true |};
       {| op_operation := "verify_init"; op_round := None; op_aggregator_id := Some 1; op_report_index := Some 0; op_success := true |};
       {| op_operation := "verifier_shares_to_message"; op_round := Some 0; op_aggregator_id := None; op_report_index := Some 0; op_success := false |}];
     tv_shares := 2; tv_verify_key := "000102030405060708090a0b0c0d0e0f101112131415161718191a1b1c1d1e1f"; tv_agg_param := ""; tv_ctx := "736f6d65206170706c69636174696f6e";
     tv_reports := [{| rv_measurement := 0%Z; rv_nonce := "000102030405060708090a0b0c0d0e0f"; rv_rand := "000102030405060708090a0b0c0d0e0f101112131415161718191a1b1c1d1e1f202122232425262728292a2b2c2d2e2f303132333435363738393a3b3c3d3e3f404142434445464748494a4b4c4d4e4f505152535455565758595a5b5c5d5e5f606162636465666768696a6b6c6d6e6f707172737475767778797a7b7c7d7e7f";
      rv_public_share := "0799017bb24c65181d958448ce8e2c173c91161c41b7326d6da095d8f479eae6c3737e95d95616ea9cb504757a00404a5fee380211a47e5e36439cc0f900f002";
      rv_input_shares := ["0bc33b18788b18bcf18237224441fd12b1b4413faf2a370602f1413a4c66b61739bf42cc98f49a3e0184b1a6c30ecdedbf47eb2c834389c435afe71f5d7e3d44dc206faf81791f5e0713a2e6b7871682c31ff8ceb49d12b8725242e3ba03df8c83960dbbc545b556d9019e198b028f96e1ecab09b3f32995f1a77c63335af43584a9997fc045cacfc36314da79c0a9f62def334c7f96a411ac6fd7e371e8a12204f1d5fc39099668c05163af0920df13c5037c7ff445c426ca35ed34904b335bdee38b9cbf06b75b7ea6fd4eb53dd89ecec8c468354b53db7d539c3e68d0077be8cab0be8e919a82ec87649845dd584124ea5e3b4d3ce268621b4d1e9012f39c414142434445464748494a4b4c4d4e4f505152535455565758595a5b5c5d5e5f"; "000102030405060708090a0b0c0d0e0f101112131415161718191a1b1c1d1e1f202122232425262728292a2b2c2d2e2f303132333435363738393a3b3c3d3e3f"];
      rv_verifier_shares := [["95f58cb93c37a03b87a5655488fff7484988e1f082f326894eedc766ab8465a8729988943dbf1127bece72d0a4a845f7396c89926429e79e973f37b2bc4e26cea45a8b68ccb4d1cd839a228c1695b75e2d2b22e95bb5757243b245c7ac002ed11047ec76e4181660be6685b2f93dfb52b7184fead6081fc42e4bbba1ef6d3e84"; "6c0a7346c3c85fc45c5a9aab770008b760881a25ab1e89a3b0d87a4562deb9edb4e1e4e0e2762540d693dd56469fa190ff5890d597bfc0e363e0bda4a2acb243be7aac8058e28b453d3703df1ca61725b3ec4db86e1f19c224226005677ffcc1c3737e95d95616ea9cb504757a00404a5fee380211a47e5e36439cc0f900f002"]];
      rv_verifier_messages := []; rv_out_shares := [] |}];
     tv_agg_shares := []; tv_agg_result := None |}.

(** /repo/test_vec/vdaf/Prio3Histogram_bad_helper_jr_blind.json *)
Definition Prio3Histogram_bad_helper_jr_blind_published : test_vec Z (list Z) :=
  {| tv_operations := [{| op_operation := "verify_init"; op_round := None; op_aggregator_id := Some 0; op_report_index := Some 0; op_success := true |};
       {| op_operation := "verify_init"; op_round := None; op_aggregator_id := Some 1; op_report_index := Some 0; op_success := true |};
       {| op_operation := "verifier_shares_to_message"; op_round := Some 0; op_aggregator_id := None; op_report_index := Some 0; op_success := false |}];
     tv_shares := 2; tv_verify_key := "000102030405060708090a0b0c0d0e0f101112131415161718191a1b1c1d1e1f"; tv_agg_param := ""; tv_ctx := "736f6d65206170706c69636174696f6e";
     tv_reports := [{| rv_measurement := 0%Z; rv_nonce := "000102030405060708090a0b0c0d0e0f"; rv_rand := "000102030405060708090a0b0c0d0e0f101112131415161718191a1b1c1d1e1f202122232425262728292a2b2c2d2e2f303132333435363738393a3b3c3d3e3f404142434445464748494a4b4c4d4e4f505152535455565758595a5b5c5d5e5f606162636465666768696a6b6c6d6e6f707172737475767778797a7b7c7d7e7f";
      rv_public_share := "0799017bb24c65181d958448ce8e2c173c91161c41b7326d6da095d8f479eae6c3737e95d95616ea9cb504757a00404a5fee380211a47e5e36439cc0f900f002";
      rv_input_shares := ["0bc33b18788b18bcf18237224441fd12b1b4413faf2a370602f1413a4c66b61739bf42cc98f49a3e0184b1a6c30ecdedbf47eb2c834389c435afe71f5d7e3d44dc206faf81791f5e0713a2e6b7871682c31ff8ceb49d12b8725242e3ba03df8c83960dbbc545b556d9019e198b028f96e1ecab09b3f32995f1a77c63335af43584a9997fc045cacfc36314da79c0a9f62def334c7f96a411ac6fd7e371e8a12204f1d5fc39099668c05163af0920df13c5037c7ff445c426ca35ed34904b335bdee38b9cbf06b75b7ea6fd4eb53dd89ecec8c468354b53db7d539c3e68d0077be8cab0be8e919a82ec87649845dd584124ea5e3b4d3ce268621b4d1e9012f39c404142434445464748494a4b4c4d4e4f505152535455565758595a5b5c5d5e5f"; "000102030405060708090a0b0c0d0e0f101112131415161718191a1b1c1d1e1f212122232425262728292a2b2c2d2e2f303132333435363738393a3b3c3d3e3f"];
      rv_verifier_shares := [["95f58cb93c37a03b87a5655488fff748a72b008764dec4dd1a8987149133ea13729988943dbf1127bece72d0a4a845f73ca64899d9555250bf6832041c060884a45a8b68ccb4d1cd839a228c1695b75e2d2b22e95bb5757243b245c7ac002ed10799017bb24c65181d958448ce8e2c173c91161c41b7326d6da095d8f479eae6"; "6c0a7346c3c85fc45c5a9aab770008b79c14b4870653a2b060f31841e889dee9b4e1e4e0e2762540d693dd56469fa190bb1c237c761e00082b5844e67bc80732be7aac8058e28b453d3703df1ca61725b3ec4db86e1f19c224226005677ffcc1214e4922b47bfd5f47724e9a826a393f30fea54df1aff8969a08c9f729d06895"]];
      rv_verifier_messages := []; rv_out_shares := [] |}];
     tv_agg_shares := []; tv_agg_result := None |}.

(** /repo/test_vec/vdaf/Prio3Histogram_bad_public_share.json *)
Definition Prio3Histogram_bad_public_share_published : test_vec Z (list Z) :=
  {| tv_operations := [{| op_operation := "verify_init"; op_round := None; op_aggregator_id := Some 0; op_report_index := Some 0; op_success := true |};
       {| op_operation := "verify_init"; op_round := None; op_aggregator_id := Some 1; op_report_index := Some 0; op_success := true |};
       {| op_operation := "verifier_shares_to_message"; op_round := Some 0; op_aggregator_id := None; op_report_index := Some 0; op_success := false |}];
     tv_shares := 2; tv_verify_key := "000102030405060708090a0b0c0d0e0f101112131415161718191a1b1c1d1e1f"; tv_agg_param := ""; tv_ctx := "736f6d65206170706c69636174696f6e";
     tv_reports := [{| rv_measurement := 0%Z; rv_nonce := "000102030405060708090a0b0c0d0e0f"; rv_rand := "000102030405060708090a0b0c0d0e0f101112131415161718191a1b1c1d1e1f202122232425262728292a2b2c2d2e2f303132333435363738393a3b3c3d3e3f404142434445464748494a4b4c4d4e4f505152535455565758595a5b5c5d5e5f606162636465666768696a6b6c6d6e6f707172737475767778797a7b7c7d7e7f";
      rv_public_share := "0699017bb24c65181d958448ce8e2c173c91161c41b7326d6da095d8f479eae6c3737e95d95616ea9cb504757a00404a5fee380211a47e5e36439cc0f900f002";
      rv_input_shares := ["0bc33b18788b18bcf18237224441fd12b1b4413faf2a370602f1413a4c66b61739bf42cc98f49a3e0184b1a6c30ecdedbf47eb2c834389c435afe71f5d7e3d44dc206faf81791f5e0713a2e6b7871682c31ff8ceb49d12b8725242e3ba03df8c83960dbbc545b556d9019e198b028f96e1ecab09b3f32995f1a77c63335af43584a9997fc045cacfc36314da79c0a9f62def334c7f96a411ac6fd7e371e8a12204f1d5fc39099668c05163af0920df13c5037c7ff445c426ca35ed34904b335bdee38b9cbf06b75b7ea6fd4eb53dd89ecec8c468354b53db7d539c3e68d0077be8cab0be8e919a82ec87649845dd584124ea5e3b4d3ce268621b4d1e9012f39c404142434445464748494a4b4c4d4e4f505152535455565758595a5b5c5d5e5f"; "000102030405060708090a0b0c0d0e0f101112131415161718191a1b1c1d1e1f202122232425262728292a2b2c2d2e2f303132333435363738393a3b3c3d3e3f"];
      rv_verifier_shares := [["95f58cb93c37a03b87a5655488fff748a72b008764dec4dd1a8987149133ea13729988943dbf1127bece72d0a4a845f73ca64899d9555250bf6832041c060884a45a8b68ccb4d1cd839a228c1695b75e2d2b22e95bb5757243b245c7ac002ed10799017bb24c65181d958448ce8e2c173c91161c41b7326d6da095d8f479eae6"; "6c0a7346c3c85fc45c5a9aab770008b7f9fdc112738bddd680a89728321d3a41b4e1e4e0e2762540d693dd56469fa19096eaa73be1ed264375b3054df7a84ecebe7aac8058e28b453d3703df1ca61725b3ec4db86e1f19c224226005677ffcc1c3737e95d95616ea9cb504757a00404a5fee380211a47e5e36439cc0f900f002"]];
      rv_verifier_messages := []; rv_out_shares := [] |}];
     tv_agg_shares := []; tv_agg_result := None |}.

(** /repo/test_vec/vdaf/Prio3Histogram_bad_verifier_message.json *)
Definition Prio3Histogram_bad_verifier_message_published : test_vec Z (list Z) :=
  {| tv_operations := [{| op_operation := "verify_init"; op_round := None; op_aggregator_id := Some 0; op_report_index := Some 0; op_success := true |};
       {| op_operation := "verify_next"; op_round := Some 1; op_aggregator_id := Some 0; op_report_index := Some 0; op_success := false |}];
     tv_shares := 2; tv_verify_key := "000102030405060708090a0b0c0d0e0f101112131415161718191a1b1c1d1e1f"; tv_agg_param := ""; tv_ctx := "736f6d65206170706c69636174696f6e";
     tv_reports := [{| rv_measurement := 0%Z; rv_nonce := "000102030405060708090a0b0c0d0e0f"; rv_rand := "000102030405060708090a0b0c0d0e0f101112131415161718191a1b1c1d1e1f202122232425262728292a2b2c2d2e2f303132333435363738393a3b3c3d3e3f404142434445464748494a4b4c4d4e4f505152535455565758595a5b5c5d5e5f606162636465666768696a6b6c6d6e6f707172737475767778797a7b7c7d7e7f";
      rv_public_share := "0799017bb24c65181d958448ce8e2c173c91161c41b7326d6da095d8f479eae6c3737e95d95616ea9cb504757a00404a5fee380211a47e5e36439cc0f900f002";
      rv_input_shares := ["0bc33b18788b18bcf18237224441fd12b1b4413faf2a370602f1413a4c66b61739bf42cc98f49a3e0184b1a6c30ecdedbf47eb2c834389c435afe71f5d7e3d44dc206faf81791f5e0713a2e6b7871682c31ff8ceb49d12b8725242e3ba03df8c83960dbbc545b556d9019e198b028f96e1ecab09b3f32995f1a77c63335af43584a9997fc045cacfc36314da79c0a9f62def334c7f96a411ac6fd7e371e8a12204f1d5fc39099668c05163af0920df13c5037c7ff445c426ca35ed34904b335bdee38b9cbf06b75b7ea6fd4eb53dd89ecec8c468354b53db7d539c3e68d0077be8cab0be8e919a82ec87649845dd584124ea5e3b4d3ce268621b4d1e9012f39c404142434445464748494a4b4c4d4e4f505152535455565758595a5b5c5d5e5f"; "000102030405060708090a0b0c0d0e0f101112131415161718191a1b1c1d1e1f202122232425262728292a2b2c2d2e2f303132333435363738393a3b3c3d3e3f"];
      rv_verifier_shares := [["95f58cb93c37a03b87a5655488fff748a72b008764dec4dd1a8987149133ea13729988943dbf1127bece72d0a4a845f73ca64899d9555250bf6832041c060884a45a8b68ccb4d1cd839a228c1695b75e2d2b22e95bb5757243b245c7ac002ed10799017bb24c65181d958448ce8e2c173c91161c41b7326d6da095d8f479eae6"]];
      rv_verifier_messages := ["0000000000000000000000000000000000000000000000000000000000000000"]; rv_out_shares := [] |}];
     tv_agg_shares := []; tv_agg_result := None |}.

Definition negative_histogram_outcome : bool := Eval vm_compute in
  produces (gen_negative_histogram {| p3_field := Field128; p3_flp := FlpBBCGGI19 (Histogram Field128 5 2);
              p3_xof := XofTurboShake128 turboshake128 1000; p3_ID := 4; p3_VERIFY_KEY_SIZE := 32; p3_SHARES := 2; p3_PROOFS := 1 |}
              0%Z (test_vec_gen_rand 32) (test_vec_gen_rand 16) neg_ctx 3%Z)
    [Prio3Histogram_bad_leader_jr_blind_published; Prio3Histogram_bad_helper_jr_blind_published;
     Prio3Histogram_bad_public_share_published; Prio3Histogram_bad_verifier_message_published].
Example negative_histogram : negative_histogram_outcome = true.
Proof. reflexivity. Qed.

(** /repo/test_vec/vdaf/Poplar1_bad_corr_inner.json *)
Definition Poplar1_bad_corr_inner_published : test_vec (list bool) (list Z) :=
  {| tv_operations := [{| op_operation := "verify_init"; op_round := None; op_aggregator_id := Some 0; op_report_index := Some 0; op_success := true |};
       {| op_operation := "verify_init"; op_round := None; op_aggregator_id := Some 1; op_report_index := Some 0; op_success := true |};
       {| op_operation := "verifier_shares_to_message"; op_round := Some 0; op_aggregator_id := None; op_report_index := Some 0; op_success := true |};
       {| op_operation := "verify_next"; op_round := Some 1; op_aggregator_id := Some 0; op_report_index := Some 0; op_success := true |};
       {| op_operation := "verify_next"; op_round := Some 1; op_aggregator_id := Some 1; op_report_index := Some 0; op_success := true |};
       {| op_operation := "verifier_shares_to_message"; op_round := Some 1; op_aggregator_id := None; op_report_index := Some 0; op_success := false |}];
     tv_shares := 2; tv_verify_key := "000102030405060708090a0b0c0d0e0f101112131415161718191a1b1c1d1e1f"; tv_agg_param := "0000000000020080"; tv_ctx := "736f6d65206170706c69636174696f6e";
     tv_reports := [{| rv_measurement := []; rv_nonce := "000102030405060708090a0b0c0d0e0f"; rv_rand := "000102030405060708090a0b0c0d0e0f101112131415161718191a1b1c1d1e1f202122232425262728292a2b2c2d2e2f303132333435363738393a3b3c3d3e3f404142434445464748494a4b4c4d4e4f505152535455565758595a5b5c5d5e5f606162636465666768696a6b6c6d6e6f707172737475767778797a7b7c7d7e7f";
      rv_public_share := "08b06f4c717daf32b81803262fed7e32eba6908b98f7d65b8e8b5a9370bcfdc0a6aaaa9e0a5d0ef6b21ee048f0b9d01c50a7d3b730d0e2936e99edcffeb4cf93b8be091812bf88f771573ff4a28c1ecb239586b870b99c6382261bece20c24c0f2ef681447a24532897fea0096e7ea482a";
      rv_input_shares := ["000102030405060708090a0b0c0d0e0f202122232425262728292a2b2c2d2e2f303132333435363738393a3b3c3d3e3f71496e84bd41e392ec7a156aace79865b80ef06ecd9b16fbdeb6ac5abb8d4ee578dea24375f443f12bf66bb2d0d104237a73dadc2e49b48a4d61898fdda9a5394ee5f912c60ede5cb891ac765842e456"; "101112131415161718191a1b1c1d1e1f404142434445464748494a4b4c4d4e4f505152535455565758595a5b5c5d5e5ff658abe2178807d4c6d8ce08d7c78ff421db08451eb14d11a5f7d4cd613000eb587a94530d0c38e026d469ed22e78226259e1e80e0bb8d141da3b80a7d0a93417337a13cc11259b8eee8d8e5355b5f20"];
      rv_verifier_shares := [["f001afe7abda8bba33236abf1736ed5e09eb27409a133e07"; "565a1e527a7e196e66784211165a755a4fb9072bb45d5465"]; ["7294e21f43bb5f81"; "d4c7ea19e39d45a7"]];
      rv_verifier_messages := ["455ccd392759a528999bacd02d9062b958a42f6b4e71926c"]; rv_out_shares := [] |}];
     tv_agg_shares := []; tv_agg_result := None |}.

Definition negative_poplar1_outcome : bool := Eval vm_compute in
  match Poplar1_init turboshake128 aes128 1000 2 with
  | Ok p => produces (let* tv := gen_poplar1_negative p [] neg_ctx [false; true] (0%Z, [[false]; [true]]) in Ok [tv])
              [Poplar1_bad_corr_inner_published]
  | Raise _ => false
  end.
Example negative_poplar1 : negative_poplar1_outcome = true.
Proof. reflexivity. Qed.
