(** Checks of the model against the test vectors of /repo/test_vec/vdaf.  The
    outcome of the last one is computed when this file is compiled. *)
From Coq Require Import Strings.String.
From Verif Require Import TestVecRun Prio3.
Open Scope string_scope.
Open Scope nat_scope.

(** /repo/test_vec/vdaf/Prio3Count_0.json *)
Definition Prio3Count_0_instance : Prio3 :=
  {| p3_field := Field64; p3_flp := FlpBBCGGI19 (Count Field64); p3_xof := (XofTurboShake128 turboshake128 1000); p3_ID := 1;
     p3_VERIFY_KEY_SIZE := 32; p3_SHARES := 2; p3_PROOFS := 1 |}.
Example Prio3Count_0_constructor : Prio3Count turboshake128 1000 2 = Ok Prio3Count_0_instance.
Proof. reflexivity. Qed.
Example Prio3Count_0 :
  tv_check (Prio3Vdaf Prio3Count_0_instance) (hex "000102030405060708090a0b0c0d0e0f101112131415161718191a1b1c1d1e1f") (hex "736f6d65206170706c69636174696f6e") tt
      [(1%Z, (hex "000102030405060708090a0b0c0d0e0f"), (hex "000102030405060708090a0b0c0d0e0f101112131415161718191a1b1c1d1e1f202122232425262728292a2b2c2d2e2f303132333435363738393a3b3c3d3e3f"))]
      [[[""];
        ["355e16daa732744c34dc71fa4c85d209f9af2ecf751609386ed9e2714ecc9e6bb2277498ac41e75c01d81b4cb8485926"; "000102030405060708090a0b0c0d0e0f101112131415161718191a1b1c1d1e1f"];
        ["cd7905720f16e5d9ef7657a336307ae8f3fe96d36cc09019257268349e7a7d72"; "3486fa8defe91a26a2eb81c1638c36bcf227593ab1b0e78b0d2775a9788ca884"];
        [""];
        ["355e16daa732744c"; "cda1e92557cd8bb3"]]]
      ["355e16daa732744c"; "cda1e92557cd8bb3"] (fun r => (r =? 1)%Z) = true.
Proof. vm_compute. reflexivity. Qed.

(** /repo/test_vec/vdaf/Prio3Count_bad_gadget_poly.json *)
Example Prio3Count_bad_gadget_poly :
  match Prio3Count turboshake128 1000 2 with
  | Ok p => tv_bad (Prio3Vdaf p) (hex "000102030405060708090a0b0c0d0e0f101112131415161718191a1b1c1d1e1f") (hex "736f6d65206170706c69636174696f6e") tt (hex "000102030405060708090a0b0c0d0e0f") "" ["355e16daa732744c34dc71fa4c85d209f9af2ecf751609386ed9e2714ecc9e6bb2277498ac41e75c02d81b4cb8485926"; "000102030405060708090a0b0c0d0e0f101112131415161718191a1b1c1d1e1f"]
  | Raise _ => []
  end = [1].
Proof. vm_compute. reflexivity. Qed.

(** /repo/test_vec/vdaf/Prio3Count_bad_wire_seed.json *)
Example Prio3Count_bad_wire_seed :
  match Prio3Count turboshake128 1000 2 with
  | Ok p => tv_bad (Prio3Vdaf p) (hex "000102030405060708090a0b0c0d0e0f101112131415161718191a1b1c1d1e1f") (hex "736f6d65206170706c69636174696f6e") tt (hex "000102030405060708090a0b0c0d0e0f") "" ["355e16daa732744c35dc71fa4c85d209f9af2ecf751609386ed9e2714ecc9e6bb2277498ac41e75c01d81b4cb8485926"; "000102030405060708090a0b0c0d0e0f101112131415161718191a1b1c1d1e1f"]
  | Raise _ => []
  end = [1].
Proof. vm_compute. reflexivity. Qed.

(** /repo/test_vec/vdaf/Prio3Histogram_0.json *)
Definition Prio3Histogram_0_instance : Prio3 :=
  {| p3_field := Field128; p3_flp := FlpBBCGGI19 (Histogram Field128 4 2); p3_xof := (XofTurboShake128 turboshake128 1000); p3_ID := 4;
     p3_VERIFY_KEY_SIZE := 32; p3_SHARES := 2; p3_PROOFS := 1 |}.
Example Prio3Histogram_0_constructor : Prio3Histogram turboshake128 1000 2 4 2 = Ok Prio3Histogram_0_instance.
Proof. reflexivity. Qed.
Definition Prio3Histogram_0_outcome : bool := Eval vm_compute in
  tv_check (Prio3Vdaf Prio3Histogram_0_instance) (hex "000102030405060708090a0b0c0d0e0f101112131415161718191a1b1c1d1e1f") (hex "736f6d65206170706c69636174696f6e") tt
      [(2%Z, (hex "000102030405060708090a0b0c0d0e0f"), (hex "000102030405060708090a0b0c0d0e0f101112131415161718191a1b1c1d1e1f202122232425262728292a2b2c2d2e2f303132333435363738393a3b3c3d3e3f404142434445464748494a4b4c4d4e4f505152535455565758595a5b5c5d5e5f606162636465666768696a6b6c6d6e6f707172737475767778797a7b7c7d7e7f"))]
      [[["99fe27688507f8fb85eb564b85374872af0d5db417228ff8940d3d21c56aa1f6ac76ff51698f6c2e1a3e8869b44cf53de72da459d305e8a27e731bb685b05d86"];
        ["0bc33b18788b18bcf18237224441fd12b1b4413faf2a370602f1413a4c66b6173abf42cc98f49a3e0184b1a6c30ecdedbe47eb2c834389c435afe71f5d7e3d44c31ff8ceb49d12b8725242e3ba03df8c83960dbbc545b556d9019e198b028f96e1ecab09b3f32995f1a77c63335af43584a9997fc045cacfc36314da79c0a9f62def334c7f96a411ac6fd7e371e8a1229daae809ed2fa5ce7aad581296f369a8c5037c7ff445c426ca35ed34904b335b38a164283612e000d9a14f293c88e998cec8c468354b53db7d539c3e68d0077bed5bc04691710dc8ecda1f022bef7ae724ea5e3b4d3ce268621b4d1e9012f39c404142434445464748494a4b4c4d4e4f505152535455565758595a5b5c5d5e5f"; "000102030405060708090a0b0c0d0e0f101112131415161718191a1b1c1d1e1f202122232425262728292a2b2c2d2e2f303132333435363738393a3b3c3d3e3f"];
        ["240bc6b75e169e6d038e3bf7c2cb841ff88d5cca88280090c2cc0e3674f45e244bee3f036043e1f14b87869d7be2899a6d19c8d38a6704b433a13ff6d88f0ad6da9f371e0c799b01374891c253741a7b47e011a8c5532aba63528ae7799e47a499fe27688507f8fb85eb564b85374872af0d5db417228ff8940d3d21c56aa1f6"; "ddf43948a1e96192e071c4083d347be07806e8fb20b426b204f73c5d5c352626851c75df044841b730623dcd732c1551382232b34bd5bd1a5aeefb4a687120ed5f6ca8e1d9ea721755f3a30788dd75fab3ec4db86e1f19c224226005677ffcc1ac76ff51698f6c2e1a3e8869b44cf53de72da459d305e8a27e731bb685b05d86"];
        ["0c47aa2d70cdf78b9b76ae4cbf1bab8bb6805e0c56570c0f9509bd2123644275"];
        ["0bc33b18788b18bcf18237224441fd12b1b4413faf2a370602f1413a4c66b6173abf42cc98f49a3e0184b1a6c30ecdedbe47eb2c834389c435afe71f5d7e3d44"; "f63cc4e78774e743f27cc8ddbbbe02ed504bbec050d5c8f9e10ebec5b39949e8c840bd33670b65c1e27b4e593cf1321243b814d37cbc763bae5018e0a281c2bb"]]]
      ["0bc33b18788b18bcf18237224441fd12b1b4413faf2a370602f1413a4c66b6173abf42cc98f49a3e0184b1a6c30ecdedbe47eb2c834389c435afe71f5d7e3d44"; "f63cc4e78774e743f27cc8ddbbbe02ed504bbec050d5c8f9e10ebec5b39949e8c840bd33670b65c1e27b4e593cf1321243b814d37cbc763bae5018e0a281c2bb"] (fun r : list Z => if list_eq_dec Z.eq_dec r [0; 0; 1; 0]%Z then true else false).
Example Prio3Histogram_0 : Prio3Histogram_0_outcome = true.
Proof. reflexivity. Qed.

