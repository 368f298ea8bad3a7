(** Checks of the model against the test vectors of /repo/test_vec/vdaf. *)
From Coq Require Import Strings.String.
From Verif Require Import TestVecRun Poplar1.
Open Scope string_scope.
Open Scope nat_scope.

(** /repo/test_vec/vdaf/Poplar1_0.json *)
Example Poplar1_0 :
  match Poplar1_init turboshake128 aes128 1000 4 with
  | Ok p =>
    match p1_decode_agg_param (hex "0000000000020080") with
    | Ok ap => res_is (p1_encode_agg_param ap) "0000000000020080" && tv_check (p1_vdaf p) (hex "000102030405060708090a0b0c0d0e0f101112131415161718191a1b1c1d1e1f") (hex "736f6d65206170706c69636174696f6e") ap
      [([true; true; false; true], (hex "000102030405060708090a0b0c0d0e0f"), (hex "000102030405060708090a0b0c0d0e0f101112131415161718191a1b1c1d1e1f202122232425262728292a2b2c2d2e2f303132333435363738393a3b3c3d3e3f404142434445464748494a4b4c4d4e4f505152535455565758595a5b5c5d5e5f606162636465666768696a6b6c6d6e6f707172737475767778797a7b7c7d7e7f"))]
      [[["6b8e0daf3de07179b572a661918e574da4a8725ac20a9bbb41a80cac2833421dce8cefc31b5ef82eb6541675e5735ae8031ad3350bd0f0ecbd4a78f964ff03f537512a4d0e1ee930e9e9921239025be96ebca993797304e636a21596d48ef770a505f2a460539c85b7f79c232e4d03fa5e93d4c7c9732a34fa7b36d465f8832d5072adb054be31fa062dd98870f874be473c61f5a3a190305a55447c07e26eeba33a87107fac98d5facef1bddf390e9b0a"];
        ["000102030405060708090a0b0c0d0e0f202122232425262728292a2b2c2d2e2f303132333435363738393a3b3c3d3e3f44c71022b8189d550d5c0fa5217f286f9be848be781fa11af05edd3007ef93731dc7198bc1019cd67c469220e2575475ac94083fe698ef8a2fe052d594fd50a3e3fe9a85fe2ec8f3c49bc8de2ee6ce3886fe960eccf2a6a6732c40f6313f00385d5cbf056f9c410c5ada1d66667e9555"; "101112131415161718191a1b1c1d1e1f404142434445464748494a4b4c4d4e4f505152535455565758595a5b5c5d5e5f21db08451eb14d11a5f7d4cd613000eb587a94530d0c38e026d469ed22e782a6259e1e80e0bb8d141da3b80a7d0a93417337a13cc11259b8eee8d8e5355b5fa0917556ba9ef45fc7b94064daf0e82d39581fd82ede197d36dac9c11e7e300ecc902a3df76498ff6a2c5f37459cd1ad12"];
        ["ceb46e084fff39bf0f6dc92a3bbea2ef1a19a183864b6cdb"; "2528a9b6d6045aca51bb90b40717b729712c5a9bcb9480a7"];
        ["3e2ff87a64bb1320"; "c3d007859a44ecdf"];
        ["f2dc17bf260494895f285adf43d559198a45fb1e53e0ec82"; ""];
        ["f2addbd58d497527f0f4a4cc4cafd163"; "0f52242a71b68ad8120b5b33b2502e9c"]]]
      ["f2addbd58d497527f0f4a4cc4cafd163"; "0f52242a71b68ad8120b5b33b2502e9c"] (fun r : list Z => if list_eq_dec Z.eq_dec r [0; 1]%Z then true else false)
    | Raise _ => false
    end
  | Raise _ => false
  end = true.
Proof. vm_compute. reflexivity. Qed.

(** /repo/test_vec/vdaf/Poplar1_bad_corr_inner.json *)
Example Poplar1_bad_corr_inner :
  match Poplar1_init turboshake128 aes128 1000 2 with
  | Ok p => match p1_decode_agg_param (hex "0000000000020080") with Ok ap => tv_bad (p1_vdaf p) (hex "000102030405060708090a0b0c0d0e0f101112131415161718191a1b1c1d1e1f") (hex "736f6d65206170706c69636174696f6e") ap (hex "000102030405060708090a0b0c0d0e0f") "08b06f4c717daf32b81803262fed7e32eba6908b98f7d65b8e8b5a9370bcfdc0a6aaaa9e0a5d0ef6b21ee048f0b9d01c50a7d3b730d0e2936e99edcffeb4cf93b8be091812bf88f771573ff4a28c1ecb239586b870b99c6382261bece20c24c0f2ef681447a24532897fea0096e7ea482a" ["000102030405060708090a0b0c0d0e0f202122232425262728292a2b2c2d2e2f303132333435363738393a3b3c3d3e3f71496e84bd41e392ec7a156aace79865b80ef06ecd9b16fbdeb6ac5abb8d4ee578dea24375f443f12bf66bb2d0d104237a73dadc2e49b48a4d61898fdda9a5394ee5f912c60ede5cb891ac765842e456"; "101112131415161718191a1b1c1d1e1f404142434445464748494a4b4c4d4e4f505152535455565758595a5b5c5d5e5ff658abe2178807d4c6d8ce08d7c78ff421db08451eb14d11a5f7d4cd613000eb587a94530d0c38e026d469ed22e78226259e1e80e0bb8d141da3b80a7d0a93417337a13cc11259b8eee8d8e5355b5f20"] | Raise _ => [] end
  | Raise _ => []
  end = [0; 0; 1].
Proof. vm_compute. reflexivity. Qed.

