(** Checks of the model against /repo/test_vec/XofTurboShake128.json and
    XofFixedKeyAes128.json. *)
From Coq Require Import Strings.String.
From Verif Require Import TestVecBase.
Open Scope nat_scope.

(** /repo/test_vec/XofTurboShake128.json; the first ten of the forty elements of the vector. *)
Example XofTurboShake128_derive_seed :
  res_is (derive_seed TS (hex "000102030405060708090a0b0c0d0e0f101112131415161718191a1b1c1d1e1f") (hex "646f6d61696e2073657061726174696f6e20746167") (hex "62696e64657220737472696e67"))
         "b62ef0a2778190792d4d42d8c167ba20e0c37a3f319ba79645829c427d70eea5" = true.
Proof. vm_compute. reflexivity. Qed.
Example XofTurboShake128_expand_into_vec :
  res_is (let* v := expand_into_vec TS Field128 (hex "000102030405060708090a0b0c0d0e0f101112131415161718191a1b1c1d1e1f") (hex "646f6d61696e2073657061726174696f6e20746167") (hex "62696e64657220737472696e67") 10 in encode_vec v)
         "b62ef0a2778190792d4d42d8c167ba20e0c37a3f319ba79645829c427d70eea56d92fef65a07b17a0438e25452cdc7f15f63caf0e8a2a3c72ac69524729e64e03c7ec3a3afa7eb21cb6da6abf0a3b73630a91a5fa05dcbd33da3476f1c8bf4fd66fe5a80dd04bc95f0f02cb8fc9035b9e16e3a5c373bf81c820af513e0c832ca672c66dcc3b302fb8b27a48f09e0a843f5caf87b3c6c1c4b6765b5923e1d152c" = true.
Proof. vm_compute. reflexivity. Qed.

(** /repo/test_vec/XofFixedKeyAes128.json; the first ten of the forty elements of the vector. *)
Example XofFixedKeyAes128_derive_seed :
  res_is (derive_seed FK (hex "000102030405060708090a0b0c0d0e0f") (hex "646f6d61696e2073657061726174696f6e20746167") (hex "62696e64657220737472696e67"))
         "ca97b6736483188fbf6d52a9063ab3e2" = true.
Proof. vm_compute. reflexivity. Qed.
Example XofFixedKeyAes128_expand_into_vec :
  res_is (let* v := expand_into_vec FK Field128 (hex "000102030405060708090a0b0c0d0e0f") (hex "646f6d61696e2073657061726174696f6e20746167") (hex "62696e64657220737472696e67") 10 in encode_vec v)
         "ca97b6736483188fbf6d52a9063ab3e2cd3d2a390443defd69ef29b85a905d166f01b109411930cb0379474684ec70fa412fdb6e05686eeb4351b5970cfcc497ecea23f53c257fe0b5909ca8502ab3dc701c10343fc1ba7fad7691272f741ab0258097d957ae571114e8059f5cfb901c75107e6394c2920f34a52548770d9b6253f22790b66e3a0a4229f332007276723755c5e3111549bba1d7586fd274fead" = true.
Proof. vm_compute. reflexivity. Qed.

