(** Reading the hexadecimal strings of /repo/test_vec. *)
From Coq Require Import Strings.String Strings.Ascii.
From Verif Require Export TurboShake Aes128.
Open Scope nat_scope.

Definition hex_digit (c : ascii) : N :=
  let n := N_of_ascii c in
  (if n <? 58 then n - 48 else n - 87)%N.
Fixpoint hex (s : string) : bytes :=
  match s with
  | String a (String b t) => z2b (Z.of_N (16 * hex_digit a + hex_digit b)%N) :: hex t
  | _ => []
  end.

(** The XOFs with the concrete primitives. *)
Definition TS : XofClass := XofTurboShake128 turboshake128 1000.
Definition FK : XofClass := XofFixedKeyAes128 turboshake128 aes128 1000.

Definition res_is (r : res bytes) (expected : string) : bool :=
  match r with Ok b => bytes_eqb b (hex expected) | Raise _ => false end.
Fixpoint all_res_are (r : list (res bytes)) (expected : list string) : bool :=
  match r, expected with
  | [], [] => true
  | x :: r', e :: expected' => res_is x e && all_res_are r' expected'
  | _, _ => false
  end.
