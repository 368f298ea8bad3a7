(** The primitive AES-128 (FIPS 197), which xof.py:9 and 216, 252 take from the library
    PyCryptodome.  It is not code of /repo; the theorems hold for every function
    of this type, and this definition is used only to check the model against
    /repo/test_vec. *)
From Verif Require Export Xof.
Open Scope N_scope.

Definition sbox_table : list N :=
  [99; 124; 119; 123; 242; 107; 111; 197; 48; 1; 103; 43; 254; 215; 171; 118;
   202; 130; 201; 125; 250; 89; 71; 240; 173; 212; 162; 175; 156; 164; 114; 192;
   183; 253; 147; 38; 54; 63; 247; 204; 52; 165; 229; 241; 113; 216; 49; 21;
   4; 199; 35; 195; 24; 150; 5; 154; 7; 18; 128; 226; 235; 39; 178; 117;
   9; 131; 44; 26; 27; 110; 90; 160; 82; 59; 214; 179; 41; 227; 47; 132;
   83; 209; 0; 237; 32; 252; 177; 91; 106; 203; 190; 57; 74; 76; 88; 207;
   208; 239; 170; 251; 67; 77; 51; 133; 69; 249; 2; 127; 80; 60; 159; 168;
   81; 163; 64; 143; 146; 157; 56; 245; 188; 182; 218; 33; 16; 255; 243; 210;
   205; 12; 19; 236; 95; 151; 68; 23; 196; 167; 126; 61; 100; 93; 25; 115;
   96; 129; 79; 220; 34; 42; 144; 136; 70; 238; 184; 20; 222; 94; 11; 219;
   224; 50; 58; 10; 73; 6; 36; 92; 194; 211; 172; 98; 145; 149; 228; 121;
   231; 200; 55; 109; 141; 213; 78; 169; 108; 86; 244; 234; 101; 122; 174; 8;
   186; 120; 37; 46; 28; 166; 180; 198; 232; 221; 116; 31; 75; 189; 139; 138;
   112; 62; 181; 102; 72; 3; 246; 14; 97; 53; 87; 185; 134; 193; 29; 158;
   225; 248; 152; 17; 105; 217; 142; 148; 155; 30; 135; 233; 206; 85; 40; 223;
   140; 161; 137; 13; 191; 230; 66; 104; 65; 153; 45; 15; 176; 84; 187; 22].
Definition sbox (x : N) : N := nth (N.to_nat x) sbox_table 0.
Definition xtime (x : N) : N :=
  let y := N.double x in if y <? 256 then y else N.lxor y 283.
Fixpoint xor_list (a b : list N) : list N :=
  match a, b with x :: a', y :: b' => N.lxor x y :: xor_list a' b' | _, _ => [] end.

(** The state is listed column by column, as the input bytes are. *)
Definition shift_rows (s : list N) : list N :=
  match s with
  | [a0; b0; c0; d0; a1; b1; c1; d1; a2; b2; c2; d2; a3; b3; c3; d3] =>
    [a0; b1; c2; d3; a1; b2; c3; d0; a2; b3; c0; d1; a3; b0; c1; d2]
  | _ => s
  end.
Fixpoint mix_columns (s : list N) : list N :=
  match s with
  | a :: b :: c :: d :: t =>
    let x3 p q r u v := N.lxor (xtime p) (N.lxor (N.lxor (xtime q) r) (N.lxor u v)) in
    x3 a b b c d :: x3 b c c d a :: x3 c d d a b :: x3 d a a b c :: mix_columns t
  | _ => []
  end.

(** The next round key; [rc] is the round constant. *)
Definition next_key (rc : N) (k : list N) : list N :=
  match k with
  | [a; b; c; d; e; f; g; h; i; j; l; m; n; o; p; q] =>
    let w0 := xor_list [a; b; c; d] [N.lxor (sbox o) rc; sbox p; sbox q; sbox n] in
    let w1 := xor_list [e; f; g; h] w0 in
    let w2 := xor_list [i; j; l; m] w1 in
    let w3 := xor_list [n; o; p; q] w2 in
    w0 ++ w1 ++ w2 ++ w3
  | _ => k
  end.
Definition aes_round (k s : list N) : list N := xor_list k (mix_columns (shift_rows (map sbox s))).
Definition aes_last (k s : list N) : list N := xor_list k (shift_rows (map sbox s)).
Fixpoint aes_rounds (rcs : list N) (k s : list N) : list N :=
  match rcs with
  | [] => s
  | [rc] => aes_last (next_key rc k) s
  | rc :: rcs' => let k' := next_key rc k in aes_rounds rcs' k' (aes_round k' s)
  end.

Definition aes128 (key block : bytes) : bytes :=
  let k := map Byte.to_N key in
  let s := xor_list k (map Byte.to_N block) in
  map (fun x => z2b (Z.of_N x)) (aes_rounds [1; 2; 4; 8; 16; 32; 64; 128; 27; 54] k s).

(** FIPS 197, appendix C.1. *)
Example aes128_fips197 :
  aes128 [x00; x01; x02; x03; x04; x05; x06; x07; x08; x09; x0a; x0b; x0c; x0d; x0e; x0f]
         [x00; x11; x22; x33; x44; x55; x66; x77; x88; x99; xaa; xbb; xcc; xdd; xee; xff]
  = [x69; xc4; xe0; xd8; x6a; x7b; x04; x30; xd8; xcd; xb7; x80; x70; xb4; xc5; x5a].
Proof. vm_compute. reflexivity. Qed.
