(** The AES round of FIPS 197 without AddRoundKey, i.e. the instruction AESENC with a zero round key:
    used to instantiate the parameter [R] of AezModel in the examples. *)
From Verif Require Import Base.

(** FIPS 197, figure 7 *)
Definition sbox : bytes :=
  [99; 124; 119; 123; 242; 107; 111; 197; 48; 1; 103; 43; 254; 215; 171; 118;
   202; 130; 201; 125; 250; 89; 71; 240; 173; 212; 162; 175; 156; 164; 114; 192;
   183; 253; 147; 38; 54; 63; 247; 204; 52; 165; 229; 241; 113; 216; 49; 21;
   4; 199; 35; 195; 24; 150; 5; 154; 7; 18; 128; 226; 235; 39; 178; 117;
   9; 131; 44; 26; 27; 110; 90; 160; 82; 59; 214; 179; 41; 227; 47; 132;
   83; 209; 0; 237; 32; 252; 177; 91; 106; 203; 190; 57; 74; 76; 88; 207;
   208; 239; 170; 251; 67; 77; 51; 133; 69; 249; 2; 127; 80; 60; 159; 168;
   81; 163; 64; 143; 146; 157; 56; 245; 188; 182; 218; 33; 16; 255; 243; 210;
   205; 12; 19; 236; 95; 151; 68; 23; 196; 167; 126; 61; 100; 93; 25; 115;
   96; 129; 79; 220; 34; 42; 144; 136; 70; 238; 184; 20; 222; 94; 11; 219;
   224; 50; 58; 10; 73; 6; 36; 92; 194; 211; 172; 98; 145; 149; 228; 121;
   231; 200; 55; 109; 141; 213; 78; 169; 108; 86; 244; 234; 101; 122; 174; 8;
   186; 120; 37; 46; 28; 166; 180; 198; 232; 221; 116; 31; 75; 189; 139; 138;
   112; 62; 181; 102; 72; 3; 246; 14; 97; 53; 87; 185; 134; 193; 29; 158;
   225; 248; 152; 17; 105; 217; 142; 148; 155; 30; 135; 233; 206; 85; 40; 223;
   140; 161; 137; 13; 191; 230; 66; 104; 65; 153; 45; 15; 176; 84; 187; 22].
(** multiplication by x in GF(2^8) *)
Definition xtime (a : Z) : Z := let b := Z.shiftl a 1 in if 256 <=? b then Z.lxor (b - 256) 0x1b else b.
(** byte 4c + r of the state is in row r and column c *)
Definition shift_rows (x : bytes) : bytes :=
  map (fun i => nth i x 0) [0; 5; 10; 15; 4; 9; 14; 3; 8; 13; 2; 7; 12; 1; 6; 11]%nat.
Definition mix_column (a b c d : Z) : bytes :=
  let t := Z.lxor (Z.lxor a b) (Z.lxor c d) in
  [Z.lxor a (Z.lxor t (xtime (Z.lxor a b))); Z.lxor b (Z.lxor t (xtime (Z.lxor b c)));
   Z.lxor c (Z.lxor t (xtime (Z.lxor c d))); Z.lxor d (Z.lxor t (xtime (Z.lxor d a)))].
Fixpoint mix_columns (x : bytes) : bytes :=
  match x with
  | a :: b :: c :: d :: r => mix_column a b c d ++ mix_columns r
  | _ => []
  end.
Definition aes_round (x : bytes) : bytes := mix_columns (shift_rows (map (fun b => nth (Z.to_nat b) sbox 0) x)).

(** FIPS 197, appendix B, round 1 *)
Example aes_round_fips :
  aes_round [0x19; 0x3d; 0xe3; 0xbe; 0xa0; 0xf4; 0xe2; 0x2b; 0x9a; 0xc6; 0x8d; 0x2a; 0xe9; 0xf8; 0x48; 0x08] =
  [0x04; 0x66; 0x81; 0xe5; 0xe0; 0xcb; 0x19; 0x9a; 0x48; 0xf8; 0xd3; 0x7a; 0x28; 0x06; 0x26; 0x4c].
Proof. vm_compute. reflexivity. Qed.
