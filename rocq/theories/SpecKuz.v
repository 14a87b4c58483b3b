(** Specification: the 128-bit block cipher "Kuznyechik" of GOST R 34.12-2015
    (RFC 7801), transcribed from the standard. A block a15||...||a0 is the number with
    the base-256 digits a0 (least significant) .. a15. Nothing here refers to the model
    of the code. *)
From Verif Require Import Base.
Local Open Scope N_scope.

(** ** The field GF(2^8): polynomials over GF(2) modulo x^8+x^7+x^6+x+1 *)

(** Polynomials are numbers (bit i is the coefficient of x^i); their product. *)
Fixpoint pmul_pos (a : N) (b : positive) : N :=
  match b with
  | xH => a
  | xO b' => 2 * pmul_pos a b'
  | xI b' => N.lxor a (2 * pmul_pos a b')
  end.
Definition pmul (a b : N) : N := match b with N0 => 0 | Npos p => pmul_pos a p end.

Definition modulus : N := 0x1c3.

(** [c] is the product of [a] and [b] in the field. *)
Definition field_product (a b c : N) : Prop :=
  c < 256 /\ exists q, pmul a b = N.lxor (pmul q modulus) c.

(** The same by long division: the terms of degree 14 .. 8 are removed one by one. *)
Definition reduce (x : N) : N :=
  fold_left (fun x i => if N.testbit x i then N.lxor x (N.shiftl modulus (i - 8)) else x)
            [14; 13; 12; 11; 10; 9; 8] x.
Definition fmul (a b : N) : N := reduce (pmul a b).

(** ** The transformations (RFC 7801, section 4) *)

(** The nonlinear bijection Pi' (section 4.1). *)
Definition Pi' : list N :=
  [252; 238; 221; 17; 207; 110; 49; 22; 251; 196; 250; 218; 35; 197; 4; 77;
   233; 119; 240; 219; 147; 46; 153; 186; 23; 54; 241; 187; 20; 205; 95; 193;
   249; 24; 101; 90; 226; 92; 239; 33; 129; 28; 60; 66; 139; 1; 142; 79;
   5; 132; 2; 174; 227; 106; 143; 160; 6; 11; 237; 152; 127; 212; 211; 31;
   235; 52; 44; 81; 234; 200; 72; 171; 242; 42; 104; 162; 253; 58; 206; 204;
   181; 112; 14; 86; 8; 12; 118; 18; 191; 114; 19; 71; 156; 183; 93; 135;
   21; 161; 150; 41; 16; 123; 154; 199; 243; 145; 120; 111; 157; 158; 178; 177;
   50; 117; 25; 61; 255; 53; 138; 126; 109; 84; 198; 128; 195; 189; 13; 87;
   223; 245; 36; 169; 62; 168; 67; 201; 215; 121; 214; 246; 124; 34; 185; 3;
   224; 15; 236; 222; 122; 148; 176; 188; 220; 232; 40; 80; 78; 51; 10; 74;
   167; 151; 96; 115; 30; 0; 98; 68; 26; 184; 56; 130; 100; 159; 38; 65;
   173; 69; 70; 146; 39; 94; 85; 47; 140; 163; 165; 125; 105; 213; 149; 59;
   7; 88; 179; 64; 134; 172; 29; 247; 48; 55; 107; 228; 136; 217; 231; 137;
   225; 27; 131; 73; 76; 63; 248; 254; 141; 83; 170; 144; 202; 216; 133; 97;
   32; 113; 103; 164; 45; 43; 9; 91; 203; 155; 37; 208; 190; 229; 108; 82;
   89; 166; 116; 210; 230; 244; 180; 192; 209; 102; 175; 194; 57; 75; 99; 182].

Definition pi (a : N) : N := nth (N.to_nat a) Pi' 0.

(** The base-256 digits a0 .. a15 of a block. *)
Definition digits (x : N) : list N := to_le 16 x.

(** l(a15, ..., a0), section 4.2; the coefficients are those of a0, a1, ..., a15. *)
Definition l_coefficients : list N :=
  [1; 148; 32; 133; 16; 194; 192; 1; 251; 1; 192; 194; 16; 133; 32; 148].

Fixpoint lsum (cs ds : list N) : N :=
  match cs, ds with
  | c :: cs', d :: ds' => N.lxor (fmul d c) (lsum cs' ds')
  | _, _ => 0
  end.
Definition l (x : N) : N := lsum l_coefficients (digits x).

(** X[k](a) = k (+) a; S: Pi' on every digit; R(a) = l(a)||a15||...||a1; L = R^16. *)
Definition Xk (k a : N) : N := N.lxor k a.
Definition S (a : N) : N := of_le (map pi (digits a)).
Definition R (a : N) : N := l a * 2 ^ 120 + a / 2 ^ 8.
Definition L (a : N) : N := Nat.iter 16 R a.
Definition LSX (k a : N) : N := L (S (Xk k a)).

(** F[k](a1, a0) = (LSX[k](a1) (+) a0, a1) *)
Definition F (k : N) (p : N * N) : N * N := (N.lxor (LSX k (fst p)) (snd p), fst p).

(** ** The key schedule (section 4.3) *)

(** C_i = L(Vec_128(i)) *)
Definition C (i : N) : N := L i.

(** F[C_n]...F[C_i]: [n] steps beginning with constant number [i]. *)
Fixpoint steps (n : nat) (i : N) (p : N * N) : N * N :=
  match n with
  | O => p
  | Datatypes.S m => steps m (i + 1) (F (C i) p)
  end.

(** (K_1, K_2), (K_3, K_4), ..., (K_9, K_10) *)
Fixpoint key_pairs (n : nat) (i : N) (p : N * N) : list (N * N) :=
  match n with
  | O => [p]
  | Datatypes.S m => p :: key_pairs m (i + 8) (steps 8 i p)
  end.

(** K = k255||...||k0: K_1 = k255||...||k128, K_2 = k127||...||k0. *)
Definition round_keys (K : N) : list N :=
  flat_map (fun p => [fst p; snd p]) (key_pairs 4 1 (K / 2 ^ 128, K mod 2 ^ 128)).

(** E(a) = X[K_10] LSX[K_9] ... LSX[K_1](a) *)
Definition encrypt_with (ks : list N) (a : N) : N :=
  Xk (last ks 0) (fold_left (fun a k => LSX k a) (removelast ks) a).
Definition Kuz_E (K a : N) : N := encrypt_with (round_keys K) a.

(** A 128-bit number as a pair (low half, high half). *)
Definition kpair (x : N) : N * N := (x mod 2 ^ 64, x / 2 ^ 64).

(** RFC 7801, section 5: field products, R, L, S, key schedule, encryption. *)
Example rfc7801_transformations :
  S 0xffeeddccbbaa99881122334455667700 = 0xb66cd8887d38e8d77765aeea0c9a7efc /\
  S 0x559d8dd7bd06cbfe7e7b262523280d39 = 0x0c3322fed531e4630d80ef5c5a81c50b /\
  R 0x00000000000000000000000000000100 = 0x94000000000000000000000000000001 /\
  R 0x64a59400000000000000000000000000 = 0x0d64a594000000000000000000000000 /\
  L 0x64a59400000000000000000000000000 = 0xd456584dd0e3e84cc3166e4b7fa2890d /\
  L 0x0e93691a0cfc60408b7b68f66b513c13 = 0xe6a8094fee0aa204fd97bcb0b44b8580.
Proof. vm_compute. repeat split. Qed.

Example rfc7801_keys :
  round_keys 0x8899aabbccddeeff0011223344556677fedcba98765432100123456789abcdef =
  [0x8899aabbccddeeff0011223344556677; 0xfedcba98765432100123456789abcdef;
   0xdb31485315694343228d6aef8cc78c44; 0x3d4553d8e9cfec6815ebadc40a9ffd04;
   0x57646468c44a5e28d3e59246f429f1ac; 0xbd079435165c6432b532e82834da581b;
   0x51e640757e8745de705727265a0098b1; 0x5a7925017b9fdd3ed72a91a22286f984;
   0xbb44e25378c73123a5f32f73cdb6e517; 0x72e9dd7416bcf45b755dbaa88e4a4043].
Proof. vm_compute. reflexivity. Qed.

Example rfc7801_encryption :
  Kuz_E 0x8899aabbccddeeff0011223344556677fedcba98765432100123456789abcdef
        0x1122334455667700ffeeddccbbaa9988 = 0x7f679d90bebc24305a468d42b9d4edcd.
Proof. unfold Kuz_E. rewrite rfc7801_keys. vm_compute. reflexivity. Qed.
