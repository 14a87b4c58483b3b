(** Specification: the 64-bit block cipher "Magma" of GOST R 34.12-2015 (RFC 8891),
    transcribed from the standard. Numbers are elements of N; the block a1||a0 is
    a1 * 2^32 + a0. Nothing here refers to the model of the code. *)
From Coq Require Import List NArith.
Import ListNotations.
Local Open Scope N_scope.

(** The substitutions Pi'_0 .. Pi'_7 (RFC 8891, section 4.1). *)
Definition Pi : list (list N) :=
  [[0xc;0x4;0x6;0x2;0xa;0x5;0xb;0x9;0xe;0x8;0xd;0x7;0x0;0x3;0xf;0x1];
   [0x6;0x8;0x2;0x3;0x9;0xa;0x5;0xc;0x1;0xe;0x4;0x7;0xb;0xd;0x0;0xf];
   [0xb;0x3;0x5;0x8;0x2;0xf;0xa;0xd;0xe;0x1;0x7;0x4;0xc;0x9;0x6;0x0];
   [0xc;0x8;0x2;0x1;0xd;0x4;0xf;0x6;0x7;0x0;0xa;0x5;0x3;0xe;0x9;0xb];
   [0x7;0xf;0x5;0xa;0x8;0x1;0x6;0xd;0x0;0x9;0x3;0xe;0xb;0x4;0x2;0xc];
   [0x5;0xd;0xf;0x6;0x9;0x2;0xc;0xa;0xb;0x7;0x8;0x1;0x4;0x3;0xe;0x0];
   [0x8;0xe;0x2;0x5;0x6;0x9;0x1;0xc;0xf;0x4;0xb;0x0;0xd;0xa;0x3;0x7];
   [0x1;0x7;0xe;0xd;0x0;0x5;0x8;0x3;0x4;0xf;0xa;0x6;0x9;0xc;0xb;0x2]].

(** t: substitute the digits of x in base 16; table i serves digit i. *)
Fixpoint subst_digits (tables : list (list N)) (x : N) : N :=
  match tables with
  | [] => 0
  | tb :: r => nth (N.to_nat (x mod 16)) tb 0 + 16 * subst_digits r (x / 16)
  end.

(** Cyclic shift left by 11 of a 32-bit number. *)
Definition rotl11 (x : N) : N := (x * 2 ^ 11) mod 2 ^ 32 + x / 2 ^ 21.

(** g[k](a) = t(a [+] k) <<< 11 *)
Definition g (k a : N) : N := rotl11 (subst_digits Pi ((a + k) mod 2 ^ 32)).

(** G[k](a1, a0) = (a0, g[k](a0) (+) a1), for any round function. *)
Definition G (f : N -> N) (p : N * N) : N * N :=
  let '(a1, a0) := p in (a0, N.lxor (f a0) a1).

(** G*[k](a1, a0) = (g[k](a0) (+) a1) || a0 *)
Definition Gstar (f : N -> N) (p : N * N) : N :=
  let '(a1, a0) := p in N.lxor (f a0) a1 * 2 ^ 32 + a0.

(** Which of K_1..K_8 (numbered 0..7) each of the 32 rounds uses. *)
Definition round_order : list nat :=
  seq 0 8 ++ seq 0 8 ++ seq 0 8 ++ rev (seq 0 8).

(** Thirty-one rounds G, then G*. [f i] is the round function with key word i. *)
Definition feistel (f : nat -> N -> N) (order : list nat) (x : N) : N :=
  Gstar (f (last order O))
        (fold_left (fun p i => G (f i) p) (removelast order) (x / 2 ^ 32, x mod 2 ^ 32)).

Definition encryption (f : nat -> N -> N) (x : N) : N := feistel f round_order x.
Definition decryption (f : nat -> N -> N) (x : N) : N := feistel f (rev round_order) x.

(** K = K_1 || ... || K_8, a 256-bit number. *)
Definition key_word (K : N) (i : nat) : N := (K / 2 ^ (32 * (7 - N.of_nat i))) mod 2 ^ 32.

Definition Magma_E (K x : N) : N := encryption (fun i => g (key_word K i)) x.
Definition Magma_D (K x : N) : N := decryption (fun i => g (key_word K i)) x.

(** A 64-bit number as a pair (low half, high half). *)
Definition halves (x : N) : N * N := (x mod 2 ^ 32, x / 2 ^ 32).

(** A substitution on 4-bit digits written as the list of its values. *)
Definition nibble_table (tb : list N) : Prop :=
  length tb = 16%nat /\ Forall (fun e => e < 16) tb.

(** The packed form of eight such tables: byte 4j+k holds entry j of tables 2k
    (low digit) and 2k+1 (high digit). *)
Definition packed (uz : list N) (ts : list (list N)) : Prop :=
  length uz = 64%nat /\
  forall j k, (j < 16)%nat -> (k < 4)%nat ->
    nth (4 * j + k) uz 0 = nth j (nth (2 * k) ts []) 0 + 16 * nth j (nth (2 * k + 1) ts []) 0.

(** The tables Pi in packed form (id-tc26-gost-28147-param-Z), as key containers
    store them. *)
Definition Pi_packed : list N :=
  [0x6C; 0xCB; 0x57; 0x18; 0x84; 0x83; 0xDF; 0x7E;
   0x26; 0x25; 0xF5; 0xE2; 0x32; 0x18; 0x6A; 0xD5;
   0x9A; 0xD2; 0x98; 0x06; 0xA5; 0x4F; 0x21; 0x59;
   0x5B; 0xFA; 0xC6; 0x81; 0xC9; 0x6D; 0xAD; 0x3C;
   0x1E; 0x7E; 0xB0; 0x4F; 0xE8; 0x01; 0x79; 0xF4;
   0x4D; 0xA7; 0x83; 0xAB; 0x77; 0x54; 0x1E; 0x60;
   0xB0; 0x3C; 0x4B; 0x9D; 0xD3; 0xE9; 0x34; 0xCA;
   0x0F; 0x96; 0xE2; 0xB3; 0xF1; 0xB0; 0x0C; 0x27].

(** RFC 8891, appendix A.2 and A.3. *)
Example rfc8891_encryption :
  Magma_E 0xffeeddccbbaa99887766554433221100f0f1f2f3f4f5f6f7f8f9fafbfcfdfeff
          0xfedcba9876543210 = 0x4ee901e5c2d8ca3d /\
  Magma_D 0xffeeddccbbaa99887766554433221100f0f1f2f3f4f5f6f7f8f9fafbfcfdfeff
          0x4ee901e5c2d8ca3d = 0xfedcba9876543210.
Proof. vm_compute. split; reflexivity. Qed.
