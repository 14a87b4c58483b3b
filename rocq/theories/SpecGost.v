(** Specification: GOST 28147-89, the cipher of SpecMagma.v with any tables and with the key
    given as eight words. *)
From Verif Require Import Base SpecMagma.
Local Open Scope N_scope.

(** The function of a round that uses word [i]. *)
Definition gost_round (ts : list (list N)) (ws : list N) (i : nat) (a : N) : N :=
  rotl11 (subst_digits ts ((a + nth i ws 0) mod 2 ^ 32)).

(** The tables of the Central Bank of Russia (RFC 5831, id-Gost28147-89-TestParamSet of
    GOST R 34.11-94). *)
Definition bank_tables : list (list N) :=
  [[4; 10; 9; 2; 13; 8; 0; 14; 6; 11; 1; 12; 7; 15; 5; 3];
   [14; 11; 4; 12; 6; 13; 15; 10; 2; 3; 8; 1; 0; 7; 5; 9];
   [5; 8; 1; 13; 10; 3; 4; 2; 14; 15; 12; 7; 6; 0; 9; 11];
   [7; 13; 10; 1; 0; 8; 9; 15; 14; 4; 6; 12; 11; 2; 5; 3];
   [6; 12; 7; 1; 5; 15; 13; 8; 4; 10; 9; 14; 0; 3; 11; 2];
   [4; 11; 10; 0; 7; 2; 1; 13; 3; 6; 8; 5; 9; 12; 15; 14];
   [13; 11; 4; 1; 3; 15; 5; 9; 0; 10; 14; 7; 6; 8; 2; 12];
   [1; 15; 13; 0; 5; 7; 10; 4; 9; 2; 3; 14; 6; 11; 8; 12]].

Definition bank_key : list N :=
  [0x34317175; 0x45ec0fb6; 0x83bb07a6; 0xaf4637aa; 0xa69df94f; 0x5b3bb5d1; 0x1b2a401b; 0x1b0d03aa].

(** A widely used test vector: key 75713134...1b0d03aa..., block 1122334455667788, ciphertext
    03251e14f9d28acb (bytes). *)
Example gost_vector :
  encryption (gost_round bank_tables bank_key) 0x8877665544332211 = 0xcb8ad2f9141e2503 /\
  decryption (gost_round bank_tables bank_key) 0xcb8ad2f9141e2503 = 0x8877665544332211.
Proof. vm_compute. split; reflexivity. Qed.
