(** Further properties of goost/kuznyechik: C55, C65, C66. *)
From Verif Require Import Base Text MagmaModel KuzModel SpecText SpecMagma SpecModes SpecKuz SpecIter SpecFail.
From Verif Require Import Lib KuzProofs KuzStreamProofs KuzFacts KuzMore TestVectors.
From Coq Require Import Lia.
Local Open Scope N_scope.

(** ** C55 *)

(** Two streams encrypted under one key and iv: the exclusive or of the ciphertexts is the
    exclusive or of the plaintexts, block by block. *)
Theorem C55_reuse {I J} (ops : iter_ops I) (ops' : iter_ops J) (k : kkey) (E : N -> N) (iv : N)
    (p : res (option I)) (q : res (option J)) (n : nat) v w :
  kuz_enciphers k E -> iv < 2 ^ 64 -> block_at ops p n = Ok v -> block_at ops' q n = Ok w ->
  exists c d, block_at (ItCTR_ops ops k) (StCTR_iter p iv) n = Ok c /\
    block_at (ItCTR_ops ops' k) (StCTR_iter q iv) n = Ok d /\ xor_pair c d = xor_pair v w.
Proof. apply ctr_reuse. Qed.

(** A key and two streams for the examples. *)
Definition ukey : kkey := Key_blocks (Ok (kpair 5)) (Ok (kpair 6)).
Lemma ukey_enciphers : kuz_enciphers ukey (Kuz_E (5 * 2 ^ 128 + 6)).
Proof. apply blocks_encipher; reflexivity. Qed.
Definition mem (d : list N) (n : nat) : res (N * N) :=
  block_at (ItMemory_ops (Some d)) (StMemory_iter true d) n.
Definition mem_ctr (d : list N) (iv : N) (n : nat) : res (N * N) :=
  block_at (ItCTR_ops (ItMemory_ops (Some d)) ukey) (StCTR_iter (StMemory_iter true d) iv) n.

Example C55_example :
  mem [1; 2; 3; 4] 1 = Ok (3, 4) /\ mem [5; 6; 7; 8] 1 = Ok (7, 8) /\
  exists c d, mem_ctr [1; 2; 3; 4] 9 1 = Ok c /\ mem_ctr [5; 6; 7; 8] 9 1 = Ok d /\ xor_pair c d = (4, 12).
Proof.
  split; [reflexivity|]. split; [reflexivity|].
  apply (C55_reuse (ItMemory_ops (Some [1; 2; 3; 4])) (ItMemory_ops (Some [5; 6; 7; 8])) ukey _ 9
    (StMemory_iter true [1; 2; 3; 4]) (StMemory_iter true [5; 6; 7; 8]) 1 (3, 4) (7, 8) ukey_enciphers);
    reflexivity.
Qed.

(** ** C65 *)

(** Decryption of a ciphertext block with the bits [d] flipped flips the bits [d] of the
    plaintext block ... *)
Theorem C65_same_bits {I J} (ops : iter_ops I) (ops' : iter_ops J) (k : kkey) (E : N -> N) (iv : N)
    (p : res (option I)) (q : res (option J)) (n : nat) c d :
  kuz_enciphers k E -> iv < 2 ^ 64 -> block_at ops p n = Ok c -> block_at ops' q n = Ok (xor_pair c d) ->
  exists v, block_at (ItCTR_ops ops k) (StCTR_iter p iv) n = Ok v /\
    block_at (ItCTR_ops ops' k) (StCTR_iter q iv) n = Ok (xor_pair v d).
Proof. apply ctr_malleable. Qed.

(** ... and of nothing else: each block depends on the block at the same position only. *)
Theorem C65_position {I J} (ops : iter_ops I) (ops' : iter_ops J) (k : kkey) (E : N -> N) (iv : N)
    (p : res (option I)) (q : res (option J)) (n : nat) :
  kuz_enciphers k E -> iv < 2 ^ 64 -> block_at ops p n = block_at ops' q n ->
  block_at (ItCTR_ops ops k) (StCTR_iter p iv) n = block_at (ItCTR_ops ops' k) (StCTR_iter q iv) n.
Proof. intros HE Hiv H. now rewrite !(KuzStreamProofs.ctr_block _ k E), H by assumption. Qed.

Example C65_example :
  mem [1; 2; 3; 4] 0 = mem [1; 2; 7; 4] 0 /\ mem [1; 2; 7; 4] 1 = Ok (xor_pair (3, 4) (4, 0)) /\
  mem_ctr [1; 2; 3; 4] 9 0 = mem_ctr [1; 2; 7; 4] 9 0.
Proof.
  split; [reflexivity|]. split; [reflexivity|].
  apply (C65_position (ItMemory_ops (Some [1; 2; 3; 4])) (ItMemory_ops (Some [1; 2; 7; 4])) ukey _ 9
    (StMemory_iter true [1; 2; 3; 4]) (StMemory_iter true [1; 2; 7; 4]) 0 ukey_enciphers); reflexivity.
Qed.

(** ** C66 *)

Theorem C66_imit {I} (ops : iter_ops I) (k : kkey) (m : mode) (e : exn) (p : res (option I)) (n fuel : nat) :
  fails_at ops p n e -> (n < fuel)%nat -> KImit fuel m ops p k = Throw e.
Proof. apply kimit_fails. Qed.

(** Counter mode fails where the stream below fails, and nowhere else. *)
Theorem C66_ctr {I} (ops : iter_ops I) (k : kkey) (E : N -> N) (iv : N) (p : res (option I)) (n : nat) (e : exn) :
  kuz_enciphers k E -> iv < 2 ^ 64 ->
  (fails_at (ItCTR_ops ops k) (StCTR_iter p iv) n e <-> fails_at ops p n e).
Proof. apply ctr_fails. Qed.

(** A stream of two blocks whose third cannot be read. *)
Definition TornOps : iter_ops nat := {|
  it_value := fun i => if Nat.ltb i 2 then Ok (N.of_nat i, 7) else Throw (RuntimeError "torn");
  it_last := fun i => Ok false;
  it_size := fun i => Ok 16;
  it_next := fun i => Ok (Some (Datatypes.S i)) |}.

Example C66_example :
  fails_at TornOps (Ok (Some 0%nat)) 2 (RuntimeError "torn") /\
  KImit 10 ISO (ItCTR_ops TornOps ukey) (StCTR_iter (Ok (Some 0%nat)) 9) ukey = Throw (RuntimeError "torn").
Proof.
  assert (F : fails_at TornOps (Ok (Some 0%nat)) 2 (RuntimeError "torn")).
  { split.
    - intros [|[|i]] H; [split; [eexists|]; reflexivity..|lia].
    - right. left. exists false. split; reflexivity. }
  split; [exact F|]. apply (C66_imit (ItCTR_ops TornOps ukey) ukey ISO (RuntimeError "torn") (StCTR_iter (Ok (Some 0%nat)) 9) 2); [|lia].
  apply (C66_ctr TornOps ukey (Kuz_E (5 * 2 ^ 128 + 6)) 9 (Ok (Some 0%nat)) 2);
    [exact ukey_enciphers|reflexivity|exact F].
Qed.

Print Assumptions C55_reuse.
Print Assumptions C65_same_bits.
Print Assumptions C65_position.
Print Assumptions C66_imit.
Print Assumptions C66_ctr.
