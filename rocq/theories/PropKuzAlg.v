(** Properties C103, C104 and C105 of goost/kuznyechik. *)
From Verif Require Import Base KuzModel SpecMagma SpecModes SpecKuz SpecIter.
From Verif Require Import Lib BlockProofs KuzProofs KuzStreamProofs KuzFacts KuzAlgProofs TestVectors.
From Coq Require Import Lia.
Local Open Scope N_scope.

(** ** C103 *)

(** Any two blocks are the round keys number 2 j + 1 and 2 j + 2 of exactly one key. *)
Theorem C103_any_pair (j : nat) (u v : N) d : (j < 5)%nat -> u < 2 ^ 128 -> v < 2 ^ 128 ->
  let pair k := nth j [(k1 k, k2 k); (k3 k, k4 k); (k5 k, k6 k); (k7 k, k8 k); (k9 k, k10 k)] d in
  exists a b, a < 2 ^ 128 /\ b < 2 ^ 128 /\
    pair (Key_blocks (Ok (kpair a)) (Ok (kpair b))) = (Ok (kpair u), Ok (kpair v)) /\
    forall a' b', a' < 2 ^ 128 -> b' < 2 ^ 128 ->
      pair (Key_blocks (Ok (kpair a')) (Ok (kpair b'))) = (Ok (kpair u), Ok (kpair v)) ->
      a' = a /\ b' = b.
Proof. exact (pair_is_key j u v d). Qed.

(** So two different keys differ in every one of the five pairs. *)
Theorem C103_different (a b a' b' : N) (j : nat) d :
  a < 2 ^ 128 -> b < 2 ^ 128 -> a' < 2 ^ 128 -> b' < 2 ^ 128 -> (j < 5)%nat ->
  let pair k := nth j [(k1 k, k2 k); (k3 k, k4 k); (k5 k, k6 k); (k7 k, k8 k); (k9 k, k10 k)] d in
  pair (Key_blocks (Ok (kpair a)) (Ok (kpair b))) = pair (Key_blocks (Ok (kpair a')) (Ok (kpair b'))) ->
  a = a' /\ b = b'.
Proof. exact (pair_determines a b a' b' j d). Qed.

(** The key of GOST R 34.12-2015 back from its last two round keys. *)
Example C103_example :
  unsteps 32 1 (0xbb44e25378c73123a5f32f73cdb6e517, 0x72e9dd7416bcf45b755dbaa88e4a4043) =
  (0x8899aabbccddeeff0011223344556677, 0xfedcba98765432100123456789abcdef).
Proof. vm_compute. reflexivity. Qed.

(** ** C104 *)

(** Two layers of counter mode, with keys and initial values of their own, can be put on
    in any order; *)
Theorem C104_commute {I} (ops : iter_ops I) (k k' : kkey) (E E' : N -> N) (iv iv' : N)
    (p : res (option I)) (n : nat) :
  kuz_enciphers k E -> kuz_enciphers k' E' -> iv < 2 ^ 64 -> iv' < 2 ^ 64 ->
  block_at (ItCTR_ops (ItCTR_ops ops k) k') (StCTR_iter (StCTR_iter p iv) iv') n =
  block_at (ItCTR_ops (ItCTR_ops ops k') k) (StCTR_iter (StCTR_iter p iv') iv) n.
Proof. intros. now apply (layers_commute ops k k' E E' iv iv'). Qed.

(** the lower one can be taken off while the upper one is on; *)
Theorem C104_removed {I} (ops : iter_ops I) (k k' : kkey) (E E' : N -> N) (iv iv' : N)
    (p : res (option I)) (n : nat) :
  kuz_enciphers k E -> kuz_enciphers k' E' -> iv < 2 ^ 64 -> iv' < 2 ^ 64 ->
  block_at (ItCTR_ops (ItCTR_ops (ItCTR_ops ops k) k') k)
    (StCTR_iter (StCTR_iter (StCTR_iter p iv) iv') iv) n =
  block_at (ItCTR_ops ops k') (StCTR_iter p iv') n.
Proof. intros. now apply (layers_removed ops k k' E E' iv iv'). Qed.

(** and last() and size() are those of the data, through both. *)
Theorem C104_shape {I} (ops : iter_ops I) (k k' : kkey) (iv iv' : N) (p : res (option I)) (n : nat) :
  iv < 2 ^ 64 -> iv' < 2 ^ 64 ->
  last_at (ItCTR_ops (ItCTR_ops ops k) k') (StCTR_iter (StCTR_iter p iv) iv') n = last_at ops p n /\
  size_at (ItCTR_ops (ItCTR_ops ops k) k') (StCTR_iter (StCTR_iter p iv) iv') n = size_at ops p n.
Proof. intros. now apply layers_last. Qed.

(** The MAC of a deciphered ciphertext is the MAC of the data. *)
Theorem C104_mac {I} (ops : iter_ops I) (k km : kkey) (E M : N -> N) (iv sz : N) m ps p fuel :
  kuz_enciphers k E -> kuz_enciphers km M -> iv < 2 ^ 64 ->
  Forall (fun x => x < 2 ^ 128) ps -> presents ops p (map kpair ps) ->
  size_at ops p (List.length ps - 1) = Ok sz -> (List.length ps <= fuel)%nat ->
  KImit fuel m (ItCTR_ops (ItCTR_ops ops k) k) (StCTR_iter (StCTR_iter p iv) iv) km =
  KImit fuel m ops p km.
Proof. exact (mac_of_deciphered ops k km E M iv sz m ps p fuel). Qed.

Example C104_example :
  let data := [1; 2; 3; 4] in
  let other := Key_blocks (Ok (kpair 5)) (Ok (kpair 6)) in
  let ops := ItMemory_ops (Some data) in
  let p := StMemory_iter true data in
  block_at (ItCTR_ops (ItCTR_ops ops kuz_key) other) (StCTR_iter (StCTR_iter p 7) 8) 1 =
  block_at (ItCTR_ops (ItCTR_ops ops other) kuz_key) (StCTR_iter (StCTR_iter p 8) 7) 1 /\
  block_at (ItCTR_ops (ItCTR_ops ops kuz_key) other) (StCTR_iter (StCTR_iter p 7) 8) 1 <>
  block_at (ItCTR_ops (ItCTR_ops ops kuz_key) other) (StCTR_iter (StCTR_iter p 8) 7) 1.
Proof. rewrite !kuz_key_eq. vm_compute. split; [reflexivity|discriminate]. Qed.

(** ** C105 *)

(** A block of ciphertext that is found at another position (blocks before it were lost
    or put in) is deciphered to something else than the block it was made from; *)
Theorem C105_moved {I J} (ops : iter_ops I) (ops' : iter_ops J) (k : kkey) (K iv : N)
    (p : res (option I)) (q : res (option J)) (n m : nat) v c d :
  K < 2 ^ 256 -> kuz_enciphers k (Kuz_E K) -> iv < 2 ^ 64 ->
  N.of_nat n < 2 ^ 128 -> N.of_nat m < 2 ^ 128 -> n <> m ->
  block_at ops p n = Ok v -> block_at (ItCTR_ops ops k) (StCTR_iter p iv) n = Ok c ->
  block_at ops' q m = Ok c -> block_at (ItCTR_ops ops' k) (StCTR_iter q iv) m = Ok d ->
  d <> v.
Proof.
  intros HK HE Hiv Hn Hm Hnm. apply (out_of_step ops ops' k K iv iv p q n m v c d); try assumption.
  intros H. apply Hnm. apply Nnat.Nat2N.inj. now apply (counter_inj iv).
Qed.

(** and with another initial value every block is wrong, at whatever position. *)
Theorem C105_wrong_iv {I J} (ops : iter_ops I) (ops' : iter_ops J) (k : kkey) (K iv jv : N)
    (p : res (option I)) (q : res (option J)) (n m : nat) v c d :
  K < 2 ^ 256 -> kuz_enciphers k (Kuz_E K) -> iv < 2 ^ 64 -> jv < 2 ^ 64 -> iv <> jv ->
  N.of_nat n < 2 ^ 64 -> N.of_nat m < 2 ^ 64 ->
  block_at ops p n = Ok v -> block_at (ItCTR_ops ops k) (StCTR_iter p iv) n = Ok c ->
  block_at ops' q m = Ok c -> block_at (ItCTR_ops ops' k) (StCTR_iter q jv) m = Ok d ->
  d <> v.
Proof.
  intros HK HE Hiv Hjv Hne Hn Hm. apply (out_of_step ops ops' k K iv jv p q n m v c d); try assumption.
  intros H. apply Hne. now apply (counter_iv_inj iv jv) in H.
Qed.

(** The first block of a two-block ciphertext is lost; what is left is deciphered. *)
Example C105_example :
  let data := [1; 2; 3; 4] in
  let c := block_at (ItCTR_ops (ItMemory_ops (Some data)) kuz_key) (StCTR_iter (StMemory_iter true data) 7) 1 in
  exists lo hi, c = Ok (lo, hi) /\
    let rest := [lo; hi] in
    block_at (ItCTR_ops (ItMemory_ops (Some rest)) kuz_key) (StCTR_iter (StMemory_iter true rest) 7) 0 <> Ok (3, 4) /\
    block_at (ItMemory_ops (Some data)) (StMemory_iter true data) 1 = Ok (3, 4).
Proof.
  rewrite !kuz_key_eq. cbv zeta.
  match goal with |- exists lo hi, ?c = _ /\ _ => let v := eval vm_compute in c in
    match v with Ok (?a, ?b) => exists a, b end end.
  split; [vm_compute; reflexivity|]. split; [vm_compute; discriminate|vm_compute; reflexivity].
Qed.

Print Assumptions C103_any_pair.
Print Assumptions C103_different.
Print Assumptions C104_commute.
Print Assumptions C104_removed.
Print Assumptions C104_shape.
Print Assumptions C104_mac.
Print Assumptions C105_moved.
Print Assumptions C105_wrong_iv.
