(** Properties of goost/kuznyechik: C23 (kuznyechik part), C26-C40, C43. *)
From Verif Require Import Base Text MagmaModel KuzModel SpecText SpecMagma SpecModes SpecKuz SpecIter SpecMac.
From Verif Require Import Lib BlockProofs KuzProofs KuzStreamProofs KuzFacts TestVectors.
From Coq Require Import Lia.
Local Open Scope N_scope.

(** Numbers below 2^128 and pairs of 64-bit halves are the same thing. *)
Theorem kpair_bijective lo hi : lo < 2 ^ 64 -> hi < 2 ^ 64 ->
  exists x, x < 2 ^ 128 /\ kpair x = (lo, hi) /\ forall y, kpair y = (lo, hi) -> y = x.
Proof.
  intros Hl Hh. destruct (kpair_of lo hi Hl Hh) as (x & Hx & E). exists x.
  split; [exact Hx|]. split; [now symmetry|]. intros y Hy. apply kpair_inj. congruence.
Qed.

(** ** C26 *)

Theorem C26_encryption (s : str) (x : N) :
  Forall hex_digit s -> List.length s = 64%nat -> x < 2 ^ 128 ->
  exists k, Key_string s = Ok k /\ KEncrypted (Ok (kpair x)) k = Ok (kpair (Kuz_E (number s) x)).
Proof.
  intros Hs Hl Hx. destruct (string_enciphers s Hs Hl) as (k & Hk & HE). exists k.
  split; [exact Hk|]. now apply HE.
Qed.

(** The same for key data given as two blocks (K = high || low). *)
Theorem C26_key_blocks (high low x : N) :
  high < 2 ^ 128 -> low < 2 ^ 128 -> x < 2 ^ 128 ->
  KEncrypted (Ok (kpair x)) (Key_blocks (Ok (kpair high)) (Ok (kpair low))) =
  Ok (kpair (Kuz_E (high * 2 ^ 128 + low) x)).
Proof. apply KEncrypted_blocks. Qed.

Example C26_example :
  Forall hex_digit kuz_key_str /\ List.length kuz_key_str = 64%nat /\
  KEncrypted (Ok (kpair 0x1122334455667700ffeeddccbbaa9988)) kuz_key =
  Ok (kpair 0x7f679d90bebc24305a468d42b9d4edcd).
Proof.
  split; [|split; [reflexivity|rewrite kuz_key_eq; vm_compute; reflexivity]].
  unfold kuz_key_str, str_of. cbn. repeat (constructor; [discriminate|]). constructor.
Qed.

(** ** C27 *)

(** Every block is the encryption of exactly one block. *)
Theorem C27_permutation (high low y : N) :
  high < 2 ^ 128 -> low < 2 ^ 128 -> y < 2 ^ 128 ->
  let k := Key_blocks (Ok (kpair high)) (Ok (kpair low)) in
  exists x, x < 2 ^ 128 /\ KEncrypted (Ok (kpair x)) k = Ok (kpair y) /\
    forall x', x' < 2 ^ 128 -> KEncrypted (Ok (kpair x')) k = Ok (kpair y) -> x' = x.
Proof. apply permutation. Qed.

Theorem C27_injective (K x y : N) : K < 2 ^ 256 -> x < 2 ^ 128 -> y < 2 ^ 128 ->
  Kuz_E K x = Kuz_E K y -> x = y.
Proof. apply Kuz_E_inj. Qed.

(** A key whose data cannot be read never returns an encryption, right or wrong. *)
Theorem C27_unreadable_key (k : kkey) (b : kblock) v :
  KEncrypted b k = Ok v -> exists high low, k1 k = Ok high /\ k2 k = Ok low.
Proof. apply Key_encrypt_ok_inv. Qed.

Example C27_example :
  KEncrypted (Ok (kpair 1)) kuz_key <> KEncrypted (Ok (kpair 2)) kuz_key.
Proof. rewrite !kuz_key_eq. vm_compute. discriminate. Qed.

(** ** C28 *)

Theorem C28_round_keys (high low : N) : high < 2 ^ 128 -> low < 2 ^ 128 ->
  let k := Key_blocks (Ok (kpair high)) (Ok (kpair low)) in
  [k1 k; k2 k; k3 k; k4 k; k5 k; k6 k; k7 k; k8 k; k9 k; k10 k] =
  map (fun x => Ok (kpair x)) (round_keys (high * 2 ^ 128 + low)).
Proof. apply Key_round_keys. Qed.

(** BlkIterKey: the left half after the steps c1..c2. *)
Theorem C28_iter_key (ka kb : N) (c1 c2 : Z) :
  ka < 2 ^ 128 -> kb < 2 ^ 128 -> (0 <= c1)%Z -> (c1 - 1 <= c2)%Z -> (c2 < 2 ^ 31 - 1)%Z ->
  KIterKey (Ok (kpair ka)) (Ok (kpair kb)) c1 c2 =
  Ok (kpair (fst (steps (Z.to_nat (c2 - c1 + 1)) (Z.to_N c1) (ka, kb)))).
Proof. apply KIterKey_steps. Qed.

(** The remaining ranges: nothing to do, and the largest int. *)
Theorem C28_iter_key_empty (ka kb : kblock) (c1 c2 : Z) :
  (c2 < c1)%Z -> KIterKey ka kb c1 c2 = ka.
Proof. apply KIterKey_empty. Qed.

Theorem C28_iter_key_overflow (ka kb : kblock) (c1 : Z) :
  (c1 <= 2 ^ 31 - 1)%Z -> KIterKey ka kb c1 (2 ^ 31 - 1) = Undef IntOverflow.
Proof. apply KIterKey_overflow. Qed.

Example C28_example :
  n128 (KIterKey (k1 kuz_key) (k2 kuz_key) 1 8) = Ok 0xdb31485315694343228d6aef8cc78c44 /\
  n128 (KIterKey (k1 kuz_key) (k2 kuz_key) 3 2) = Ok 0x8899aabbccddeeff0011223344556677.
Proof. rewrite kuz_key_eq. split; vm_compute; reflexivity. Qed.

(** ** C29 *)

(** The byte product is the product in GF(2)[x]/(x^8+x^7+x^6+x+1), and nothing else is. *)
Theorem C29_gmul (a b : N) : a < 256 -> b < 256 ->
  forall c, field_product a b c <-> c = gmul a b.
Proof. apply gmul_field_product. Qed.

Theorem C29_BlkR (x : N) : x < 2 ^ 128 -> KR (Ok (kpair x)) = Ok (kpair (R x)).
Proof. apply KR_kpair. Qed.

Theorem C29_BlkL (x : N) : x < 2 ^ 128 -> KL (Ok (kpair x)) = Ok (kpair (L x)).
Proof. apply KL_kpair. Qed.

Theorem C29_BlkR_linear (x y : N) : x < 2 ^ 128 -> y < 2 ^ 128 ->
  KR (KXored (Ok (kpair x)) (Ok (kpair y))) = KXored (KR (Ok (kpair x))) (KR (Ok (kpair y))).
Proof. apply KR_linear. Qed.

Theorem C29_BlkL_linear (x y : N) : x < 2 ^ 128 -> y < 2 ^ 128 ->
  KL (KXored (Ok (kpair x)) (Ok (kpair y))) = KXored (KL (Ok (kpair x))) (KL (Ok (kpair y))).
Proof. apply KL_linear. Qed.

Theorem C29_BlkR_bijective (y : N) : y < 2 ^ 128 ->
  exists x, x < 2 ^ 128 /\ KR (Ok (kpair x)) = Ok (kpair y) /\
    forall x', x' < 2 ^ 128 -> KR (Ok (kpair x')) = Ok (kpair y) -> x' = x.
Proof. apply KR_bijective. Qed.

Theorem C29_BlkL_bijective (y : N) : y < 2 ^ 128 ->
  exists x, x < 2 ^ 128 /\ KL (Ok (kpair x)) = Ok (kpair y) /\
    forall x', x' < 2 ^ 128 -> KL (Ok (kpair x')) = Ok (kpair y) -> x' = x.
Proof. apply KL_bijective. Qed.

Example C29_example : gmul 0x94 0x94 = 0xa4 /\ field_product 0x94 0x94 0xa4.
Proof.
  split; [vm_compute; reflexivity|]. apply C29_gmul; vm_compute; reflexivity.
Qed.

(** ** C30 *)

Theorem C30_increment (x : N) : x < 2 ^ 128 ->
  KIncremented (Ok (kpair x)) = Ok (kpair ((x + 1) mod 2 ^ 128)).
Proof. apply KIncremented_kpair. Qed.

(** The counter held by the iterator after [n] calls of next(), over any stream. *)
Theorem C30_counter {I} (ops : iter_ops I) (k : kkey) (iv : N) (p : res (option I)) (n : nat) c :
  iv < 2 ^ 64 ->
  (q <- StCTR_iter p iv ;; advance (ItCTR_ops ops k) n q) = Ok (Some c) ->
  ic_ctr c = Ok (kpair ((iv * 2 ^ 64 + N.of_nat n) mod 2 ^ 128)).
Proof. apply ctr_counter. Qed.

Theorem C30_no_repeat {I J} (ops : iter_ops I) (ops' : iter_ops J) (k k' : kkey) (iv : N)
    (p : res (option I)) (q : res (option J)) (n m : nat) c d :
  iv < 2 ^ 64 -> N.of_nat n < 2 ^ 128 -> N.of_nat m < 2 ^ 128 ->
  (q <- StCTR_iter p iv ;; advance (ItCTR_ops ops k) n q) = Ok (Some c) ->
  (q <- StCTR_iter q iv ;; advance (ItCTR_ops ops' k') m q) = Ok (Some d) ->
  ic_ctr c = ic_ctr d -> n = m.
Proof. apply counters_distinct. Qed.

Theorem C30_no_repeat_across_iv {I J} (ops : iter_ops I) (ops' : iter_ops J) (k k' : kkey) (iv jv : N)
    (p : res (option I)) (q : res (option J)) (n m : nat) c d :
  iv < 2 ^ 64 -> jv < 2 ^ 64 -> N.of_nat n < 2 ^ 64 -> N.of_nat m < 2 ^ 64 ->
  (q <- StCTR_iter p iv ;; advance (ItCTR_ops ops k) n q) = Ok (Some c) ->
  (q <- StCTR_iter q jv ;; advance (ItCTR_ops ops' k') m q) = Ok (Some d) ->
  ic_ctr c = ic_ctr d -> iv = jv /\ n = m.
Proof. apply counters_distinct_iv. Qed.

(** The carry into the upper half, and the wrap-around. *)
Example C30_example :
  KIncremented (Ok (kpair (2 ^ 64 - 1))) = Ok (kpair (2 ^ 64)) /\
  KIncremented (Ok (kpair (2 ^ 128 - 1))) = Ok (kpair 0).
Proof. split; vm_compute; reflexivity. Qed.

(** ** C31 *)

Theorem C31_block {I} (ops : iter_ops I) (k : kkey) (E : N -> N) (iv : N) (n : nat) (p : res (option I)) :
  kuz_enciphers k E -> iv < 2 ^ 64 ->
  block_at (ItCTR_ops ops k) (StCTR_iter p iv) n =
  (v <- block_at ops p n ;;
   Ok (xor_pair v (kpair (E ((iv * 2 ^ 64 + N.of_nat n) mod 2 ^ 128))))).
Proof. apply ctr_block. Qed.

Theorem C31_shape {I} (ops : iter_ops I) (k : kkey) (iv : N) (n : nat) (p : res (option I)) :
  iv < 2 ^ 64 ->
  last_at (ItCTR_ops ops k) (StCTR_iter p iv) n = last_at ops p n /\
  size_at (ItCTR_ops ops k) (StCTR_iter p iv) n = size_at ops p n.
Proof. split; [now apply ctr_last|now apply ctr_size]. Qed.

Theorem C31_self_inverse {I} (ops : iter_ops I) (k : kkey) (E : N -> N) (iv : N) (n : nat)
    (p : res (option I)) :
  kuz_enciphers k E -> iv < 2 ^ 64 ->
  block_at (ItCTR_ops (ItCTR_ops ops k) k) (StCTR_iter (StCTR_iter p iv) iv) n = block_at ops p n.
Proof. apply ctr_twice. Qed.

(** A finite stream of blocks becomes its counter-mode encryption. *)
Theorem C31_ctr_mode {I} (ops : iter_ops I) (k : kkey) (E : N -> N) (iv : N) (p : res (option I)) ps :
  kuz_enciphers k E -> iv < 2 ^ 64 -> presents ops p (map kpair ps) ->
  presents (ItCTR_ops ops k) (StCTR_iter p iv) (map kpair (ctr E 128 iv ps)).
Proof. apply ctr_presents. Qed.

(** [presents] is what the usual loop over the stream collects. *)
Theorem C31_presents_loop {I} (ops : iter_ops I) (vs : list (N * N)) (p : option I) (fuel : nat) :
  presents ops (Ok p) vs -> (List.length vs <= fuel)%nat -> stream_values fuel ops p = Ok vs.
Proof. apply stream_values_presents. Qed.

(** Which keys meet the hypothesis. *)
Theorem C31_keys (high low : N) : high < 2 ^ 128 -> low < 2 ^ 128 ->
  kuz_enciphers (Key_blocks (Ok (kpair high)) (Ok (kpair low))) (Kuz_E (high * 2 ^ 128 + low)).
Proof. apply blocks_encipher. Qed.

Theorem C31_hex_keys (s : str) : Forall hex_digit s -> List.length s = 64%nat ->
  exists k, Key_string s = Ok k /\ kuz_enciphers k (Kuz_E (number s)).
Proof. apply string_enciphers. Qed.

Example C31_example :
  let m := ItMemory_ops (Some kuz_data) in
  let p := StMemory_iter true kuz_data in
  (q <- StCTR_iter (StCTR_iter p 5) 5 ;; stream_values 10 (ItCTR_ops (ItCTR_ops m kuz_key) kuz_key) q)
    = (q <- p ;; stream_values 10 m q) /\
  (q <- p ;; stream_values 10 m q) = Ok (word_pairs kuz_data) /\ List.length kuz_data = 8%nat.
Proof. cbv zeta. rewrite kuz_key_eq. split; [|split]; vm_compute; reflexivity. Qed.

(** ** C32 *)

(** The keystream block at a position is what was xored onto the data there. *)
Theorem C32_one_stream {I J} (ops : iter_ops I) (ops' : iter_ops J) (k : kkey) (K iv : N)
    (p : res (option I)) (q : res (option J)) (n m : nat) v w c d :
  K < 2 ^ 256 -> kuz_enciphers k (Kuz_E K) -> iv < 2 ^ 64 ->
  N.of_nat n < 2 ^ 128 -> N.of_nat m < 2 ^ 128 -> n <> m ->
  block_at ops p n = Ok v -> block_at (ItCTR_ops ops k) (StCTR_iter p iv) n = Ok c ->
  block_at ops' q m = Ok w -> block_at (ItCTR_ops ops' k) (StCTR_iter q iv) m = Ok d ->
  xor_pair v c <> xor_pair w d.
Proof. apply keystream_one. Qed.

Theorem C32_across_iv {I J} (ops : iter_ops I) (ops' : iter_ops J) (k : kkey) (K iv jv : N)
    (p : res (option I)) (q : res (option J)) (n m : nat) v w c d :
  K < 2 ^ 256 -> kuz_enciphers k (Kuz_E K) -> iv < 2 ^ 64 -> jv < 2 ^ 64 ->
  N.of_nat n < 2 ^ 64 -> N.of_nat m < 2 ^ 64 -> iv <> jv ->
  block_at ops p n = Ok v -> block_at (ItCTR_ops ops k) (StCTR_iter p iv) n = Ok c ->
  block_at ops' q m = Ok w -> block_at (ItCTR_ops ops' k) (StCTR_iter q jv) m = Ok d ->
  xor_pair v c <> xor_pair w d.
Proof. apply keystream_iv. Qed.

(** Encrypting zeros shows the keystream. *)
Example C32_example :
  let zeros := [0; 0; 0; 0] in
  let c := ItCTR_ops (ItMemory_ops (Some zeros)) kuz_key in
  block_at c (StCTR_iter (StMemory_iter true zeros) 7) 0 <>
  block_at c (StCTR_iter (StMemory_iter true zeros) 7) 1.
Proof. rewrite !kuz_key_eq. vm_compute. discriminate. Qed.

(** ** C33 *)

(** A std::vector of n words occupies 8 n bytes, hence the bound. *)
Theorem C33_enumeration (data : list N) (n : N) (i : nat) :
  8 * len data < 2 ^ 64 -> len data = 2 * n -> N.of_nat i < n ->
  let ops := ItMemory_ops (Some data) in
  let p := StMemory_iter true data in
  block_at ops p i = Ok (nth (2 * i) data 0, nth (2 * i + 1) data 0) /\
  last_at ops p i = Ok (N.of_nat i + 1 =? n) /\
  size_at ops p i = Ok 16.
Proof. apply mem_enumeration. Qed.

(** ... exactly n of them, then null. *)
Theorem C33_end (data : list N) (n : nat) :
  8 * len data < 2 ^ 64 -> len data = 2 * N.of_nat n ->
  (p <- StMemory_iter true data ;; advance (ItMemory_ops (Some data)) n p) = Ok None /\
  forall i, (i < n)%nat -> exists it,
    (p <- StMemory_iter true data ;; advance (ItMemory_ops (Some data)) i p) = Ok (Some it).
Proof. apply mem_exactly. Qed.

Theorem C33_presents (data : list N) :
  8 * len data < 2 ^ 64 -> data <> [] -> len data mod 2 = 0 ->
  presents (ItMemory_ops (Some data)) (StMemory_iter true data) (word_pairs data).
Proof. apply mem_presents. Qed.

Example C33_example :
  8 * len kuz_data < 2 ^ 64 /\ len kuz_data = 2 * 4 /\
  last_at (ItMemory_ops (Some kuz_data)) (StMemory_iter true kuz_data) 2 = Ok false /\
  last_at (ItMemory_ops (Some kuz_data)) (StMemory_iter true kuz_data) 3 = Ok true.
Proof. repeat split. Qed.

(** ** C34: refuted *)

(** Every vector with an odd number of words: reading it, and authenticating it, runs
    out of bounds. *)
Theorem C34_refuted_odd (m : mode) (k : kkey) (data : list N) (fuel : nat) :
  8 * len data < 2 ^ 64 -> len data mod 2 = 1 -> len data <= N.of_nat fuel ->
  (p <- StMemory_iter true data ;; stream_values fuel (ItMemory_ops (Some data)) p)
    = Undef OutOfBounds /\
  KImit fuel m (ItMemory_ops (Some data)) (StMemory_iter true data) k = Undef OutOfBounds.
Proof. intros Hs Ho Hf. split; [now apply read_odd|now apply imit_odd]. Qed.

(** The empty vector: iter() is null and Imit dereferences it. *)
Theorem C34_refuted_empty (m : mode) (k : kkey) (fuel : nat) :
  StMemory_iter true [] = Ok None /\
  KImit (Datatypes.S fuel) m (ItMemory_ops (Some [])) (StMemory_iter true []) k = Undef NullDeref.
Proof. split; [exact mem_empty|apply imit_empty]. Qed.

(** An StMemory that is not owned by a shared_ptr: iter() throws (defined behaviour). *)
Theorem C34_not_shared (data : list N) :
  data <> [] -> StMemory_iter false data = Throw BadWeakPtr.
Proof. apply mem_not_shared. Qed.

(** What does hold: vectors of whole blocks are safe (C33, C35). *)
Theorem C34_whole_blocks_partial (m : mode) (k : kkey) (E : N -> N) (data : list N) (fuel : nat) :
  kuz_enciphers k E -> Forall u64 data ->
  8 * len data < 2 ^ 64 -> data <> [] -> len data mod 2 = 0 -> len data <= N.of_nat fuel ->
  exists t, KImit fuel m (ItMemory_ops (Some data)) (StMemory_iter true data) k = Ok t.
Proof. apply mem_imit_defined. Qed.

Example C34_example :
  KImit 9 ISO (ItMemory_ops (Some [1; 2; 3])) (StMemory_iter true [1; 2; 3]) kuz_key = Undef OutOfBounds.
Proof. rewrite !kuz_key_eq. vm_compute. reflexivity. Qed.

(** ** C35 *)

Theorem C35_mac {I} (ops : iter_ops I) (k : kkey) (E : N -> N) (m : mode) (ps : list N)
    (p : res (option I)) (fuel : nat) (sz : N) :
  kuz_enciphers k E -> Forall (fun x => x < 2 ^ 128) ps ->
  presents ops p (map kpair ps) -> size_at ops p (List.length ps - 1) = Ok sz ->
  (List.length ps <= fuel)%nat ->
  KImit fuel m ops p k =
  Ok (kpair (cbc_mac E (if sz =? 16 then K1 E 128 0x87 else K2 E 128 0x87) 0 ps)).
Proof. intros HE. now apply kimit_ok. Qed.

(** For the streams of the library: memory, and memory encrypted with another key. *)
Theorem C35_mac_of_memory (k : kkey) (E : N -> N) (m : mode) (data : list N) (fuel : nat) :
  kuz_enciphers k E -> Forall u64 data ->
  8 * len data < 2 ^ 64 -> data <> [] -> len data mod 2 = 0 -> len data <= N.of_nat fuel ->
  KImit fuel m (ItMemory_ops (Some data)) (StMemory_iter true data) k =
  Ok (kpair (mac E 128 0x87 (map (fun v => snd v * 2 ^ 64 + fst v) (word_pairs data)))).
Proof. apply mem_imit. Qed.

Theorem C35_mac_of_ciphertext (k k' : kkey) (E E' : N -> N) (m : mode) (iv : N) (data : list N) (fuel : nat) :
  kuz_enciphers k E -> kuz_enciphers k' E' -> iv < 2 ^ 64 -> Forall u64 data ->
  8 * len data < 2 ^ 64 -> data <> [] -> len data mod 2 = 0 -> len data <= N.of_nat fuel ->
  KImit fuel m (ItCTR_ops (ItMemory_ops (Some data)) k') (StCTR_iter (StMemory_iter true data) iv) k =
  Ok (kpair (mac E 128 0x87
               (ctr E' 128 iv (map (fun v => snd v * 2 ^ 64 + fst v) (word_pairs data))))).
Proof. apply ctr_mem_imit. Qed.

(** An iterator type whose last block reports another size. *)
Definition ShortOps : iter_ops (list (N * N)) := {|
  it_value := fun l => match l with v :: _ => Ok v | [] => Undef OutOfBounds end;
  it_last := fun l => Ok (match l with [_] => true | _ => false end);
  it_size := fun l => Ok (match l with [_] => 9 | _ => 16 end);
  it_next := fun l => Ok (match l with _ :: (_ :: _) as r => Some (tl l) | _ => None end) |}.

Example C35_example :
  (* GOST R 34.13-2015, A.1.6, upper 64 bits *)
  ('(_, hi) <- KImit 10 ISO (ItMemory_ops (Some kuz_data)) (StMemory_iter true kuz_data) kuz_key ;; Ok hi)
    = Ok 0x336f4d296059fbe3 /\
  presents ShortOps (Ok (Some [(1, 2); (3, 4)])) [(1, 2); (3, 4)] /\
  size_at ShortOps (Ok (Some [(1, 2); (3, 4)])) 1 = Ok 9.
Proof.
  split; [rewrite kuz_key_eq; vm_compute; reflexivity|]. split; [|reflexivity]. split; [discriminate|].
  intros [|[|n]] H; [split; reflexivity..|]. cbn in H. lia.
Qed.

(** ** C23, kuznyechik part *)

Theorem C23_kuznyechik {I J} (ops : iter_ops I) (ops' : iter_ops J) (k : kkey) (K : N) (m : mode)
    (ps qs : list N) (p : res (option I)) (q : res (option J)) (fuel fuel' : nat) (sz : N) :
  K < 2 ^ 256 -> kuz_enciphers k (Kuz_E K) ->
  Forall (fun x => x < 2 ^ 128) ps -> Forall (fun x => x < 2 ^ 128) qs -> differ_once ps qs ->
  presents ops p (map kpair ps) -> presents ops' q (map kpair qs) ->
  size_at ops p (List.length ps - 1) = Ok sz -> size_at ops' q (List.length qs - 1) = Ok sz ->
  (List.length ps <= fuel)%nat -> (List.length qs <= fuel')%nat ->
  exists a b, KImit fuel m ops p k = Ok a /\ KImit fuel' m ops' q k = Ok b /\ a <> b.
Proof. apply kuz_imit_detects. Qed.

Example C23_kuznyechik_example :
  KImit 9 ISO (ItMemory_ops (Some [1; 2; 3; 4])) (StMemory_iter true [1; 2; 3; 4]) kuz_key <>
  KImit 9 ISO (ItMemory_ops (Some [1; 7; 3; 4])) (StMemory_iter true [1; 7; 3; 4]) kuz_key.
Proof. rewrite !kuz_key_eq. vm_compute. discriminate. Qed.

(** ** C36: refuted *)

(** After the last owner of the StMemory has released it, every iterator into it, and
    every counter-mode iterator over such an iterator, fails on next() and last(). *)
Theorem C36_refuted (i : it_memory) (k : kkey) (ctr : kblock) :
  it_next (ItMemory_ops None) i = Undef NullDeref /\
  it_last (ItMemory_ops None) i = Undef NullDeref /\
  it_next (ItCTR_ops (ItMemory_ops None) k) (ItCTR (Some i) ctr) = Undef NullDeref /\
  it_last (ItCTR_ops (ItMemory_ops None) k) (ItCTR (Some i) ctr) = Undef NullDeref.
Proof. repeat split. Qed.

(** What does hold: value() and size() do not depend on the stream being alive. *)
Theorem C36_value_partial (s s' : option (list N)) (i : it_memory) (k : kkey) (ctr : kblock) :
  it_value (ItMemory_ops s) i = it_value (ItMemory_ops s') i /\
  it_size (ItMemory_ops s) i = it_size (ItMemory_ops s') i /\
  it_value (ItCTR_ops (ItMemory_ops s) k) (ItCTR (Some i) ctr) =
  it_value (ItCTR_ops (ItMemory_ops s') k) (ItCTR (Some i) ctr).
Proof. repeat split. Qed.

(** ** C37: refuted for StCTREncrypted, true of StMemory *)

Theorem C37_refuted {I} (ops : iter_ops I) (k : kkey) (c : it_ctr I) :
  it_next (ItCTR_ops ops k) c <> Ok None.
Proof. apply ctr_never_null. Qed.

(** Where the underlying stream says null, the loop over next() goes on with an iterator
    whose block is undefined. *)
Theorem C37_refuted_loop {I} (ops : iter_ops I) (k : kkey) (iv : N) (p : res (option I)) (n : nat) :
  iv < 2 ^ 64 -> (p <- p ;; advance ops n p) = Ok None ->
  exists c, (q <- StCTR_iter p iv ;; advance (ItCTR_ops ops k) n q) = Ok (Some c) /\
    it_value (ItCTR_ops ops k) c = Undef NullDeref /\ it_last (ItCTR_ops ops k) c = Undef NullDeref.
Proof. apply ctr_past_end. Qed.

Theorem C37_StMemory_partial (data : list N) (n : nat) :
  8 * len data < 2 ^ 64 -> len data = 2 * N.of_nat n ->
  (p <- StMemory_iter true data ;; advance (ItMemory_ops (Some data)) n p) = Ok None /\
  forall i, (i < n)%nat -> exists it,
    (p <- StMemory_iter true data ;; advance (ItMemory_ops (Some data)) i p) = Ok (Some it).
Proof. apply mem_exactly. Qed.

(** ** C38 *)

Theorem C38_magma (s : str) : Forall hex_digit s -> (List.length s <= 16)%nat ->
  BlkString s = Ok (number s mod 2 ^ 32, number s / 2 ^ 32).
Proof. apply BlkString_hex. Qed.

Theorem C38_kuznyechik (s : str) : Forall hex_digit s -> (List.length s <= 32)%nat ->
  KString s = Ok (number s mod 2 ^ 64, number s / 2 ^ 64).
Proof. apply KString_hex. Qed.

Example C38_example :
  KString [] = Ok (0, 0) /\ number (str_of "1Ff") = 511 /\
  BlkString (str_of "1Ff00000000") = Ok (0, 511 * 2 ^ 0) /\
  KString (str_of "1") = Ok (1, 0) /\ number (str_of "1Ff00000000") = 511 * 2 ^ 32.
Proof. repeat split. Qed.

(** ** C39: refuted *)

(** Everything behind the block width is ignored. *)
Theorem C39_refuted_too_long (s t : str) :
  (List.length s = 16%nat -> BlkString (s ++ t) = BlkString s) /\
  (List.length s = 32%nat -> KString (s ++ t) = KString s).
Proof. split; [apply BlkString_prefix|apply KString_prefix]. Qed.

(** In each half, everything behind the leading digits is ignored ([stops]: it begins
    with a character that is not a digit; the pieces "0x..." are read differently). *)
Theorem C39_refuted_garbage (c e : N) (d f g h : str) :
  Forall hex_digit (c :: d) -> Forall hex_digit (e :: f) -> stops g -> stops h ->
  ~ (c = 48 /\ d = [] /\ exists r, g = 120 :: r \/ g = 88 :: r) ->
  ~ (e = 48 /\ f = [] /\ exists r, h = 120 :: r \/ h = 88 :: r) ->
  List.length ((c :: d) ++ g) = 16%nat -> List.length ((e :: f) ++ h) = 16%nat ->
  KString (((c :: d) ++ g) ++ (e :: f) ++ h) = Ok (number (e :: f), number (c :: d)).
Proof. apply KString_garbage. Qed.

(** What does hold: a half that begins with neither a digit nor space nor sign is
    rejected, for both block types. *)
Theorem C39_rejected_partial (c : N) (r hi : str) :
  ~ hex_digit c -> isspace c = false -> c <> 43 -> c <> 45 ->
  (List.length hi = 8%nat -> List.length (c :: r) = 8%nat ->
     BlkString (hi ++ c :: r) = Throw InvalidArgument) /\
  (List.length hi = 16%nat -> List.length (c :: r) = 16%nat ->
     KString (hi ++ c :: r) = Throw InvalidArgument).
Proof. apply literal_rejected. Qed.

Example C39_example :
  KString (str_of "1;;;;;;;;;;;;;;;2 is not a block") = Ok (2, 1) /\
  KString (str_of "-1") = Ok (0, 0) /\
  BlkString (str_of "0x0000120x000034and more") = Ok (0x34, 0x12) /\
  BlkString (str_of "zz") = Ok (0, 0) /\
  BlkString (str_of "00000000zz000000") = Throw InvalidArgument.
Proof. repeat split; vm_compute; reflexivity. Qed.

(** ** C40: the second half is refuted *)

Theorem C40_halves (s : str) : Forall hex_digit s -> List.length s = 64%nat ->
  Key_string s = Ok (Key_blocks (Ok (kpair (number (firstn 32 s)))) (Ok (kpair (number (skipn 32 s))))).
Proof. intros Hs Hl. apply Key_string_medium; [exact Hs|lia]. Qed.

(** Between 32 and 63 digits are accepted, the second half padded with zeros ... *)
Theorem C40_refuted_short (s : str) : Forall hex_digit s -> (32 <= List.length s < 64)%nat ->
  exists k, Key_string s = Ok k /\ k1 k = Ok (kpair (number (firstn 32 s))) /\
            k2 k = Ok (kpair (number (skipn 32 s))).
Proof. apply Key_string_accepted. Qed.

(** ... and whatever follows the 64th character is ignored. *)
Theorem C40_refuted_long (s t : str) : List.length s = 64%nat -> Key_string (s ++ t) = Key_string s.
Proof. apply Key_string_long. Qed.

(** What does hold: fewer than 32 characters are rejected. *)
Theorem C40_rejected_partial (s : str) : (List.length s < 32)%nat -> Key_string s = Throw OutOfRange.
Proof. apply Key_string_short. Qed.

Example C40_example :
  exists k, Key_string (str_of "8899aabbccddeeff0011223344556677fe") = Ok k /\ k2 k = Ok (0xfe, 0).
Proof. eexists. split; reflexivity. Qed.

(** ** C43 *)

Theorem C43_shift (m : mode) (x : N) (n : Z) : x < 2 ^ 128 -> (1 <= n <= 63)%Z ->
  KShifted m (Ok (kpair x)) n = Ok (kpair ((x * 2 ^ Z.to_N n) mod 2 ^ 128)).
Proof. apply KShifted_kpair. Qed.

(** The range of defined behaviour is exactly that. *)
Theorem C43_undefined_outside (b : N * N) (n : Z) :
  ~ (1 <= n <= 63)%Z -> KShifted ISO (Ok b) n = Undef WideShift.
Proof. apply KShifted_undef. Qed.

Example C43_example :
  KShifted ISO (Ok (kpair 0x8000000000000001)) 1 = Ok (kpair 0x10000000000000002) /\
  KShifted ISO (Ok (kpair (2 ^ 127))) 1 = Ok (kpair 0).
Proof. split; vm_compute; reflexivity. Qed.

Print Assumptions kpair_bijective.
Print Assumptions C26_encryption.
Print Assumptions C26_key_blocks.
Print Assumptions C27_permutation.
Print Assumptions C27_injective.
Print Assumptions C27_unreadable_key.
Print Assumptions C28_round_keys.
Print Assumptions C28_iter_key.
Print Assumptions C28_iter_key_empty.
Print Assumptions C28_iter_key_overflow.
Print Assumptions C29_gmul.
Print Assumptions C29_BlkR.
Print Assumptions C29_BlkL.
Print Assumptions C29_BlkR_linear.
Print Assumptions C29_BlkL_linear.
Print Assumptions C29_BlkR_bijective.
Print Assumptions C29_BlkL_bijective.
Print Assumptions C30_increment.
Print Assumptions C30_counter.
Print Assumptions C30_no_repeat.
Print Assumptions C30_no_repeat_across_iv.
Print Assumptions C31_block.
Print Assumptions C31_shape.
Print Assumptions C31_self_inverse.
Print Assumptions C31_ctr_mode.
Print Assumptions C31_presents_loop.
Print Assumptions C31_keys.
Print Assumptions C31_hex_keys.
Print Assumptions C32_one_stream.
Print Assumptions C32_across_iv.
Print Assumptions C33_enumeration.
Print Assumptions C33_end.
Print Assumptions C33_presents.
Print Assumptions C34_refuted_odd.
Print Assumptions C34_refuted_empty.
Print Assumptions C34_not_shared.
Print Assumptions C34_whole_blocks_partial.
Print Assumptions C35_mac.
Print Assumptions C35_mac_of_memory.
Print Assumptions C35_mac_of_ciphertext.
Print Assumptions C23_kuznyechik.
Print Assumptions C36_refuted.
Print Assumptions C36_value_partial.
Print Assumptions C37_refuted.
Print Assumptions C37_refuted_loop.
Print Assumptions C37_StMemory_partial.
Print Assumptions C38_magma.
Print Assumptions C38_kuznyechik.
Print Assumptions C39_refuted_too_long.
Print Assumptions C39_refuted_garbage.
Print Assumptions C39_rejected_partial.
Print Assumptions C40_halves.
Print Assumptions C40_refuted_short.
Print Assumptions C40_refuted_long.
Print Assumptions C40_rejected_partial.
Print Assumptions C43_shift.
Print Assumptions C43_undefined_outside.
