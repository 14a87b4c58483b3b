(** Properties of block objects that share mutable caches and of the depth to which
    their value() calls nest: C42, C50. *)
From Verif Require Import Base MagmaModel Streams KuzModel SpecMagma SpecModes SpecStreams SpecIter.
From Verif Require Import DeepModel SpecDeep DeepMagma DeepProofs DeepMagmaProofs TestVectors.
Local Open Scope N_scope.

(** ** C42 *)

(** Encryptions with any number of keys, in any order, of any blocks (each with its
    outcome, exceptions included): every call returns what KuzModel.v, which has no
    caches, computes. 840 nested calls of value() suffice. *)
Theorem C42_invisible {W} (m : mode) (kd : nat -> kblock * kblock) (calls : list (kblock * nat))
    (w : W) (d : nat) : (840 <= d)%nat ->
  fst (values m (fixed_data kd) d (map (fun c => BEncrypted (BFixed (fst c)) (snd c)) calls) (fresh w)) =
  map (fun c => KEncrypted (fst c) (Key_blocks (fst (kd (snd c))) (snd (kd (snd c))))) calls.
Proof. apply values_encrypted. Qed.

(** The same for key data made of any objects of the library, keys of earlier keys
    included, and for calls on any objects: every call returns what it would return if
    nothing had been cached before. *)
Theorem C42_as_if_fresh {W} (m : mode) (data : nat -> @blk W * @blk W) (os : list blk) :
  built_in_order data -> pure_data data -> Forall pure os ->
  exists d0, forall d w, (d0 <= d)%nat ->
  fst (values m data d os (fresh w)) = map (fun o => fst (value m data d o (fresh w))) os.
Proof. apply values_as_fresh. Qed.

(** No BlkCached object evaluates its block to a value twice: whatever the objects, including Block classes of
    the user that throw or misbehave, and for every stack depth. *)
Theorem C42_once {W} (m : mode) (data : nat -> @blk W * @blk W) (d : nat) (os : list blk) (w : W) :
  built_in_order data -> NoDup (st_log (snd (values m data d os (fresh w)))).
Proof. intros H. now apply (values_good m data H d os _ (fresh_good data w)). Qed.

(** ... and what a cache holds never changes. *)
Theorem C42_stable {W} (m : mode) (data : nat -> @blk W * @blk W) (d : nat) (os os' : list blk)
    (w : W) (n : nat) (v : N * N) :
  built_in_order data ->
  st_cache (snd (values m data d os (fresh w))) n = Some v ->
  st_cache (snd (values m data d os' (snd (values m data d os (fresh w))))) n = Some v.
Proof.
  intros H. destruct (values_good m data H d os _ (fresh_good data w)) as [G _].
  apply (values_good m data H d os' _ G).
Qed.

(** Three encryptions with the key of the standard: the first ciphertext of the standard
    comes out before and after something else was encrypted, and no round key is
    evaluated twice. *)
Definition ex_key (k : nat) : kblock * kblock :=
  (Ok (0x0011223344556677, 0x8899aabbccddeeff), Ok (0x0123456789abcdef, 0xfedcba9876543210)).

Lemma ex_data_order : built_in_order (@fixed_data unit ex_key).
Proof. intros k. split; exact I. Qed.

Example C42_example :
  let standard := Ok (0xffeeddccbbaa9988, 0x1122334455667700) in
  let calls := [(standard, 0%nat); (Ok (7, 7), 3%nat); (standard, 0%nat)] in
  let r := values ISO (fixed_data ex_key) 840
             (map (fun c => BEncrypted (BFixed (fst c)) (snd c)) calls) (fresh tt) in
  (nth 0 (fst r) OutOfFuel = Ok (0x5a468d42b9d4edcd, 0x7f679d90bebc2430) /\
   nth 2 (fst r) OutOfFuel = Ok (0x5a468d42b9d4edcd, 0x7f679d90bebc2430)) /\
  built_in_order (@fixed_data unit ex_key) /\ NoDup (st_log (snd r)).
Proof.
  intros standard calls r.
  assert (E : fst r = map (fun c => KEncrypted (fst c) (Key_blocks (fst (ex_key (snd c))) (snd (ex_key (snd c))))) calls)
    by (apply C42_invisible; apply Nat.le_refl).
  assert (V : KEncrypted standard (Key_blocks (fst (ex_key 0)) (snd (ex_key 0))) =
              Ok (0x5a468d42b9d4edcd, 0x7f679d90bebc2430)) by (cbn [ex_key fst snd]; rewrite kuz_key_blocks; vm_compute; reflexivity).
  split; [rewrite E; exact (conj V V)|].
  split; [exact ex_data_order|]. apply C42_once. exact ex_data_order.
Qed.

(** The caches at work: the fourth round key of key 1, asked for twice, is
    evaluated once, and so are the two it depends on. *)
Example C42_example_log :
  let r := values ISO (fixed_data ex_key) 840 [@BCached unit 13; BCached 13] (fresh tt) in
  (nth 0 (fst r) OutOfFuel, nth 1 (fst r) OutOfFuel, st_log (snd r)) =
  (Ok (0x15ebadc40a9ffd04, 0x3d4553d8e9cfec68), Ok (0x15ebadc40a9ffd04, 0x3d4553d8e9cfec68),
   [13; 10; 11]%nat).
Proof. vm_compute. reflexivity. Qed.

(** ** C50: refuted *)

(** kuznyechik::Imit over any stream of blocks: 174 nested calls per block are needed,
    whatever the key data, whatever is cached. *)
Theorem C50_refuted_imit {W I} (m : mode) (data : nat -> @blk W * @blk W) (ops : iter_ops I) (k : nat)
    (d fuel : nat) (p : res (option I)) (vs : list (N * N)) (sz : N) (s : state) :
  presents ops p vs -> size_at ops p (List.length vs - 1) = Ok sz -> (List.length vs <= fuel)%nat ->
  (d <= 174 * List.length vs + 1)%nat ->
  DImit m data d fuel ops p k s = (OutOfFuel, s).
Proof. apply dimit_overflow. Qed.

(** In particular over vectors in memory, 87 nested calls per word. *)
Theorem C50_refuted_imit_memory {W} (m : mode) (data : nat -> @blk W * @blk W) (k d fuel : nat)
    (words : list N) (s : state) :
  8 * len words < 2 ^ 64 -> words <> [] -> len words mod 2 = 0 ->
  len words <= 2 * N.of_nat fuel -> N.of_nat d <= 87 * len words + 1 ->
  DImit m data d fuel (ItMemory_ops (Some words)) (StMemory_iter true words) k s = (OutOfFuel, s).
Proof. apply mem_overflow. Qed.

(** Block n of a CTR stream: n + 174 nested calls are not enough. *)
Theorem C50_refuted_ctr {W} (m : mode) (data : nat -> @blk W * @blk W) (d : nat) (it : blk) (iv : N)
    (n k : nat) (s s1 : state) (v : N * N) :
  (d < n + 174)%nat -> value m data d it s = (Ok v, s1) ->
  DCTR_value m data (S d) it iv n k s = (OutOfFuel, s1).
Proof.
  intros Hd H. destruct (dctr_overflow m data (S d) it iv n k s v s1) as [E|E]; [Lia.lia|exact H|exact E|discriminate].
Qed.

(** magma::Imit over any source: 7 nested calls per block are needed. *)
Theorem C50_refuted_magma {W St} (m : mode) (rd : reader W St) (R : St -> W -> bytes -> Prop)
    (d : nat) (fuel : positive) (data : bytes) (k : option lazykey) (s : St) (w : W) :
  delivers8 rd R -> R s w data -> (8 <= List.length data)%nat ->
  (List.length data / 8 + 1 <= Pos.to_nat fuel)%nat -> (d <= 7 * (List.length data / 8) + 1)%nat ->
  exists w', dm_imit m rd d fuel s k w = (OutOfFuel, w').
Proof. apply dm_imit_overflow_data. Qed.

(** What does hold: the depth is linear in the number of blocks, and within it the result
    is that of the model without a stack. *)
Theorem C50_imit_partial {W I} (m : mode) (kd : nat -> kblock * kblock) (ops : iter_ops I) (k d fuel : nat)
    (iter : res (option I)) (w : W) :
  (174 * fuel + 846 <= d)%nat ->
  fst (DImit m (fixed_data kd) d fuel ops iter k (fresh w)) =
  KImit fuel m ops iter (Key_blocks (fst (kd k)) (snd (kd k))).
Proof. apply dimit_fixed. Qed.

Theorem C50_ctr_partial {W} (m : mode) (kd : nat -> kblock * kblock) (d : nat) (r : kblock) (iv : N)
    (n k : nat) (w : W) :
  (n + 841 <= d)%nat ->
  fst (DCTR_value m (fixed_data kd) d (BFixed r) iv n k (fresh w)) =
  KXored r (KEncrypted (Nat.iter n KIncremented (Ok (0, iv))) (Key_blocks (fst (kd k)) (snd (kd k)))).
Proof. apply dctr_fixed. Qed.

Theorem C50_magma_partial {W St} (m : mode) (rd : reader W St) (d : nat) (fuel : positive) (s : St)
    (k : option lazykey) (w : W) :
  (7 * Pos.to_nat fuel + 21 <= d)%nat ->
  dm_imit m rd d fuel s k w = magma_Imit rd m fuel s k w.
Proof. apply dm_imit_enough. Qed.

(** Four blocks of the standard: the MAC with 1600 nested calls, overflow with 697; and
    magma::Imit of four blocks with 60 and with 29. *)
Example C50_example :
  let mac d := fst (DImit ISO (fixed_data ex_key) d 4 (ItMemory_ops (Some kuz_data))
                          (StMemory_iter true kuz_data) 0 (fresh tt)) in
  let magma d := fst (dm_imit X MemSource_read d 9 (le64s P4) (Some mkey) tt) in
  ('(_, hi) <- mac 1600%nat ;; Ok hi) = Ok 0x336f4d296059fbe3 /\
  mac 697%nat = OutOfFuel /\
  magma 60%nat = fst (magma_Imit MemSource_read X 9 (le64s P4) (Some mkey) tt) /\
  magma 29%nat = OutOfFuel.
Proof.
  cbv zeta. split; [|split; [|split]].
  - rewrite C50_imit_partial by Lia.lia. cbn [ex_key fst snd]. rewrite kuz_key_blocks. vm_compute. reflexivity.
  - rewrite C50_refuted_imit_memory; [reflexivity|reflexivity|discriminate|reflexivity| |].
    + vm_compute. discriminate.
    + vm_compute. discriminate.
  - vm_compute. reflexivity.
  - vm_compute. reflexivity.
Qed.

Print Assumptions C42_invisible.
Print Assumptions C42_as_if_fresh.
Print Assumptions C42_once.
Print Assumptions C42_stable.
Print Assumptions C50_refuted_imit.
Print Assumptions C50_refuted_imit_memory.
Print Assumptions C50_refuted_ctr.
Print Assumptions C50_refuted_magma.
Print Assumptions C50_imit_partial.
Print Assumptions C50_ctr_partial.
Print Assumptions C50_magma_partial.
