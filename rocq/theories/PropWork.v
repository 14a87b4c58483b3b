(** The number of value() calls a message takes: C71. *)
From Verif Require Import Base MagmaModel Streams KuzModel SpecMagma SpecText SpecModes SpecStreams SpecIter.
From Verif Require Import DeepModel SpecDeep DeepMagma WorkModel WorkProofs WorkExact KuzStreamProofs TestVectors.
From Coq Require Import Lia.
Local Open Scope N_scope.

(** ** C71 *)

(** In CTR mode the work is not proportional to the length of the message: with enough stack,
    n blocks take more than n * n / 2 calls. *)
Theorem C71_refuted_ctr {W} (m : mode) (data : nat -> @blk W * @blk W) (k : nat) (iv : N)
    (vs : list (N * N)) (d : nat) (s : state) : (List.length vs + 175 <= d)%nat ->
  (List.length vs * (List.length vs + 351) <= 2 * ctr_calls m data d iv k 0 vs s)%nat.
Proof. intros H. exact (ctr_lower m data d iv k vs 0%nat s H). Qed.

Theorem C71_refuted {W} (m : mode) (data : nat -> @blk W * @blk W) (k : nat) (iv : N) (c : nat) :
  exists n0, forall (vs : list (N * N)) (d : nat) (s : state),
  (n0 <= List.length vs)%nat -> (List.length vs + 175 <= d)%nat ->
  (c * List.length vs < ctr_calls m data d iv k 0 vs s)%nat.
Proof.
  exists (2 * c + 1)%nat. intros vs d s Hn Hd. pose proof (C71_refuted_ctr m data k iv vs d s Hd) as H. nia.
Qed.

(** It is at most quadratic. *)
Theorem C71_ctr_partial {W} (m : mode) (data : nat -> @blk W * @blk W) (k : nat) : built_in_order data ->
  exists B, forall (iv : N) (vs : list (N * N)) (d : nat) (s : state),
  (2 * ctr_calls m data d iv k 0 vs s <= List.length vs * (List.length vs + B))%nat.
Proof.
  intros Hd. exists (2 * (186 + bound data (10 * k + 10)))%nat. intros iv vs d s.
  exact (ctr_upper m data Hd d iv k vs 0%nat s).
Qed.

(** kuznyechik::Imit: 185 calls per block of the message and a constant, whatever is in the
    caches, whatever the stream, however deep the stack. *)
Theorem C71_imit_partial {W} (m : mode) (data : nat -> @blk W * @blk W) (k : nat) : built_in_order data ->
  exists B, forall I (ops : iter_ops I) (d fuel : nat) (p : res (option I)) (vs : list (N * N)) (s : state),
  presents ops p vs -> (imit_calls m data d fuel ops p k s <= 185 * List.length vs + B)%nat.
Proof. intros H. exact (imit_linear m data H k). Qed.

(** magma::Imit: one call per byte of the message and 60. *)
Theorem C71_magma_partial {W St} (m : mode) (rd : reader W St) (R : St -> W -> bytes -> Prop) (d : nat)
    (fuel : positive) (data : bytes) (s : St) (k : option lazykey) (w : W) :
  delivers8 rd R -> R s w data -> (magma_imit_calls m rd d fuel s k w <= List.length data + 60)%nat.
Proof. intros HR. exact (magma_imit_linear m rd R HR d fuel data s k w). Qed.

(** Exactly: eight calls per block begun by the message, 2, and those of the final key, which
    asks for the encrypted zero block two or four times. *)
Theorem C71_magma_exact {W St} (g : list N -> nat -> N) (rd : reader W St) (R : St -> W -> bytes -> Prop)
    (d : nat) (fuel : positive) (data : bytes) (s : St) (k : lazykey) (E : N -> N) (w : W) :
  let blocks := ((List.length data + 7) / 8)%nat in
  let if_top x n := if N.testbit x 63 then n else 0%nat in
  enciphers (KLazy k) E -> delivers8 rd R -> R s w data -> data <> [] -> Forall u8 data ->
  (blocks <= Pos.to_nat fuel)%nat -> (7 * blocks + 16 <= d)%nat ->
  magma_imit_calls (X86 g) rd d fuel s (Some k) w =
  (2 + 8 * blocks +
   if Nat.eqb (List.length data mod 8) 0 then 17 + if_top (E 0%N) 2
   else 35 + if_top (E 0%N) 4 + if_top (K1 E 64 0x1b) 2)%nat.
Proof. intros blocks if_top HE HR. exact (magma_imit_exact g k E HE rd R HR d fuel data s w). Qed.

(** Four blocks of the standard in both modes: more than 710 calls in CTR mode, 0.7 millions
    for a thousand blocks; exactly 51 calls in magma::Imit. *)
Definition ex_data (k : nat) : @blk unit * @blk unit :=
  (BFixed (Ok (0x0011223344556677, 0x8899aabbccddeeff)), BFixed (Ok (0x0123456789abcdef, 0xfedcba9876543210))).

Example C71_example :
  built_in_order ex_data /\
  presents (ItMemory_ops (Some kuz_data)) (StMemory_iter true kuz_data) (word_pairs kuz_data) /\
  (forall d, (179 <= d)%nat -> (710 <= ctr_calls ISO ex_data d 1 0 0 (word_pairs kuz_data) (fresh tt))%nat) /\
  (forall vs d, N.of_nat (List.length vs) = 1000 -> 1175 <= N.of_nat d ->
     675500 <= N.of_nat (ctr_calls ISO ex_data d 1 0 0 vs (fresh tt))) /\
  magma_imit_calls X MemSource_read 60 9 (le64s P4) (Some mkey) tt = 51%nat /\
  enciphers (KLazy mkey) (Magma_E (number magma_key_str)) /\ List.length (le64s P4) = 32%nat /\
  magma_imit_calls X MemSource_read 60 9 (firstn 29 (le64s P4)) (Some mkey) tt = 69%nat.
Proof.
  split; [intros k; split; exact I|].
  split; [apply mem_presents; [reflexivity|discriminate|reflexivity]|]. split; [|split].
  - intros d Hd. pose proof (C71_refuted_ctr ISO ex_data 0 1 (word_pairs kuz_data) d (fresh tt)) as H.
    change (List.length (word_pairs kuz_data)) with 4%nat in H.
    set (c := ctr_calls _ _ _ _ _ _ _ _) in *. clearbody c. lia.
  - intros vs d Hn Hd. pose proof (C71_refuted_ctr ISO ex_data 0 1 vs d (fresh tt)) as H.
    set (c := ctr_calls _ _ _ _ _ _ _ _) in *. clearbody c. lia.
  - split; [vm_compute; reflexivity|]. split; [|split; vm_compute; reflexivity].
    apply StreamProofs.hex_enciphers; [reflexivity|].
    assert (F : forallb (fun c => if digit c then true else false) magma_key_str = true) by (vm_compute; reflexivity).
    rewrite forallb_forall in F. apply Forall_forall. intros c Hc. apply F in Hc.
    unfold hex_digit. now destruct (digit c).
Qed.

Print Assumptions C71_refuted_ctr.
Print Assumptions C71_refuted.
Print Assumptions C71_ctr_partial.
Print Assumptions C71_imit_partial.
Print Assumptions C71_magma_partial.
Print Assumptions C71_magma_exact.
