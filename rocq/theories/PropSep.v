(** Property C79: the size of the last block takes part in the MAC. *)
From Verif Require Import Base Text MagmaModel KuzModel Streams SpecText SpecMagma SpecKuz SpecModes SpecStreams
  SpecIter SpecMac SepProofs TestVectors.
From Coq Require Import Lia.
Local Open Scope N_scope.

(** ** C79: refuted *)

(** kuznyechik::Imit asks the last iterator for its size, but only whether it is 16. Two
    streams with the same block values whose last blocks have different sizes below (or
    above) 16 have the same MAC, whatever the key. *)
Theorem C79_refuted {I J} (ops : iter_ops I) (ops' : iter_ops J) (k : kkey) (E : N -> N) (m : mode)
    (ps : list N) (p : res (option I)) (q : res (option J)) (fuel fuel' : nat) (sz sz' : N) :
  kuz_enciphers k E -> Forall (fun x => x < 2 ^ 128) ps ->
  presents ops p (map kpair ps) -> presents ops' q (map kpair ps) ->
  size_at ops p (List.length ps - 1) = Ok sz -> size_at ops' q (List.length ps - 1) = Ok sz' ->
  (List.length ps <= fuel)%nat -> (List.length ps <= fuel')%nat ->
  sz <> 16 -> sz' <> 16 ->
  exists t, KImit fuel m ops p k = Ok t /\ KImit fuel' m ops' q k = Ok t.
Proof. apply kimit_sizes. Qed.

(** What does hold: a complete last block and an incomplete one with the same value. The
    MACs differ unless the key maps the zero block to itself - and then they agree. *)
Theorem C79_kuznyechik_partial {I J} (ops : iter_ops I) (ops' : iter_ops J) (k : kkey) (K : N) (m : mode)
    (ps : list N) (p : res (option I)) (q : res (option J)) (fuel fuel' : nat) (sz : N) :
  K < 2 ^ 256 -> kuz_enciphers k (Kuz_E K) -> Forall (fun x => x < 2 ^ 128) ps ->
  presents ops p (map kpair ps) -> presents ops' q (map kpair ps) ->
  size_at ops p (List.length ps - 1) = Ok 16 -> size_at ops' q (List.length ps - 1) = Ok sz ->
  (List.length ps <= fuel)%nat -> (List.length ps <= fuel')%nat -> sz <> 16 ->
  exists a b, KImit fuel m ops p k = Ok a /\ KImit fuel' m ops' q k = Ok b /\ (a = b <-> Kuz_E K 0 = 0).
Proof. apply kimit_complete. Qed.

(** The same of magma::Imit, where it has a result: a message with an incomplete (or no)
    last block, and the message filled up with zeros. *)
Theorem C79_magma_partial {W St} (rd : reader W St) g (R : St -> W -> bytes -> Prop) (k : lazykey)
    (E : N -> N) (s1 s2 : St) (w1 w2 : W) (data : bytes) (fuel : positive) :
  enciphers (KLazy k) E -> delivers8 rd R -> R s1 w1 data ->
  R s2 w2 (data ++ repeat 0 (8 - List.length data mod 8)) -> Forall u8 data ->
  (data = [] \/ List.length data mod 8 <> 0)%nat -> (List.length data / 8 + 2 <= Pos.to_nat fuel)%nat ->
  exists a b w1' w2',
    magma_Imit rd (X86 g) fuel s1 (Some k) w1 = (Ok a, w1') /\
    magma_Imit rd (X86 g) fuel s2 (Some k) w2 = (Ok b, w2') /\ (a = b <-> E 0 = 0).
Proof. apply imit_complete. Qed.

(** The two masks of GOST R 34.13-2015, 5.6.1, are equal exactly if the key maps zero to
    zero (n = 64 and n = 128). *)
Theorem C79_masks (E : N -> N) (n B : N) :
  E 0 < 2 ^ n -> 8 < n -> (B = 0x1b \/ B = 0x87) -> K1 E n B = K2 E n B <-> E 0 = 0.
Proof. apply keys_equal. Qed.

(** An iterator type whose last block reports the size [n]. *)
Definition SizedOps (n : N) : iter_ops (list (N * N)) := {|
  it_value := fun l => match l with v :: _ => Ok v | [] => Undef OutOfBounds end;
  it_last := fun l => Ok (match l with [_] => true | _ => false end);
  it_size := fun l => Ok (match l with [_] => n | _ => 16 end);
  it_next := fun l => Ok (match l with _ :: (_ :: _) as r => Some (tl l) | _ => None end) |}.

Example C79_example :
  (forall n, presents (SizedOps n) (Ok (Some [(1, 2); (3, 4)])) (map kpair [2 * 2 ^ 64 + 1; 4 * 2 ^ 64 + 3]) /\
             size_at (SizedOps n) (Ok (Some [(1, 2); (3, 4)])) 1 = Ok n) /\
  fst (magma_Imit MemSource_read (X86 (fun _ _ => 0)) 10 [1; 2; 3] (Some (LazyKey_string magma_key_str)) tt) <>
  fst (magma_Imit MemSource_read (X86 (fun _ _ => 0)) 10 [1; 2; 3; 0; 0; 0; 0; 0] (Some (LazyKey_string magma_key_str)) tt) /\
  K1 (fun x => x) 64 0x1b = K2 (fun x => x) 64 0x1b.
Proof.
  split; [|split; [vm_compute; discriminate|reflexivity]].
  intros n. split; [|reflexivity]. split; [discriminate|].
  intros [|[|i]] H; [split; reflexivity..|]. cbn in H. lia.
Qed.

Print Assumptions C79_refuted.
Print Assumptions C79_kuznyechik_partial.
Print Assumptions C79_magma_partial.
Print Assumptions C79_masks.
