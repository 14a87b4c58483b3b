(** What a client observes of a Kuznyechik stream: call next() [n] times and then ask
    the iterator for its block, last() or size(). *)
From Verif Require Import Base KuzModel SpecModes SpecKuz.
Local Open Scope N_scope.

(** The pointer after [n] calls of next(); calling through a null pointer is undefined. *)
Fixpoint advance {I} (ops : iter_ops I) (n : nat) (p : option I) : res (option I) :=
  match n with
  | O => Ok p
  | Datatypes.S m => i <- deref p ;; q <- it_next ops i ;; advance ops m q
  end.

(** Ask a method of the iterator at position [n]. *)
Definition ask {I A} (ops : iter_ops I) (method : I -> res A) (p : res (option I)) (n : nat)
  : res A :=
  p <- p ;; q <- advance ops n p ;; i <- deref q ;; method i.

Definition block_at {I} (ops : iter_ops I) p n : res (N * N) := ask ops (it_value ops) p n.
Definition last_at {I} (ops : iter_ops I) p n : res bool := ask ops (it_last ops) p n.
Definition size_at {I} (ops : iter_ops I) p n : res N := ask ops (it_size ops) p n.

(** The stream consists of exactly the blocks [vs]: block i is the i-th of them and
    last() is true on the last one only. *)
Definition presents {I} (ops : iter_ops I) (p : res (option I)) (vs : list (N * N)) : Prop :=
  vs <> [] /\
  forall n, (n < List.length vs)%nat ->
    block_at ops p n = Ok (nth n vs (0, 0)) /\
    last_at ops p n = Ok (Nat.eqb (Datatypes.S n) (List.length vs)).

(** The key acts as the block cipher [E]. *)
Definition kuz_enciphers (k : kkey) (E : N -> N) : Prop :=
  forall x, x < 2 ^ 128 ->
    KEncrypted (Ok (kpair x)) k = Ok (kpair (E x)) /\ E x < 2 ^ 128.
