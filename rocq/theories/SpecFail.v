(** A Kuznyechik stream that fails at a position. *)
From Verif Require Import Base KuzModel SpecIter.

(** The blocks before position [n] can be had, and none of them is the last; what is asked
    at position [n] (and what leads there) throws [e]: last(), or value(), or, on the last
    block, size(). *)
Definition fails_at {I} (ops : iter_ops I) (p : res (option I)) (n : nat) (e : exn) : Prop :=
  (forall i, (i < n)%nat ->
     (exists v, block_at ops p i = Ok v) /\ last_at ops p i = Ok false) /\
  (last_at ops p n = Throw e \/
   (exists l, last_at ops p n = Ok l /\ block_at ops p n = Throw e) \/
   (exists v, last_at ops p n = Ok true /\ block_at ops p n = Ok v /\ size_at ops p n = Throw e)).
