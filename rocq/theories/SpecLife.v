(** Vocabulary for the properties of LifeModel.v. *)
From Verif Require Import LifeModel.
From Coq Require Import List Arith.

(** Objects the program can get at. *)
Inductive reachable (s : mem) : nat -> Prop :=
| By_variable p : In p (vars s) -> reachable s p
| By_member p o q : reachable s p -> objects s p = Some o -> In q (members o) -> reachable s q.
