(** Vocabulary for C111: two runs that end the same way, and sources that deliver the same
    amounts. *)
From Verif Require Import Base LeakModel.

(** Both give a value, related by [P], or both fail in the same way. *)
Definition both {A B} (P : A -> B -> Prop) (x : res A) (y : res B) : Prop :=
  match x, y with
  | Ok a, Ok b => P a b
  | Throw e, Throw e' => e = e'
  | Undef u, Undef u' => u = u'
  | OutOfFuel, OutOfFuel => True
  | _, _ => False
  end.

(** [R] relates sources that answer reads of 8 bytes with the same number of bytes, or the
    same failure, and go on doing so. *)
Definition same_amounts {St St'} (get : St -> N -> res (list N * St)) (get' : St' -> N -> res (list N * St'))
    (R : St -> St' -> Prop) : Prop :=
  forall s s', R s s' ->
    both (fun a b => List.length (fst a) = List.length (fst b) /\ R (snd a) (snd b)) (get s 8%N) (get' s' 8%N).

(** A program that reads again and again, with the object it was given last. *)
Fixpoint reads {O} (read : O -> N -> T (list N * O)) (o : O) (sizes : list N) : T (list (list N)) :=
  match sizes with
  | [] => tret []
  | n :: rest =>
      x <~ read o n ;;
      ds <~ reads read (snd x) rest ;;
      tret (fst x :: ds)
  end.
