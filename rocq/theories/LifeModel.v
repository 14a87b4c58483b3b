(** Lifetimes: objects owned by shared_ptr, their reference counts and their destruction.
    What the objects compute is in the other models. All classes of goost keep what they
    own in const members that the constructor initialises (for instance
    goost/kuznyechik/BlkEncrypted.h:23-24, goost/magma/ECBSink.h:25-26), so an object refers
    only to objects that existed before it. A unique_ptr member (LazyKey.h:34,
    KeyCachedData.h:22-23, SboxByte.h:38-41, SboxTwisted.h:20) is a shared_ptr that is never
    copied. *)
From Coq Require Import List Arith.
Import ListNotations.

(** An object: how many shared_ptr point to it, and what its own shared_ptr members point
    to, in the order in which they are destroyed (the reverse of their declaration). *)
Record object : Type := Object { strong : nat; members : list nat }.

Definition heap : Type := nat -> option object.

Definition upd (h : heap) (p : nat) (o : option object) : heap :=
  fun q => if Nat.eqb q p then o else h q.

(** [Dangling]: a shared_ptr points to an object that has been destroyed. [Deep]: stack
    overflow. *)
Inductive outcome (A : Type) : Type := Done (a : A) | Dangling | Deep.
Arguments Done {A} a.
Arguments Dangling {A}.
Arguments Deep {A}.

Definition obind {A B} (x : outcome A) (f : A -> outcome B) : outcome B :=
  match x with Done a => f a | Dangling => Dangling | Deep => Deep end.

Fixpoint each (f : nat -> heap -> outcome heap) (l : list nat) (h : heap) : outcome heap :=
  match l with
  | [] => Done h
  | p :: r => obind (f p h) (each f r)
  end.

(** Copying a shared_ptr to [p]. *)
Definition acquire (p : nat) (h : heap) : outcome heap :=
  match h p with
  | None => Dangling
  | Some o => Done (upd h p (Some (Object (S (strong o)) (members o))))
  end.

(** Destroying a shared_ptr to [p], with [d] nested destructors left on the stack: the last
    one destroys the object and with it the shared_ptr members of the object. *)
Fixpoint release (d : nat) (p : nat) (h : heap) : outcome heap :=
  match d with
  | O => Deep
  | S d =>
      match h p with
      | None => Dangling
      | Some (Object (S (S k)) ms) => Done (upd h p (Some (Object (S k) ms)))
      | Some (Object _ ms) => each (release d) ms (upd h p None)
      end
  end.

(** The objects, how many have been created, and the shared_ptr variables and temporaries
    of the program, the latest first. *)
Record mem : Type := Mem { objects : heap; created : nat; vars : list nat }.

Definition start : mem := Mem (fun _ => None) 0 [].

(** What code using the library, or the library itself, does with shared_ptr. Variables are
    numbered from the latest; an instruction with a number that does not exist has no effect. *)
Inductive instr : Type :=
| Make (is : list nat)    (* make_shared<T>(...): the members are copies of the variables [is] *)
| Copy (i : nat)          (* auto s = variable i *)
| Member (i j : nat)      (* auto s = member j of the object of variable i *)
| Lock (p : nat)          (* weak_ptr to object p: lock(), StMemory.cpp:62 *)
| Drop (i : nat).         (* variable i is destroyed *)

Fixpoint pick (l is : list nat) : option (list nat) :=
  match is with
  | [] => Some []
  | i :: r => match nth_error l i, pick l r with
              | Some p, Some ps => Some (p :: ps)
              | _, _ => None
              end
  end.

Fixpoint without (i : nat) (l : list nat) : list nat :=
  match l, i with
  | [], _ => []
  | _ :: r, O => r
  | x :: r, S i => x :: without i r
  end.

Definition push (p : nat) (s : mem) : outcome mem :=
  obind (acquire p (objects s)) (fun h => Done (Mem h (created s) (p :: vars s))).

Definition exec (d : nat) (c : instr) (s : mem) : outcome mem :=
  match c with
  | Make is =>
      match pick (vars s) is with
      | None => Done s
      | Some ms =>
          obind (each acquire ms (objects s)) (fun h =>
          Done (Mem (upd h (created s) (Some (Object 1 ms))) (S (created s)) (created s :: vars s)))
      end
  | Copy i => match nth_error (vars s) i with None => Done s | Some p => push p s end
  | Member i j =>
      match nth_error (vars s) i with
      | None => Done s
      | Some p =>
          match objects s p with
          | None => Dangling
          | Some o => match nth_error (members o) j with None => Done s | Some q => push q s end
          end
      end
  | Lock p => match objects s p with None => Done s | Some _ => push p s end
  | Drop i =>
      match nth_error (vars s) i with
      | None => Done s
      | Some p =>
          obind (release d p (objects s)) (fun h => Done (Mem h (created s) (without i (vars s))))
      end
  end.

Fixpoint run (d : nat) (cs : list instr) (s : mem) : outcome mem :=
  match cs with
  | [] => Done s
  | c :: r => obind (exec d c s) (run d r)
  end.

(** A walk over a CTR stream, it = it->next(), goost/kuznyechik/StCTREncrypted.cpp. The key and
    the iterators over the plaintext are objects without members here. Variables after
    each step: the iterator and the key. *)
Definition ctr_start : list instr :=   (* StCTREncrypted::iter, lines 71-74 *)
  [Make []; Make []; Make [];          (* the key, stream->iter(), the counter *)
   Make [0; 2; 1]; Drop 1; Drop 1].    (* ItCTREncrypted: ctr, key, iter; the temporaries *)
Definition ctr_next : list instr :=    (* ItCTREncrypted::next, lines 58-61 *)
  [Make [];                            (* iter->next() *)
   Member 1 0; Make [0]; Drop 1;       (* BlkIncremented(ctr) *)
   Make [0; 3; 1]; Drop 1; Drop 1;     (* the next ItCTREncrypted *)
   Drop 1].                            (* the assignment to it *)
Definition ctr_walk (n : nat) : list instr := ctr_start ++ concat (repeat ctr_next n).

(** The loop of kuznyechik::Imit::value, goost/kuznyechik/Imit.cpp:54-62. Variables after each
    step: [block] and the key. *)
Definition imit_start : list instr := [Make []; Make []].
Definition imit_step : list instr :=
  [Make [];                            (* BlkRaw(iter->value()) *)
   Make [0; 1];                        (* BlkXored: b, a *)
   Make [3; 0];                        (* BlkEncrypted: key, block *)
   Drop 1; Drop 1; Drop 1].            (* the temporaries, the old value of block *)
Definition imit_loop (n : nat) : list instr := imit_start ++ concat (repeat imit_step n).

(** The loop of magma::Imit::value, goost/magma/Imit.cpp:87-100; the constructor of BlkEncrypted
    builds a chain of objects (goost/magma/BlkEncrypted.cpp:14-33). *)
Definition magma_step : list instr :=
  [Make []; Make [0; 1];               (* BlkRaw(v), BlkXored: b, a *)
   Make [3; 0]; Make [4; 0]; Make [5; 0]; Make [6; 0];    (* BlkForwarded three times, BlkBackwarded: key, block *)
   Make [0]; Make [0];                 (* BlkSwapped, BlkEncrypted *)
   Drop 1; Drop 1; Drop 1; Drop 1; Drop 1; Drop 1; Drop 1; Drop 1].
Definition magma_loop (n : nat) : list instr := imit_start ++ concat (repeat magma_step n).
