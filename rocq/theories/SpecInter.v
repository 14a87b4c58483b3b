(** Lists of blocks taken apart, for C108 and C109. *)
From Verif Require Import Base.
Local Open Scope N_scope.

(** A block of 8 bytes. *)
Definition block8 (b : list N) : Prop := List.length b = 8%nat /\ Forall (fun x => x < 256) b.

(** Elements number 0, 2, 4, ... and number 1, 3, 5, ... *)
Fixpoint evens {A} (l : list A) : list A :=
  match l with
  | a :: r => a :: match r with
                   | _ :: r' => evens r'
                   | [] => []
                   end
  | [] => []
  end.
Definition odds {A} (l : list A) : list A := evens (tl l).

(** The elements with the given numbers. *)
Definition pick {A} (d : A) (l : list A) (js : list nat) : list A := map (fun j => nth j l d) js.
