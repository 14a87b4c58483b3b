(** Text with separators, for C106. *)
From Verif Require Import Base.
Local Open Scope N_scope.

(** No two separators side by side. *)
Fixpoint no_two (sep : N) (s : list N) : Prop :=
  match s with
  | a :: ((b :: _) as r) => ~ (a = sep /\ b = sep) /\ no_two sep r
  | _ => True
  end.

(** The text without its separators. *)
Definition without (sep : N) (s : list N) : list N := filter (fun c => negb (c =? sep)) s.
