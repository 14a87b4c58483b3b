(** What the observer keeps of the events: only the table accesses, or only the
    branches; and which of two runs cannot be told apart. *)
From Verif Require Import Base LeakModel.
Local Open Scope N_scope.

Definition lookups (l : list event) : list event :=
  filter (fun e => match e with Lookup _ _ => true | Branch _ => false end) l.

Definition branches (l : list event) : list event :=
  filter (fun e => match e with Lookup _ _ => false | Branch _ => true end) l.

(** Which tables are read, in order, without the indices. *)
Definition tables (l : list event) : list N :=
  flat_map (fun e => match e with Lookup t _ => [t] | Branch _ => [] end) l.

(** The table object answers every 32-bit word. *)
Definition answers (sb : N -> T N) : Prop :=
  forall v, v < 2 ^ 32 -> exists r, fst (sb v) = Ok r.
