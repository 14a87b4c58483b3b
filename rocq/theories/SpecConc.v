(** Data races, as C++ defines them ([intro.races]), and finished executions. *)
From Verif Require Import Base ConcModel.
Local Open Scope N_scope.

(** Two accesses to the same field by different threads, at least one a write. *)
Definition conflict (a b : access) : Prop :=
  let '(t, l, w) := a in let '(t', l', w') := b in
  t <> t' /\ l = l' /\ (w = true \/ w' = true).

(** The methods do not synchronise, so within an execution an access happens before
    another only if the same thread made it earlier. *)
Definition happens_before (tr : list access) (i j : nat) : Prop :=
  (i < j)%nat /\
  exists a b, nth_error tr i = Some a /\ nth_error tr j = Some b /\ fst (fst a) = fst (fst b).

Definition race (tr : list access) : Prop :=
  exists i j a b,
    nth_error tr i = Some a /\ nth_error tr j = Some b /\ conflict a b /\
    ~ happens_before tr i j /\ ~ happens_before tr j i.

Definition finished {A} (c : @config A) : Prop :=
  Forall (fun t => t_calls t = []) (c_threads c).

(** The accesses of one thread. *)
Definition own (i : nat) (tr : list access) : list access :=
  filter (fun a => Nat.eqb (fst (fst a)) i) tr.

(** All eight words can be had from the wrapped KeyData; their values. *)
Definition loads (inner : Z -> res N) (val : nat -> N) : Prop :=
  forall i, (i < 8)%nat -> inner (Z.of_nat i) = Ok (val i) /\ val i < 2 ^ 32.

(** What key(j) should return. *)
Definition answer (val : nat -> N) (j : Z) : res N :=
  if ((0 <=? j) && (j <? 8))%Z then Ok (val (Z.to_nat j)) else Undef OutOfBounds.

(** At least two threads that call the object. *)
Definition shared {B} (calls : list (list B)) : Prop :=
  exists i j ps qs, i <> j /\ nth_error calls i = Some ps /\ nth_error calls j = Some qs /\
                    ps <> [] /\ qs <> [].

(** Thread [t] of an execution has the results [f x] of the calls [x] that it has made,
    and of all of them once it has finished. *)
Definition answered {A B} (f : B -> res A) (js : list B) (t : @thread A) : Prop :=
  t_results t = map f (firstn (List.length (t_results t)) js) /\
  (t_calls t = [] -> t_results t = map f js).
