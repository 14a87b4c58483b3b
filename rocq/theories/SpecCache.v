(** Specification of a cache: nothing but "the answers of the first load that
    succeeded". *)
From Verif Require Import Base.
Local Open Scope N_scope.

(** Ask a collaborator for several items in turn; stop at the first failure. *)
Fixpoint ask_all {W A B} (ask : A -> M W B) (l : list A) : M W (list B) :=
  match l with
  | [] => mret []
  | a :: r => b <-- ask a ;; bs <-- ask_all ask r ;; mret (b :: bs)
  end.

(** The outcome [r] is not a failure / copy a failure to another type. *)
Definition failed {A B} (r : res A) (s : res B) : Prop :=
  match r, s with
  | Throw e, Throw e' => e = e'
  | Undef u, Undef u' => u = u'
  | OutOfFuel, OutOfFuel => True
  | _, _ => False
  end.

(** [cache_history load look calls w answers w'] : starting with an empty cache in
    world [w], the calls get the answers, ending in world [w']. Calls are served by
    loading again until a load succeeds; from then on by [look] into what was loaded,
    without touching the world. *)
Inductive cache_history {W D C R} (load : M W D) (look : D -> C -> res R)
  : list C -> W -> list (res R) -> W -> Prop :=
| ch_nil w : cache_history load look [] w [] w
| ch_fail c cs w r w1 x xs w2 :
    load w = (r, w1) -> failed r x -> cache_history load look cs w1 xs w2 ->
    cache_history load look (c :: cs) w (x :: xs) w2
| ch_load c cs w d w1 :
    load w = (Ok d, w1) ->
    cache_history load look (c :: cs) w (map (look d) (c :: cs)) w1.
