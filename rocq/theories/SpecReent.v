(** Vocabulary for objects that call back. *)
From Verif Require Import Base ReentModel.

(** Whatever the world, and as long as it is answered as [right] says: the script does not
    return anything but what [P] allows. *)
Fixpoint says {W Q A} (right : Q -> A -> Prop) (P : A -> Prop) (s : script W Q A) : Prop :=
  match s with
  | End_ r => match r with Ok v => P v | _ => True end
  | Act _ k => forall w, says right P (k w)
  | Back q k =>
      forall a, match a with inl v => right q v | inr _ => True end -> says right P (k a)
  end.

(** In its first chain of actions, whatever the world, the script calls back. *)
Fixpoint calls_first {W Q A} (s : script W Q A) : Prop :=
  match s with
  | End_ _ => False
  | Act _ k => forall w, calls_first (k w)
  | Back _ _ => True
  end.

(** ** Objects for the refutations and the example *)

Local Open Scope N_scope.

(** The words a wrapped object gives the n-th time it is asked, and its log of the answers it
    got from the cache around it. When it is asked for the first time it asks back for the
    word 0. *)
Definition curious : Z -> script (N * list N) Z N := fun i =>
  Act (fun w => (fst w + 1, snd w)) (fun w =>
    if fst w =? 0 then
      Back 0%Z (fun a =>
        match a with
        | inl v => Act (fun w => (fst w, v :: snd w)) (fun _ => End_ (Ok 100))
        | inr e => End_ (Throw e)
        end)
    else End_ (Ok (fst w + 100))).

(** As [curious], but asked for the second word a second time it throws. *)
Definition curious_and_weak : Z -> script N Z N := fun i =>
  Act (fun w => w + 1) (fun w =>
    if w =? 0 then Back 0%Z (fun _ => End_ (Ok 100))
    else if w =? 9 then End_ (Throw (UserExn 1))
    else End_ (Ok (w + 100))).

(** As [curious], for a block. *)
Definition curious_block : script (N * list (N * N)) unit (N * N) :=
  Act (fun w => (fst w + 1, snd w)) (fun w =>
    if fst w =? 0 then
      Back tt (fun a =>
        match a with
        | inl v => Act (fun w => (fst w, v :: snd w)) (fun _ => End_ (Ok (0, 0)))
        | inr e => End_ (Throw e)
        end)
    else End_ (Ok (fst w, 0))).

(** An object that gives the same words always and the first time tells how much it was told:
    it is asked nine times more, and everybody is told the same. *)
Definition honest : Z -> script (N * list N) Z N := fun i =>
  Act (fun w => (fst w + 1, snd w)) (fun w =>
    if fst w =? 0 then
      Back 5%Z (fun a =>
        match a with
        | inl v => Act (fun w => (fst w, v :: snd w)) (fun _ => End_ (Ok (v - 5 + Z.to_N i)))
        | inr e => End_ (Throw e)
        end)
    else End_ (Ok (100 + Z.to_N i))).
