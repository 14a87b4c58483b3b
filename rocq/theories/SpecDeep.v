(** Vocabulary for the properties of DeepModel.v. *)
From Verif Require Import Base KuzModel DeepModel.
Local Open Scope N_scope.

Section Spec.
Context {W : Type}.

(** [below n o]: the object refers to BlkCached objects with numbers less than n
    only. *)
Fixpoint below (n : nat) (o : @blk W) : Prop :=
  match o with
  | BRaw _ | BFixed _ | BUser _ => True
  | BXored a b | BIfHighBit a b | BIterKey a b _ _ => below n a /\ below n b
  | BShifted a _ | BIncremented a | BR a | BL a | BS a => below n a
  | BCached i => (i < n)%nat
  | BEncrypted a k => below n a /\ (10 * k + 9 < n)%nat
  end.

(** Key data can only refer to keys that were made before the key. *)
Definition built_in_order (data : nat -> @blk W * @blk W) : Prop :=
  forall k, below (10 * k) (fst (data k)) /\ below (10 * k) (snd (data k)).

(** No class of the user in it. *)
Fixpoint pure (o : @blk W) : Prop :=
  match o with
  | BRaw _ | BFixed _ | BCached _ => True
  | BUser _ => False
  | BXored a b | BIfHighBit a b | BIterKey a b _ _ => pure a /\ pure b
  | BShifted a _ | BIncremented a | BR a | BL a | BS a | BEncrypted a _ => pure a
  end.

Definition pure_data (data : nat -> @blk W * @blk W) : Prop :=
  forall k, pure (fst (data k)) /\ pure (snd (data k)).

(** Key data that holds two blocks with fixed outcomes. *)
Definition fixed_data (kd : nat -> kblock * kblock) (k : nat) : @blk W * @blk W :=
  (BFixed (fst (kd k)), BFixed (snd (kd k))).
End Spec.
