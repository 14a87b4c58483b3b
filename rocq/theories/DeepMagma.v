(** The block objects that magma::Imit builds, as objects: trees of shared pointers
    whose value() methods call each other, with the number of nested calls bounded by
    the stack. MagmaModel.v and Streams.v are the same code with every object replaced
    by the outcome of its value(). *)
From Verif Require Import Base MagmaModel Streams.
Local Open Scope N_scope.

Section DeepMagma.
Context (m : mode).

(** Objects of classes derived from magma::Block. MRaw also stands for the other
    classes that only return what they hold. *)
Inductive mblk : Type :=
| MRaw (r : block)                                  (* BlkRaw.cpp *)
| MXored (a b : mblk)                               (* BlkXored.cpp *)
| MShifted (a : mblk) (n : Z)                       (* BlkShifted.cpp *)
| MSwapped (a : mblk)                               (* BlkSwapped.cpp *)
| MForwarded (a : mblk) (k : option lazykey)        (* BlkForwarded.cpp *)
| MBackwarded (a : mblk) (k : option lazykey)       (* BlkBackwarded.cpp *)
| MEncrypted (a : mblk) (k : option lazykey)        (* BlkEncrypted.cpp *)
| MImitShifted (a : mblk)                           (* Imit.cpp:18-53 *)
| MFinalKey (k : option lazykey) (size : nat).      (* Imit.cpp:27-71 *)

(** value() of each class, with [d] nested calls of value() left on the stack
    (OutOfFuel is the stack overflow); the calls a round makes on its key, which come
    after the block's value() has returned, are not counted. *)
Fixpoint mvalue (d : nat) (o : mblk) : block :=
  match d with
  | O => OutOfFuel
  | S d =>
      match o with
      | MRaw r => r
      | MXored a b => x <- mvalue d a ;; y <- mvalue d b ;; BlkXored (Ok x) (Ok y)
      | MShifted a n => x <- mvalue d a ;; BlkShifted m (Ok x) n
      | MSwapped a => x <- mvalue d a ;; BlkSwapped (Ok x)
      | MForwarded a k => x <- mvalue d a ;; BlkForwarded (Ok x) k
      | MBackwarded a k => x <- mvalue d a ;; BlkBackwarded (Ok x) k
      | MEncrypted a k =>      (* BlkEncrypted.cpp:14-38: the chain is built by the constructor *)
          mvalue d (MSwapped (MBackwarded (MForwarded (MForwarded (MForwarded a k) k) k) k))
      | MImitShifted a =>
          x <- mvalue d a ;;
          if N.land (snd x) 0x80000000 =? 0 then mvalue d (MShifted a 1)
          else mvalue d (MXored (MShifted a 1) (MRaw (BlkRaw64 0x1b)))
      | MFinalKey k size =>
          let K1 := MImitShifted (MEncrypted (MRaw BlkRaw0) k) in
          if Nat.eqb size 8 then mvalue d K1 else mvalue d (MImitShifted K1)
      end
  end.

Context {W St : Type} (rd : reader W St).

(** Imit::value, goost/magma/Imit.cpp:79-103, as [imit_step] and [magma_Imit] of
    Streams.v, but keeping the objects. *)
Definition dm_imit_step (k : option lazykey) (st : bytes * St * mblk)
  : M W ((bytes * St * mblk) + (mblk * mblk)) :=
  let '(b, s, blk) := st in
  let fk := MFinalKey k (List.length b) in
  v <-- lift (imit_load m b) ;;
  let blk := MXored blk (MRaw (BlkRaw64 v)) in
  if Nat.ltb (List.length b) block_size then mret (inr (fk, blk))
  else
    '(b, s) <-- rd s (N.of_nat block_size) ;;
    match b with
    | [] => mret (inr (fk, blk))
    | _ :: _ => mret (inl (b, s, MEncrypted blk k))
    end.

Definition dm_imit (d : nat) (fuel : positive) (data : St) (k : option lazykey) : M W (N * N) :=
  '(b, s) <-- rd data (N.of_nat block_size) ;;
  '(fk, blk) <-- mloop fuel (dm_imit_step k) (b, s, MRaw BlkRaw0) ;;
  lift (mvalue d (MEncrypted (MXored blk fk) k)).
End DeepMagma.
