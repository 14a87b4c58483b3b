(** DeepModel.v with memory that may run out: the functions of Kuznyechik that make objects
    while value() is being computed take memory first, and [alloc] may throw.

    Simplifications: all objects made in one go - the sixteen BlkR of BlkL::transform, the
    steps of BlkIterKey::generate, the blocks of Key::encrypt - are one point, because
    nothing happens between them that could be seen: constructors of blocks only store
    pointers, and objects already made are destroyed again. *)
From Verif Require Import Base KuzModel DeepModel.
Local Open Scope N_scope.

Section Mem.
Context {W : Type} (alloc : M W unit) (m : mode) (data : nat -> @blk W * @blk W).

Definition taken : M (@state W) unit := fun s =>
  let (r, w) := alloc (st_world s) in (r, State (st_cache s) w (st_log s)).

(** value() of each class, see [DeepModel.value]. Memory is taken by BlkString::value
    (BlkString.cpp:18-23, strings), BlkL::value (BlkL.cpp:19, 28), BlkIterKey::value
    (BlkIterKey.cpp:25, 38-46), BlkEncrypted::value (BlkEncrypted.cpp:19, Key.cpp:39-48, 56)
    and BlkXoredIfHighBit::value (Imit.cpp:31). *)
Fixpoint mem_value (d : nat) (o : @blk W) : M state (N * N) :=
  match d with
  | O => fun s => (OutOfFuel, s)
  | S d =>
      match o with
      | BRaw v => mret v
      | BFixed r => _ <-- taken ;; lift r
      | BUser f => fun s => let (r, w) := f (st_world s) in
                            (r, State (st_cache s) w (st_log s))
      | BXored a b => x <-- mem_value d a ;; y <-- mem_value d b ;; lift (KXored (Ok x) (Ok y))
      | BShifted a n => x <-- mem_value d a ;; lift (KShifted m (Ok x) n)
      | BIncremented a => x <-- mem_value d a ;; lift (KIncremented (Ok x))
      | BR a => x <-- mem_value d a ;; lift (KR (Ok x))
      | BL a => _ <-- taken ;; mem_value d (transform a 16)
      | BS a => x <-- mem_value d a ;; lift (KS (Ok x))
      | BIterKey ka kb c1 c2 =>
          _ <-- taken ;;
          t <-- lift (generate (Z.to_nat (c2 - c1 + 1)) kb ka c1 c2) ;; mem_value d t
      | BCached n => fun s =>
          match st_cache s n with
          | Some v => (Ok v, s)
          | None => match mem_value d (heap data n) s with
                    | (Ok v, s') => (Ok v, fill n v (evaluated n s'))
                    | r => r
                    end
          end
      | BEncrypted a k => _ <-- taken ;; mem_value d (encrypt k a)
      | BIfHighBit a b =>
          x <-- mem_value d a ;;
          _ <-- taken ;;
          if N.land (snd x) 0x8000000000000000 =? 0 then mem_value d (BShifted a 1)
          else mem_value d (BXored (BShifted a 1) b)
      end
  end.

(** Calls of value() on one object after the other. *)
Fixpoint mem_values (d : nat) (os : list (@blk W)) (s : @state W) : list (res (N * N)) * @state W :=
  match os with
  | [] => ([], s)
  | o :: r => let (x, s1) := mem_value d o s in
              let (xs, s2) := mem_values d r s1 in (x :: xs, s2)
  end.

(** Imit::value, goost/kuznyechik/Imit.cpp:51-79, see [dimit_loop], [dimit_object]: memory for
    the objects of lines 54, 57-60, 64-69 and 72 or 76. *)
Fixpoint mem_imit_loop {I} (fuel : nat) (ops : iter_ops I) (k : nat) (iter : option I)
    (b : @blk W) : M (@state W) (option I * @blk W) :=
  match fuel with
  | O => lift OutOfFuel
  | S f =>
      i <-- lift (deref iter) ;;
      l <-- lift (it_last ops i) ;;
      if l then mret (iter, b)
      else v <-- lift (it_value ops i) ;;
           _ <-- taken ;;
           n <-- lift (it_next ops i) ;;
           mem_imit_loop f ops k n (BEncrypted (BXored b (BRaw v)) k)
  end.

Definition mem_imit_object {I} (fuel : nat) (ops : iter_ops I) (iter : res (option I)) (k : nat)
  : M (@state W) (@blk W) :=
  it <-- lift iter ;;
  _ <-- taken ;;
  '(it, b) <-- mem_imit_loop fuel ops k it (BRaw (0, 0)) ;;
  _ <-- taken ;;
  let B := BRaw (0x87, 0) in
  let K1 := BIfHighBit (BEncrypted (BRaw (0, 0)) k) B in
  i <-- lift (deref it) ;;
  v <-- lift (it_value ops i) ;;
  _ <-- taken ;;
  let xblock := BXored b (BRaw v) in
  sz <-- lift (it_size ops i) ;;
  _ <-- taken ;;
  mret (if sz =? kblock_size then BEncrypted (BXored xblock K1) k
        else BEncrypted (BXored xblock (BIfHighBit K1 B)) k).

Definition mem_DImit {I} (d fuel : nat) (ops : iter_ops I) (iter : res (option I)) (k : nat)
  : M state (N * N) :=
  o <-- mem_imit_object fuel ops iter k ;; mem_value d o.

(** ItCTREncrypted::value, goost/kuznyechik/StCTREncrypted.cpp:43-46 *)
Definition mem_CTR_value (d : nat) (it : blk) (iv : N) (n k : nat) : M state (N * N) :=
  _ <-- taken ;; mem_value d (BXored it (BEncrypted (counter_object iv n) k)).
End Mem.
