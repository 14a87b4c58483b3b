(** magma::Imit and gost89::DataImit with keys that act on the world (EffModel.v) and memory
    that may run out (MemModel.v). On functions and with memory enough this is Streams.v
    (C107_same).

    Simplifications: the objects made by one statement are one point; so are the copy of the
    data in DataImit::value and the push_backs after it. BlkEncrypted, BlkXored and the other
    blocks of goost/magma make their objects in their constructors; value() of these takes no
    memory. *)
From Verif Require Import Base MagmaModel Streams EffModel.
Local Open Scope N_scope.

Section Imit.
Context {W St : Type} (alloc : M W unit) (rd : reader W St) (m : mode) (k : option (act_lazy W)).

(** BlkXored::value, goost/magma/BlkXored.cpp:16-21 *)
Definition act_BlkXored (a b : @act_block W) : @act_block W :=
  '(a1, a2) <-- a ;; '(b1, b2) <-- b ;; mret (N.lxor a1 b1, N.lxor a2 b2).

(** BlkShifted::value, goost/magma/BlkShifted.cpp:16-20 *)
Definition act_BlkShifted (b : @act_block W) (n : Z) : @act_block W :=
  '(first, second) <-- b ;;
  lo <-- lift (shl32 m first n) ;;
  h1 <-- lift (shl32 m second n) ;;
  h2 <-- lift (shr32 m first (64 - n)%Z) ;;
  mret (lo, N.lor h1 h2).

(** BlkImitShifted::value, goost/magma/Imit.cpp:46-53: objects at lines 48 and 52; the block
    is evaluated for its high bit, and once more by BlkShifted. *)
Definition mem_ImitShifted (b : @act_block W) : @act_block W :=
  _ <-- alloc ;;
  '(_, second) <-- b ;;
  if N.land second 0x80000000 =? 0 then act_BlkShifted b 1
  else _ <-- alloc ;; act_BlkXored (act_BlkShifted b 1) (lift (BlkRaw64 0x1b)).

(** BlkImitFinalKey::value, goost/magma/Imit.cpp:62-71: objects at lines 64-66 *)
Definition mem_ImitFinalKey (size : nat) : @act_block W :=
  _ <-- alloc ;;
  let K1 := mem_ImitShifted (act_BlkEncrypted (lift BlkRaw0) k) in
  if Nat.eqb size 8 then K1 else mem_ImitShifted K1.

(** One iteration of the loop of Imit::value, goost/magma/Imit.cpp:87-100: objects at lines
    88, 91 and 99. *)
Definition mem_imit_step (st : bytes * St * @act_block W)
  : M W ((bytes * St * @act_block W) + (@act_block W * @act_block W)) :=
  let '(b, s, blk) := st in
  _ <-- alloc ;;
  let fk := mem_ImitFinalKey (List.length b) in
  v <-- lift (imit_load m b) ;;
  _ <-- alloc ;;
  let blk := act_BlkXored blk (lift (BlkRaw64 v)) in
  if Nat.ltb (List.length b) block_size then mret (inr (fk, blk))
  else
    '(b, s) <-- rd s (N.of_nat block_size) ;;
    match b with
    | [] => mret (inr (fk, blk))
    | _ :: _ => _ <-- alloc ;; mret (inl (b, s, act_BlkEncrypted blk k))
    end.

(** Imit::value, goost/magma/Imit.cpp:79-103: objects at lines 82 and 102 *)
Definition mem_Imit (fuel : positive) (data : St) : M W (N * N) :=
  _ <-- alloc ;;
  '(b, s) <-- rd data (N.of_nat block_size) ;;
  '(fk, blk) <-- mloop fuel mem_imit_step (b, s, lift BlkRaw0) ;;
  _ <-- alloc ;;
  act_BlkEncrypted (act_BlkXored blk fk) k.
End Imit.

Section DataImit.
Context {W : Type} (alloc : M W unit) (k : option (act_lazy W)).

(** ImitedBlock::value, goost/gost89/ImitedBlock.cpp:18-29: objects at lines 21-24; then the
    constructor of BlkRaw asks the blocks for their value. *)
Definition mem_ImitedBlock (b : @act_block W) : @act_block W :=
  _ <-- alloc ;; act_BlkForwarded (act_BlkForwarded b k) k.

(** DataImit::value, goost/gost89/DataImit.cpp:18-38: vectors at lines 20-27, objects at
    line 33. *)
Definition mem_dataimit_block (state : bytes) : M W bytes :=
  buf <-- lift (read8 ISO state) ;;
  '(first, second) <-- mem_ImitedBlock (lift (BlkRaw_bytes buf)) ;;
  lift (write8 ISO state (to_le 4 first ++ to_le 4 second)).

Fixpoint mem_dataimit_loop (fuel : nat) (state data : bytes) : M W bytes :=
  match data with
  | [] => mret state
  | _ :: _ =>
      match fuel with
      | O => lift OutOfFuel
      | Datatypes.S f =>
          '(state, rest) <-- lift (xor_bytes state data) ;;
          state <-- mem_dataimit_block state ;;
          mem_dataimit_loop f state rest
      end
  end.

Definition mem_DataImit (data : bytes) : M W bytes :=
  _ <-- alloc ;;
  _ <-- alloc ;;
  let pdata := dataimit_pad data in
  mem_dataimit_loop (List.length pdata) (repeat 0 8) pdata.
End DataImit.
