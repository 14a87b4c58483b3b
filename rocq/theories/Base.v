(** Common vocabulary of the model: outcomes, machine words, bytes.
    Nothing in this file depends on the library being modelled. *)
From Coq Require Export List NArith ZArith Lia Bool String.
Export ListNotations.
Local Open Scope N_scope.

(** ** Outcomes of a C++ call *)

(** Exceptions the library (or the standard library on its behalf) throws. *)
Inductive exn : Type :=
| RuntimeError (msg : string)   (* std::runtime_error *)
| InvalidArgument               (* std::invalid_argument, from stoull *)
| OutOfRange                    (* std::out_of_range, from stoull / string(str,pos,len) *)
| BadWeakPtr                    (* std::bad_weak_ptr, from shared_from_this *)
| UserExn (n : N).              (* anything thrown by a user-supplied object *)

(** Causes of undefined behaviour. *)
Inductive ub : Type :=
| OutOfBounds    (* element access outside a vector / array / string buffer *)
| Overflow       (* memcpy writes more bytes than the destination has *)
| NullDeref      (* member call through a null shared_ptr *)
| WideShift      (* shift count negative or >= width of the promoted operand *)
| Uninit         (* an uninitialised variable is read *)
| IntOverflow    (* signed integer overflow *)
| Misaligned     (* access through a pointer that is not aligned for its type *)
| Aliasing       (* access through a type that the object there does not have *)
| EarlyCall.     (* member function called before the base classes are constructed *)

Inductive res (A : Type) : Type :=
| Ok (a : A)
| Throw (e : exn)
| Undef (u : ub)
| OutOfFuel.     (* the model's loop budget is exhausted: no C++ counterpart *)
Arguments Ok {A} a.
Arguments Throw {A} e.
Arguments Undef {A} u.
Arguments OutOfFuel {A}.

Definition bind {A B} (x : res A) (f : A -> res B) : res B :=
  match x with
  | Ok a => f a
  | Throw e => Throw e
  | Undef u => Undef u
  | OutOfFuel => OutOfFuel
  end.

Notation "x <- e ;; f" := (bind e (fun x => f))
  (at level 61, e at level 60, f at level 200, right associativity).
Notation "' p <- e ;; f" := (bind e (fun x => match x with p => f end))
  (at level 61, p pattern, e at level 60, f at level 200, right associativity).

(** Computations that may also act on the world of user-supplied objects. *)
Definition M (W A : Type) : Type := W -> res A * W.

Definition mret {W A} (a : A) : M W A := fun w => (Ok a, w).
Definition lift {W A} (r : res A) : M W A := fun w => (r, w).
Definition mbind {W A B} (x : M W A) (f : A -> M W B) : M W B :=
  fun w => match x w with
           | (Ok a, w') => f a w'
           | (Throw e, w') => (Throw e, w')
           | (Undef u, w') => (Undef u, w')
           | (OutOfFuel, w') => (OutOfFuel, w')
           end.

Notation "x <-- e ;; f" := (mbind e (fun x => f))
  (at level 61, e at level 60, f at level 200, right associativity).
Notation "' p <-- e ;; f" := (mbind e (fun x => match x with p => f end))
  (at level 61, p pattern, e at level 60, f at level 200, right associativity).

(** ** How undefined behaviour is read *)

(** [ISO]: every undefined operation is [Undef].
    [X86 garbage]: over-wide shifts use the count modulo the register width,
    bytes just behind a short heap vector can be written (and are lost) and read
    (byte [i] behind vector [v] is [garbage v i]). *)
Inductive mode : Type :=
| ISO
| X86 (garbage : list N -> nat -> N).

(** ** Machine words *)

Definition w8  (x : N) : N := x mod 2 ^ 8.
Definition w32 (x : N) : N := x mod 2 ^ 32.
Definition w64 (x : N) : N := x mod 2 ^ 64.

Definition u8  (x : N) : Prop := x < 2 ^ 8.
Definition u32 (x : N) : Prop := x < 2 ^ 32.
Definition u64 (x : N) : Prop := x < 2 ^ 64.

(** Conversion of an [int] to an unsigned type of 32 / 64 bits. *)
Definition u32_of_int (z : Z) : N := Z.to_N (z mod 2 ^ 32)%Z.
Definition u64_of_int (z : Z) : N := Z.to_N (z mod 2 ^ 64)%Z.
(** Conversion of a uint32_t to int (two's complement). *)
Definition int_of_u32 (x : N) : Z :=
  if x <? 2 ^ 31 then Z.of_N x else (Z.of_N x - 2 ^ 32)%Z.

(** Shifts of a uint32_t / uint64_t by an [int] count. *)
Definition shl32 (m : mode) (x : N) (n : Z) : res N :=
  match m with
  | ISO => if ((0 <=? n) && (n <? 32))%Z then Ok (w32 (N.shiftl x (Z.to_N n)))
           else Undef WideShift
  | X86 _ => Ok (w32 (N.shiftl x (Z.to_N (n mod 32)%Z)))
  end.
Definition shr32 (m : mode) (x : N) (n : Z) : res N :=
  match m with
  | ISO => if ((0 <=? n) && (n <? 32))%Z then Ok (N.shiftr x (Z.to_N n))
           else Undef WideShift
  | X86 _ => Ok (N.shiftr x (Z.to_N (n mod 32)%Z))
  end.
Definition shl64 (m : mode) (x : N) (n : Z) : res N :=
  match m with
  | ISO => if ((0 <=? n) && (n <? 64))%Z then Ok (w64 (N.shiftl x (Z.to_N n)))
           else Undef WideShift
  | X86 _ => Ok (w64 (N.shiftl x (Z.to_N (n mod 64)%Z)))
  end.
Definition shr64 (m : mode) (x : N) (n : Z) : res N :=
  match m with
  | ISO => if ((0 <=? n) && (n <? 64))%Z then Ok (N.shiftr x (Z.to_N n))
           else Undef WideShift
  | X86 _ => Ok (N.shiftr x (Z.to_N (n mod 64)%Z))
  end.

(** ** Bytes in memory (little-endian machine) *)

(** The [n] bytes of [x], least significant first. *)
Fixpoint to_le (n : nat) (x : N) : list N :=
  match n with
  | O => []
  | S k => x mod 2 ^ 8 :: to_le k (x / 2 ^ 8)
  end.

(** The number stored in the bytes [l], least significant first. *)
Fixpoint of_le (l : list N) : N :=
  match l with
  | [] => 0
  | b :: r => b + 2 ^ 8 * of_le r
  end.

Definition len {A} (l : list A) : N := N.of_nat (List.length l).

(** Element access [v[i]] for a [size_t] index. *)
Definition at_ {A} (v : list A) (i : N) : res A :=
  if i <? len v
  then match nth_error v (N.to_nat i) with Some x => Ok x | None => Undef OutOfBounds end
  else Undef OutOfBounds.

(** Access with an [int] index: a negative one becomes a huge [size_t]. *)
Definition at_int {A} (v : list A) (i : Z) : res A :=
  if (0 <=? i)%Z then at_ v (Z.to_N i) else Undef OutOfBounds.

Fixpoint mapM {A B} (f : A -> res B) (l : list A) : res (list B) :=
  match l with
  | [] => Ok []
  | a :: r => b <- f a ;; bs <- mapM f r ;; Ok (b :: bs)
  end.

(** ** Bounded loops with a binary budget

    [ploop p step s] runs [step] at most [p] times; [inl] means "go on",
    [inr] means "the loop was left with this result". *)
Fixpoint ploop {S R : Type} (p : positive) (step : S -> S + R) (s : S) : S + R :=
  match p with
  | xH => step s
  | xO q => match ploop q step s with
            | inl s' => ploop q step s'
            | inr r => inr r
            end
  | xI q => match step s with
            | inl s1 => match ploop q step s1 with
                        | inl s2 => ploop q step s2
                        | inr r => inr r
                        end
            | inr r => inr r
            end
  end.

(** The same loop with a unary budget. *)
Fixpoint nloop {S R : Type} (n : nat) (step : S -> S + R) (s : S) : S + R :=
  match n with
  | O => inl s
  | Datatypes.S k => match step s with
                     | inl s' => nloop k step s'
                     | inr r => inr r
                     end
  end.
