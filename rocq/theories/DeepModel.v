(** The block objects of goost/kuznyechik as objects: trees of shared pointers whose
    value() methods call each other, with the mutable caches of the round keys and
    with the number of nested calls bounded by the stack. KuzModel.v is the same code
    with every object replaced by the outcome of its value(). *)
From Verif Require Import Base KuzModel.
Local Open Scope N_scope.

Section Deep.
(** [W]: the state seen by Block classes written by the user. *)
Context {W : Type} (m : mode).

(** Objects of classes derived from Block. BlkCached objects have a number; what they
    wrap is in [heap]. BRaw also stands for the other classes that only return what
    they hold. BFixed: a block with one fixed outcome, for instance a BlkString (it
    may throw). BUser: a class of the user. *)
Inductive blk : Type :=
| BRaw (v : N * N)                      (* BlkRaw.cpp:44-47 *)
| BFixed (r : kblock)                   (* BlkString.cpp:16-24 *)
| BUser (f : M W (N * N))               (* Block.h:13-19 *)
| BXored (a b : blk)                    (* BlkXored.cpp *)
| BShifted (a : blk) (n : Z)            (* BlkShifted.cpp *)
| BIncremented (a : blk)                (* BlkIncremented.cpp *)
| BR (a : blk)                          (* BlkR.cpp *)
| BL (a : blk)                          (* BlkL.cpp *)
| BS (a : blk)                          (* BlkS.cpp *)
| BIterKey (ka kb : blk) (c1 c2 : Z)    (* BlkIterKey.cpp *)
| BCached (n : nat)                     (* BlkCached.cpp *)
| BEncrypted (a : blk) (k : nat)        (* BlkEncrypted.cpp; the Key with number k *)
| BIfHighBit (a b : blk).               (* Imit.cpp:18-42 *)

(** BlkL::transform, goost/kuznyechik/BlkL.cpp:22-29 *)
Fixpoint transform (b : blk) (n : nat) : blk :=
  match n with
  | O => b
  | S k => transform (BR b) k
  end.

(** BlkIterKey::generate, goost/kuznyechik/BlkIterKey.cpp:28-47: builds objects only;
    [n] bounds the depth of the recursion. *)
Fixpoint generate (n : nat) (a b : blk) (i c2 : Z) : res blk :=
  if (c2 <? i)%Z then Ok b
  else match n with
       | O => OutOfFuel
       | S k =>
           if (i =? 2 ^ 31 - 1)%Z then Undef IntOverflow
           else
             let cn := BL (BRaw (u64_of_int i, 0)) in
             generate k b (BXored a (BL (BS (BXored b cn)))) (i + 1)%Z c2
       end.

(** Key number [k] owns the BlkCached objects 10 k .. 10 k + 9 (Key.h:28-37). *)
Definition round_key (k j : nat) : blk := BCached (10 * k + j).

(** Key::encryptStep and Key::encrypt, goost/kuznyechik/Key.cpp:37-57 *)
Definition encrypt_step (b kn : blk) : blk := BL (BS (BXored b kn)).

Definition encrypt (k : nat) (b : blk) : blk :=
  let t1 := encrypt_step b (round_key k 0) in
  let t2 := encrypt_step t1 (round_key k 1) in
  let t3 := encrypt_step t2 (round_key k 2) in
  let t4 := encrypt_step t3 (round_key k 3) in
  let t5 := encrypt_step t4 (round_key k 4) in
  let t6 := encrypt_step t5 (round_key k 5) in
  let t7 := encrypt_step t6 (round_key k 6) in
  let t8 := encrypt_step t7 (round_key k 7) in
  let t9 := encrypt_step t8 (round_key k 8) in
  BXored t9 (round_key k 9).

(** The blocks that high() and low() of the key data of each Key returned to its
    constructor. *)
Context (data : nat -> blk * blk).

(** The object wrapped by a BlkCached: Key::Key, goost/kuznyechik/Key.cpp:23-35 *)
Definition heap (n : nat) : blk :=
  let k := (n / 10)%nat in
  match (n mod 10)%nat with
  | 0%nat => fst (data k)
  | 1%nat => snd (data k)
  | 2%nat => BIterKey (round_key k 0) (round_key k 1) 1 8
  | 3%nat => BIterKey (round_key k 0) (round_key k 1) 1 7
  | 4%nat => BIterKey (round_key k 2) (round_key k 3) 9 16
  | 5%nat => BIterKey (round_key k 2) (round_key k 3) 9 15
  | 6%nat => BIterKey (round_key k 4) (round_key k 5) 17 24
  | 7%nat => BIterKey (round_key k 4) (round_key k 5) 17 23
  | 8%nat => BIterKey (round_key k 6) (round_key k 7) 25 32
  | _ => BIterKey (round_key k 6) (round_key k 7) 25 31
  end.

(** What changes during evaluation: the contents of the caches (BlkCached.cpp:27-28;
    [None] is loaded == false), the state of user blocks and, for the properties only,
    a log of the BlkCached objects whose wrapped block was evaluated (to a value), latest
    first. *)
Record state : Type := State {
  st_cache : nat -> option (N * N); st_world : W; st_log : list nat }.

Definition fill (n : nat) (v : N * N) (s : state) : state :=
  State (fun i => if Nat.eqb i n then Some v else st_cache s i) (st_world s) (st_log s).

Definition evaluated (n : nat) (s : state) : state :=
  State (st_cache s) (st_world s) (n :: st_log s).

(** No cache filled. *)
Definition fresh (w : W) : state := State (fun _ => None) w [].

(** value() of each class, with [d] nested calls of value() left on the stack
    (BlkCached::value with the BlockCache::value it calls counts as one); OutOfFuel is
    the stack overflow. *)
Fixpoint value (d : nat) (o : blk) : M state (N * N) :=
  match d with
  | O => fun s => (OutOfFuel, s)
  | S d =>
      match o with
      | BRaw v => mret v
      | BFixed r => lift r
      | BUser f => fun s => let (r, w) := f (st_world s) in
                            (r, State (st_cache s) w (st_log s))
      | BXored a b => x <-- value d a ;; y <-- value d b ;; lift (KXored (Ok x) (Ok y))
      | BShifted a n => x <-- value d a ;; lift (KShifted m (Ok x) n)
      | BIncremented a => x <-- value d a ;; lift (KIncremented (Ok x))
      | BR a => x <-- value d a ;; lift (KR (Ok x))
      | BL a => value d (transform a 16)
      | BS a => x <-- value d a ;; lift (KS (Ok x))
      | BIterKey ka kb c1 c2 =>
          t <-- lift (generate (Z.to_nat (c2 - c1 + 1)) kb ka c1 c2) ;; value d t
      | BCached n => fun s =>
          match st_cache s n with
          | Some v => (Ok v, s)
          | None => match value d (heap n) s with
                    | (Ok v, s') => (Ok v, fill n v (evaluated n s'))
                    | r => r
                    end
          end
      | BEncrypted a k => value d (encrypt k a)
      | BIfHighBit a b =>
          x <-- value d a ;;
          if N.land (snd x) 0x8000000000000000 =? 0 then value d (BShifted a 1)
          else value d (BXored (BShifted a 1) b)
      end
  end.

(** Calls of value() on one object after the other. *)
Fixpoint values (d : nat) (os : list blk) (s : state) : list (res (N * N)) * state :=
  match os with
  | [] => ([], s)
  | o :: r => let (x, s1) := value d o s in
              let (xs, s2) := values d r s1 in (x :: xs, s2)
  end.

(** Imit::value, goost/kuznyechik/Imit.cpp:51-79, over iterators as in KuzModel.v. *)
Fixpoint dimit_loop {I} (fuel : nat) (ops : iter_ops I) (k : nat) (iter : option I)
    (b : blk) : res (option I * blk) :=
  match fuel with
  | O => OutOfFuel
  | S f =>
      i <- deref iter ;;
      l <- it_last ops i ;;
      if l then Ok (iter, b)
      else v <- it_value ops i ;;
           n <- it_next ops i ;;
           dimit_loop f ops k n (BEncrypted (BXored b (BRaw v)) k)
  end.

(** The object whose value() is returned (lines 64-79). *)
Definition dimit_object {I} (fuel : nat) (ops : iter_ops I) (iter : res (option I)) (k : nat)
  : res blk :=
  it <- iter ;;
  '(it, b) <- dimit_loop fuel ops k it (BRaw (0, 0)) ;;
  let B := BRaw (0x87, 0) in
  let K1 := BIfHighBit (BEncrypted (BRaw (0, 0)) k) B in
  i <- deref it ;;
  v <- it_value ops i ;;
  let xblock := BXored b (BRaw v) in
  sz <- it_size ops i ;;
  Ok (if sz =? kblock_size then BEncrypted (BXored xblock K1) k
      else BEncrypted (BXored xblock (BIfHighBit K1 B)) k).

Definition DImit {I} (d fuel : nat) (ops : iter_ops I) (iter : res (option I)) (k : nat)
  : M state (N * N) :=
  o <-- lift (dimit_object fuel ops iter k) ;; value d o.

(** The counter of the n-th ItCTREncrypted (StCTREncrypted.cpp:58-61,71-74), and
    ItCTREncrypted::value (lines 43-46) over the iterator [it], a Block. *)
Fixpoint counter_object (iv : N) (n : nat) : blk :=
  match n with
  | O => BRaw (0, iv)
  | S k => BIncremented (counter_object iv k)
  end.

Definition DCTR_value (d : nat) (it : blk) (iv : N) (n k : nat) : M state (N * N) :=
  value d (BXored it (BEncrypted (counter_object iv n) k)).
End Deep.
