(** How many calls of value() an evaluation makes: the same code as DeepModel.v and
    DeepMagma.v, counting. *)
From Verif Require Import Base MagmaModel Streams KuzModel DeepModel DeepMagma.
Local Open Scope N_scope.

Section Work.
Context {W : Type} (m : mode) (data : nat -> @blk W * @blk W).

(** The calls made after a first evaluation, none if it failed. *)
Definition after {A B} (r : res A * B) (f : A -> B -> nat) : nat :=
  match r with (Ok x, s) => f x s | _ => O end.

(** Calls of value() on objects, the one on [o] included; see [value] in DeepModel.v for
    the lines modelled. Calls that user classes make are not counted. *)
Fixpoint calls (d : nat) (o : @blk W) (s : @state W) : nat :=
  match d with
  | O => O
  | S d =>
      S match o with
        | BRaw _ | BFixed _ | BUser _ => O
        | BXored a b => calls d a s + after (value m data d a s) (fun _ s1 => calls d b s1)
        | BShifted a _ | BIncremented a | BR a | BS a => calls d a s
        | BL a => calls d (transform a 16) s
        | BIterKey ka kb c1 c2 =>
            match generate (Z.to_nat (c2 - c1 + 1)) kb ka c1 c2 with
            | Ok t => calls d t s
            | _ => O
            end
        | BCached n => match st_cache s n with Some _ => O | None => calls d (heap data n) s end
        | BEncrypted a k => calls d (encrypt k a) s
        | BIfHighBit a b =>
            calls d a s +
            after (value m data d a s) (fun x s1 =>
              if (N.land (snd x) 0x8000000000000000 =? 0)%N then calls d (BShifted a 1) s1
              else calls d (BXored (BShifted a 1) b) s1)
        end
  end%nat.

(** kuznyechik::Imit::value: the calls made when the object built by the loop is evaluated
    (goost/kuznyechik/Imit.cpp:71-79). *)
Definition imit_calls {I} (d fuel : nat) (ops : iter_ops I) (iter : res (option I)) (k : nat)
    (s : @state W) : nat :=
  match dimit_object fuel ops iter k with Ok o => calls d o s | _ => O end.

(** ItCTREncrypted::value of the blocks number [i], [i] + 1, ... of a stream in memory, one
    after the other (goost/kuznyechik/StCTREncrypted.cpp:43-61). *)
Fixpoint ctr_calls (d : nat) (iv : N) (k i : nat) (vs : list (N * N)) (s : @state W) : nat :=
  match vs with
  | [] => O
  | v :: r =>
      let o := BXored (BRaw v) (BEncrypted (counter_object iv i) k) in
      (calls d o s + ctr_calls d iv k (S i) r (snd (value m data d o s)))%nat
  end.
End Work.

Section WorkMagma.
Context (m : mode).

(** The same for the objects of magma::Imit, see [mvalue] in DeepMagma.v. *)
Fixpoint mcalls (d : nat) (o : mblk) : nat :=
  match d with
  | O => O
  | S d =>
      S match o with
        | MRaw _ => O
        | MXored a b => mcalls d a + match mvalue m d a with Ok _ => mcalls d b | _ => O end
        | MShifted a _ | MSwapped a | MForwarded a _ | MBackwarded a _ => mcalls d a
        | MEncrypted a k =>
            mcalls d (MSwapped (MBackwarded (MForwarded (MForwarded (MForwarded a k) k) k) k))
        | MImitShifted a =>
            mcalls d a +
            match mvalue m d a with
            | Ok x => if (N.land (snd x) 0x80000000 =? 0)%N then mcalls d (MShifted a 1)
                      else mcalls d (MXored (MShifted a 1) (MRaw (BlkRaw64 0x1b)))
            | _ => O
            end
        | MFinalKey k size =>
            let K1 := MImitShifted (MEncrypted (MRaw BlkRaw0) k) in
            if Nat.eqb size 8 then mcalls d K1 else mcalls d (MImitShifted K1)
        end
  end%nat.

(** magma::Imit::value, goost/magma/Imit.cpp:79-103: the calls made by line 102. *)
Definition magma_imit_calls {W St} (rd : reader W St) (d : nat) (fuel : positive) (data : St)
    (k : option lazykey) (w : W) : nat :=
  match ('(b, s) <-- rd data (N.of_nat block_size) ;;
         mloop fuel (dm_imit_step m rd k) (b, s, MRaw BlkRaw0)) w with
  | (Ok (fk, blk), _) => mcalls d (MEncrypted (MXored blk fk) k)
  | _ => O
  end.
End WorkMagma.
