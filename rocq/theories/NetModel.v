(** Several threads using one kuznyechik::Key or one magma::LazyKey: the code of
    DeepModel.v and MagmaModel.v as programs over the shared caches of ConcModel.v. *)
From Verif Require Import Base KuzModel DeepModel MagmaModel ConcModel.
Local Open Scope N_scope.

(** ** Kuznyechik *)

Section Kuz.
(** [data]: as in DeepModel.v; BlkCached object number n is object n of ConcModel.v. Block
    classes of the user are left out (BUser). *)
Context {W A : Type} (m : mode) (data : nat -> @blk W * @blk W).

(** value() of each class, given what is done with the value; [d] as in DeepModel.value. *)
Fixpoint value_prog (d : nat) (o : @blk W) (k : N * N -> prog A) : prog A :=
  match d with
  | O => Ret OutOfFuel
  | S d =>
      match o with
      | BRaw v => k v
      | BFixed r => plift r k
      | BUser _ => Ret OutOfFuel
      | BXored a b =>
          value_prog d a (fun x => value_prog d b (fun y => plift (KXored (Ok x) (Ok y)) k))
      | BShifted a n => value_prog d a (fun x => plift (KShifted m (Ok x) n) k)
      | BIncremented a => value_prog d a (fun x => plift (KIncremented (Ok x)) k)
      | BR a => value_prog d a (fun x => plift (KR (Ok x)) k)
      | BL a => value_prog d (transform a 16) k
      | BS a => value_prog d a (fun x => plift (KS (Ok x)) k)
      | BIterKey ka kb c1 c2 =>
          plift (generate (Z.to_nat (c2 - c1 + 1)) kb ka c1 c2) (fun t => value_prog d t k)
      | BCached n => blk_call n (value_prog d (heap data n)) k
      | BEncrypted a key => value_prog d (encrypt key a) k
      | BIfHighBit a b =>
          value_prog d a (fun x =>
            if N.land (snd x) 0x8000000000000000 =? 0 then value_prog d (BShifted a 1) k
            else value_prog d (BXored (BShifted a 1) b) k)
      end
  end.
End Kuz.

(** A thread evaluates the object. *)
Definition blk_value_prog {W} (m : mode) (data : nat -> @blk W * @blk W) (d : nat) (o : @blk W)
    : prog (N * N) :=
  value_prog m data d o (fun v => Ret (Ok v)).

(** ** Magma *)

Section Magma.
(** A LazyKey over KeyCachedData object [o], which wraps [kd], with table [sb]. *)
Context {A : Type} (o : nat) (kd : keydata) (sb : sbox).

(** LazyKey::transform, goost/magma/LazyKey.cpp:40-43 *)
Definition transform_prog (v : N) (index : Z) (k : N -> prog A) : prog A :=
  key_call o kd index (fun kw => plift (sb (w32 (w32 kw + v))) (fun r => k (w32 r))).

(** BlkForwarded::value, goost/magma/BlkForwarded.cpp:18-34 *)
Definition forwarded_prog (ab : N * N) (k : N * N -> prog A) : prog A :=
  let '(a, b) := ab in
  transform_prog a 0 (fun t => let b := N.lxor b t in
  transform_prog b 1 (fun t => let a := N.lxor a t in
  transform_prog a 2 (fun t => let b := N.lxor b t in
  transform_prog b 3 (fun t => let a := N.lxor a t in
  transform_prog a 4 (fun t => let b := N.lxor b t in
  transform_prog b 5 (fun t => let a := N.lxor a t in
  transform_prog a 6 (fun t => let b := N.lxor b t in
  transform_prog b 7 (fun t => let a := N.lxor a t in
  k (a, b))))))))).

(** BlkBackwarded::value, goost/magma/BlkBackwarded.cpp:17-33 *)
Definition backwarded_prog (ab : N * N) (k : N * N -> prog A) : prog A :=
  let '(a, b) := ab in
  transform_prog a 7 (fun t => let b := N.lxor b t in
  transform_prog b 6 (fun t => let a := N.lxor a t in
  transform_prog a 5 (fun t => let b := N.lxor b t in
  transform_prog b 4 (fun t => let a := N.lxor a t in
  transform_prog a 3 (fun t => let b := N.lxor b t in
  transform_prog b 2 (fun t => let a := N.lxor a t in
  transform_prog a 1 (fun t => let b := N.lxor b t in
  transform_prog b 0 (fun t => let a := N.lxor a t in
  k (a, b))))))))).

(** BlkEncrypted, goost/magma/BlkEncrypted.cpp:14-38, of a block with value [ab] *)
Definition encrypted_prog (ab : N * N) (k : N * N -> prog A) : prog A :=
  forwarded_prog ab (fun x => forwarded_prog x (fun x => forwarded_prog x (fun x =>
  backwarded_prog x (fun x => k (snd x, fst x))))).

(** BlkDecrypted, goost/magma/BlkDecrypted.cpp:14-38 *)
Definition decrypted_prog (ab : N * N) (k : N * N -> prog A) : prog A :=
  forwarded_prog ab (fun x => backwarded_prog x (fun x => backwarded_prog x (fun x =>
  backwarded_prog x (fun x => k (snd x, fst x))))).
End Magma.

(** What a thread asks of the key: to encrypt or to decrypt a block. *)
Inductive request : Type := Encrypt (ab : N * N) | Decrypt (ab : N * N).

Definition request_prog (o : nat) (kd : keydata) (sb : sbox) (q : request) : prog (N * N) :=
  match q with
  | Encrypt ab => encrypted_prog o kd sb ab (fun v => Ret (Ok v))
  | Decrypt ab => decrypted_prog o kd sb ab (fun v => Ret (Ok v))
  end.

(** What the sequential model answers. *)
Definition respond (k : lazykey) (q : request) : res (N * N) :=
  match q with
  | Encrypt ab => BlkEncrypted (Ok ab) (Some k)
  | Decrypt ab => BlkDecrypted (Ok ab) (Some k)
  end.

(** A thread encrypts a block with outcome [fst c] under Key number [snd c]; [kd]: the blocks
    that high() and low() of the key data of each Key returned to its constructor. *)
Definition kencrypt_prog (m : mode) (kd : nat -> kblock * kblock) (d : nat) (c : kblock * nat)
    : prog (N * N) :=
  blk_value_prog m (fun k => (@BFixed unit (fst (kd k)), BFixed (snd (kd k)))) d
    (BEncrypted (BFixed (fst c)) (snd c)).
