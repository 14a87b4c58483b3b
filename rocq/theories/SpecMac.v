(** Specification: message authentication as the library's users read it. *)
From Verif Require Import Base MagmaModel SpecMagma SpecModes.
Local Open Scope N_scope.

(** What magma::Imit computes on x86: CBC-MAC over the data, an incomplete last block
    filled up with zero bytes; the last block is masked with K1 if it is complete and
    with K2 if not. Without data the single block is zero, and incomplete. *)
Definition imit_x86 (E : N -> N) (data : list N) : N :=
  match data with
  | [] => cbc_mac E (K2 E 64 0x1b) 0 [0]
  | _ => cbc_mac E (if Nat.eqb (List.length data mod 8) 0 then K1 E 64 0x1b else K2 E 64 0x1b)
                 0 (blocks8 data)
  end.

(** GOST 28147-89, generation of the MAC: sixteen rounds per block, key words in
    ascending order twice. [f i] is the round function with key word i. *)
Definition sixteen_rounds (f : nat -> N -> N) (x : N) : N :=
  let p := fold_left (fun p i => G (f i) p) (seq 0 8 ++ seq 0 8) (x / 2 ^ 32, x mod 2 ^ 32) in
  fst p * 2 ^ 32 + snd p.

(** Zero bytes up to whole blocks, at least two. *)
Definition pad89 (data : list N) : list N :=
  data ++ repeat 0 (Nat.max 16 (8 * ((List.length data + 7) / 8)) - List.length data).

(** Two messages of the same number of blocks that differ in exactly one. *)
Definition differ_once (ps qs : list N) : Prop :=
  exists before p q after,
    ps = before ++ p :: after /\ qs = before ++ q :: after /\ p <> q.

(** The round functions of a key: with word i, [f i] on all 32-bit numbers. *)
Definition round_functions (k : lazykey) (f : nat -> N -> N) : Prop :=
  forall i a, (i < 8)%nat -> a < 2 ^ 32 ->
    lazy_transform k a (Z.of_nat i) = Ok (f i a) /\ f i a < 2 ^ 32.
