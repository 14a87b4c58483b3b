(** Specification: modes of operation (GOST R 34.13-2015 and GOST 28147-89) over an
    arbitrary block cipher given as a function on numbers. *)
From Verif Require Import Base.
Local Open Scope N_scope.

(** ** Byte strings as blocks *)

(** Cut a byte string into pieces of [n] bytes (the last one may be shorter). *)
Fixpoint cut (fuel n : nat) (l : list N) : list (list N) :=
  match fuel, l with
  | S f, _ :: _ => firstn n l :: cut f n (skipn n l)
  | _, _ => []
  end.
Definition pieces (n : nat) (l : list N) : list (list N) := cut (List.length l) n l.

(** The block numbers of a byte string: byte 0 of a block is its least significant. *)
Definition blocks8 (l : list N) : list N := map of_le (pieces 8 l).
Definition unblocks8 (l : list N) : list N := flat_map (to_le 8) l.

(** ** Electronic codebook *)
Definition ecb (E : N -> N) (ps : list N) : list N := map E ps.

(** ** Cipher feedback; the shift register is a list of blocks, head first out. *)
Fixpoint cfb_encrypt (E : N -> N) (reg : list N) (ps : list N) : list N :=
  match ps with
  | [] => []
  | p :: r => let c := N.lxor p (E (hd 0 reg)) in c :: cfb_encrypt E (tl reg ++ [c]) r
  end.

Fixpoint cfb_decrypt (E : N -> N) (reg : list N) (cs : list N) : list N :=
  match cs with
  | [] => []
  | c :: r => N.lxor c (E (hd 0 reg)) :: cfb_decrypt E (tl reg ++ [c]) r
  end.

(** ** Counter mode over n-bit blocks: ctr_1 = IV || 0, ctr_{i+1} = ctr_i + 1 *)
Definition counter (n iv i : N) : N := (iv * 2 ^ (n / 2) + i) mod 2 ^ n.

Fixpoint ctr_from (E : N -> N) (n iv i : N) (ps : list N) : list N :=
  match ps with
  | [] => []
  | p :: r => N.lxor p (E (counter n iv i)) :: ctr_from E n iv (i + 1) r
  end.
Definition ctr (E : N -> N) (n iv : N) (ps : list N) : list N := ctr_from E n iv 0 ps.

(** ** Message authentication code of GOST R 34.13-2015 (full width) *)

(** Doubling: shift left; when the top bit was set, add the constant B. *)
Definition double (n B x : N) : N :=
  if N.testbit x (n - 1) then N.lxor ((2 * x) mod 2 ^ n) B else (2 * x) mod 2 ^ n.

Definition K1 (E : N -> N) (n B : N) : N := double n B (E 0).
Definition K2 (E : N -> N) (n B : N) : N := double n B (K1 E n B).

(** CBC chaining of all blocks but the last, which is masked with [K]. *)
Fixpoint cbc_mac (E : N -> N) (K : N) (state : N) (ps : list N) : N :=
  match ps with
  | [] => state
  | [p] => E (N.lxor (N.lxor state p) K)
  | p :: r => cbc_mac E K (E (N.lxor state p)) r
  end.

(** The MAC of a message of whole blocks. *)
Definition mac (E : N -> N) (n B : N) (ps : list N) : N := cbc_mac E (K1 E n B) 0 ps.

(** ** MAC of GOST 28147-89: 16 rounds per block, at least two blocks, zero padding *)
Definition mac89 (E16 : N -> N) (ps : list N) : N :=
  fold_left (fun s p => E16 (N.lxor s p)) ps 0.

(** ** Exclusive or of blocks written as pairs of halves *)
Definition xor_pair (a b : N * N) : N * N := (N.lxor (fst a) (fst b), N.lxor (snd a) (snd b)).
Definition xor_all (l : list (N * N)) : N * N := fold_right xor_pair (0, 0) l.
