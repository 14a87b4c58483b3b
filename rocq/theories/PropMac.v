(** Properties of magma::Imit and gost89::DataImit: C21, C22, C23 (magma), C24, C25. *)
From Verif Require Import Base Text MagmaModel Streams SpecText SpecMagma SpecModes SpecStreams SpecMac.
From Verif Require Import MacProofs TestVectors.
Local Open Scope N_scope.

(** ** C21: refuted in ISO C++ *)

(** Whatever the source, the key and the message: there is never a result. *)
Theorem C21_refuted {W St} (rd : reader W St) (fuel : positive) (s : St) (k : option lazykey) (w w' : W) v :
  magma_Imit rd ISO fuel s k w <> (Ok v, w').
Proof. apply imit_iso_never. Qed.

(** On non-empty whole-block messages the reason is the over-wide shift of BlkShifted. *)
Theorem C21_refuted_wide_shift {W St} (rd : reader W St) (R : St -> W -> bytes -> Prop) (k : lazykey)
    (E : N -> N) (s : St) (w : W) (data : bytes) (fuel : positive) :
  enciphers (KLazy k) E -> delivers8 rd R -> R s w data -> whole data -> data <> [] ->
  (List.length data / 8 <= Pos.to_nat fuel)%nat ->
  exists w', magma_Imit rd ISO fuel s (Some k) w = (Undef WideShift, w').
Proof. apply imit_iso_delivers. Qed.

(** What remains true, on processors that take the shift count modulo 32: the MAC of the
    standard for every whole-block message, over every source and key. *)
Theorem C21_x86_partial {W St} (rd : reader W St) g (R : St -> W -> bytes -> Prop) (k : lazykey)
    (E : N -> N) (s : St) (w : W) (data : bytes) (fuel : positive) :
  enciphers (KLazy k) E -> delivers8 rd R -> R s w data -> whole data -> data <> [] ->
  (List.length data / 8 + 1 <= Pos.to_nat fuel)%nat ->
  exists w', magma_Imit rd (X86 g) fuel s (Some k) w = (Ok (halves (mac E 64 0x1b (blocks8 data))), w').
Proof.
  intros HE HR Hs Hw Hd Hf. destruct (imit_delivers rd g R k E s w data fuel) as [w' H]; try assumption.
  - apply Hw.
  - exists w'. now rewrite <- mac_of_whole.
Qed.

(** ... and for every message whatsoever, what is computed then. *)
Theorem C21_x86_any_length_partial {W St} (rd : reader W St) g (R : St -> W -> bytes -> Prop) (k : lazykey)
    (E : N -> N) (s : St) (w : W) (data : bytes) (fuel : positive) :
  enciphers (KLazy k) E -> delivers8 rd R -> R s w data -> Forall u8 data ->
  (List.length data / 8 + 1 <= Pos.to_nat fuel)%nat ->
  exists w', magma_Imit rd (X86 g) fuel s (Some k) w = (Ok (halves (imit_x86 E data)), w').
Proof. intros. rewrite <- mac_of_x86. now apply (imit_delivers rd g R). Qed.

(** The example of GOST R 34.13-2015, A.2.6 (64 bits of which the standard prints the
    upper 32). *)
Example C21_example :
  fst (magma_Imit MemSource_read X 10 (le64s P4) (Some mkey) tt)
    = Ok (halves (mac (Magma_E (number magma_key_str)) 64 0x1b P4)) /\
  mac (Magma_E (number magma_key_str)) 64 0x1b P4 / 2 ^ 32 = 0x154e7210 /\
  fst (magma_Imit MemSource_read ISO 10 (le64s P4) (Some mkey) tt) = Undef WideShift.
Proof. split; [|split]; vm_compute; reflexivity. Qed.

(** ** C22: refuted *)

(** Zero bytes can be appended to any incomplete last block without changing the MAC,
    for every key, as long as the block does not become complete. *)
Theorem C22_refuted {W St} (rd : reader W St) g (R : St -> W -> bytes -> Prop) (k : lazykey)
    (E : N -> N) (s1 s2 : St) (w1 w2 : W) (data : bytes) (n : nat) (fuel : positive) :
  enciphers (KLazy k) E -> delivers8 rd R -> Forall u8 data ->
  R s1 w1 data -> R s2 w2 (data ++ repeat 0 n) ->
  (List.length data mod 8 <> 0)%nat -> (List.length data mod 8 + n < 8)%nat ->
  (List.length data / 8 + 1 <= Pos.to_nat fuel)%nat ->
  exists t w1' w2',
    magma_Imit rd (X86 g) fuel s1 (Some k) w1 = (Ok t, w1') /\
    magma_Imit rd (X86 g) fuel s2 (Some k) w2 = (Ok t, w2').
Proof. apply imit_zero_extension. Qed.

(** Non-vacuity: two such messages. Both MACs exist and agree. *)
Example C22_example :
  fst (magma_Imit MemSource_read X 10 [1; 2; 3] (Some mkey) tt) =
  fst (magma_Imit MemSource_read X 10 [1; 2; 3; 0; 0] (Some mkey) tt) /\
  (exists t, fst (magma_Imit MemSource_read X 10 [1; 2; 3] (Some mkey) tt) = Ok t).
Proof. split; [vm_compute; reflexivity|]. eexists. vm_compute. reflexivity. Qed.

(** ** C23, magma part *)

(** Where there are MACs at all (see C21), messages of equal length that differ in one
    block only have different ones; also when the last block is incomplete. *)
Theorem C23_magma_x86_partial {W St} (rd : reader W St) g (R : St -> W -> bytes -> Prop) (k : lazykey)
    (E : N -> N) (s1 s2 : St) (w1 w2 : W) (d1 d2 : bytes) (fuel : positive) :
  enciphers (KLazy k) E -> delivers8 rd R -> R s1 w1 d1 -> R s2 w2 d2 ->
  Forall u8 d1 -> Forall u8 d2 -> List.length d1 = List.length d2 ->
  differ_once (blocks8 d1) (blocks8 d2) ->
  (List.length d1 / 8 + 1 <= Pos.to_nat fuel)%nat ->
  exists t1 t2 w1' w2',
    magma_Imit rd (X86 g) fuel s1 (Some k) w1 = (Ok t1, w1') /\
    magma_Imit rd (X86 g) fuel s2 (Some k) w2 = (Ok t2, w2') /\ t1 <> t2.
Proof. apply imit_detects. Qed.

Example C23_magma_example : differ_once (blocks8 (le64s [1; 2; 3])) (blocks8 (le64s [1; 7; 3])).
Proof. exists [1], 2, 7, [3]. repeat split. discriminate. Qed.

(** ** C24: refuted *)

(** After full blocks [bs], a read(8) that returns fewer than 8 bytes [t] ends the
    message: nothing more is read (the world is that left by this read) and the result
    does not depend on what the source [s2] would still deliver. *)
Theorem C24_refuted {W St} (rd : reader W St) g (k : lazykey) (E : N -> N) (bs : list bytes) (t : bytes)
    (s s1 s2 : St) (w w1 w2 : W) (fuel : positive) :
  enciphers (KLazy k) E ->
  reads rd s (repeat 8 (List.length bs)) w = (Ok (bs, s1), w1) ->
  Forall (fun b => List.length b = 8%nat /\ Forall u8 b) bs ->
  rd s1 8 w1 = (Ok (t, s2), w2) -> (0 < List.length t < 8)%nat -> Forall u8 t ->
  (List.length bs + 1 <= Pos.to_nat fuel)%nat ->
  magma_Imit rd (X86 g) fuel s (Some k) w =
  (Ok (halves (cbc_mac E (K2 E 64 0x1b) 0 (map of_le (bs ++ [t])))), w2).
Proof. apply imit_short_read. Qed.

(** A source of pieces: read returns the next piece, whatever was asked for. *)
Definition PieceSource_read : reader unit (list bytes) := fun s n w =>
  match s with [] => (Ok ([], []), w) | p :: r => (Ok (p, r), w) end.

(** Messages with different ends, the same MAC. *)
Example C24_example :
  let a := [[1; 2; 3; 4; 5; 6; 7; 8]; [9; 10; 11]; [12; 13; 14; 15; 16]] in
  let b := [[1; 2; 3; 4; 5; 6; 7; 8]; [9; 10; 11]; [99; 98; 97; 96; 95]; [1]] in
  fst (magma_Imit PieceSource_read X 10 a (Some mkey) tt) =
  fst (magma_Imit PieceSource_read X 10 b (Some mkey) tt).
Proof. vm_compute. reflexivity. Qed.

(** ** C25 *)

Theorem C25_mac (k : lazykey) (f : nat -> N -> N) (data : bytes) :
  round_functions k f -> Forall u8 data ->
  DataImit data (Some k) = Ok (to_le 8 (mac89 (sixteen_rounds f) (blocks8 (pad89 data)))).
Proof. apply DataImit_ok. Qed.

(** For keys written as 64 hexadecimal digits, with Magma's round functions. *)
Theorem C25_hex_keys (s : str) (data : bytes) :
  List.length s = 64%nat -> Forall hex_digit s -> Forall u8 data ->
  DataImit data (Some (LazyKey_string s)) =
  Ok (to_le 8 (mac89 (sixteen_rounds (fun i => g (key_word (number s) i))) (blocks8 (pad89 data)))).
Proof. intros Hl Hs Hu. apply DataImit_ok; [now apply hex_round_functions|assumption]. Qed.

(** Every key that never fails has round functions; so DataImit is total. *)
Theorem C25_total (k : lazykey) (data : bytes) :
  (forall v i, (0 <= i <= 7)%Z -> exists t, lazy_transform k v i = Ok t) -> Forall u8 data ->
  exists t, DataImit data (Some k) = Ok t /\ List.length t = 8%nat /\ Forall u8 t.
Proof. apply DataImit_total. Qed.

(** The padding is what the standard asks for: zero bytes, whole blocks, two at least. *)
Theorem C25_padding (data : bytes) :
  (exists n, pad89 data = data ++ repeat 0 n) /\
  (List.length (pad89 data) mod 8 = 0)%nat /\ (16 <= List.length (pad89 data))%nat /\
  (16 <= List.length data -> List.length data mod 8 = 0 -> pad89 data = data)%nat /\
  (List.length (pad89 data) < 16 + 1 \/ List.length (pad89 data) < List.length data + 8)%nat.
Proof. apply pad89_properties. Qed.

Example C25_example :
  exists t, DataImit [1; 2; 3] (Some gkey) = Ok t /\ t <> repeat 0 8 /\
            DataImit [] (Some gkey) <> DataImit [1] (Some gkey).
Proof. eexists. split; [vm_compute; reflexivity|split; vm_compute; discriminate]. Qed.

Print Assumptions C21_refuted.
Print Assumptions C21_refuted_wide_shift.
Print Assumptions C21_x86_partial.
Print Assumptions C21_x86_any_length_partial.
Print Assumptions C22_refuted.
Print Assumptions C23_magma_x86_partial.
Print Assumptions C24_refuted.
Print Assumptions C25_mac.
Print Assumptions C25_hex_keys.
Print Assumptions C25_total.
Print Assumptions C25_padding.
