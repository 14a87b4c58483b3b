(** C110: what the machine lets an observer learn while a message goes through a stream. *)
From Verif Require Import Base Text MagmaModel Streams Lib SpecText SpecMagma LeakModel SpecLeak StreamLeakModel
  StreamLeakProofs TestVectors.
Local Open Scope N_scope.

(** ** The functions that record events compute the values of the model *)

Theorem C110_same_sinks {W S} (kd : keydata) (sbt : tsbox) (sb : sbox) (put : S -> bytes -> res S) m
    (s : S) (l r : N) (p data : bytes) (w : W) :
  (forall v, fst (sbt v) = sb v) ->
  let k := KLazy (LazyKey kd sb) in
  let wr : writer W S := fun s d => lift (put s d) in
  fst (ECBSink_write_t kd sbt put s data) =
    bind (fst (ECBSink_write wr (ECBSink s k) data w)) (fun o => Ok (es_sink o)) /\
  fst (gost_cfb_write_t kd sbt put m data p s l) =
    bind (fst (gost_CFBSink_write wr m (GostCFBSink s k l p) data w))
         (fun o => Ok (gcs_sink o, gcs_iv o, gcs_plain o)) /\
  fst (magma_cfb_write_t kd sbt put m data p s l r) =
    bind (fst (magma_CFBSink_write wr m (MagmaCFBSink s k l r p) data w))
         (fun o => Ok (mcs_sink o, mcs_ivl o, mcs_ivr o, mcs_plain o)) /\
  fst (cfb_finalize_t kd sbt put m p s l) = fst (gost_CFBSink_finalize wr m (GostCFBSink s k l p) w) /\
  fst (cfb_finalize_t kd sbt put m p s l) = fst (magma_CFBSink_finalize wr m (MagmaCFBSink s k l r p) w).
Proof.
  intros H. split; [|split; [|split]];
    [now apply ecb_write_same|now apply gost_write_same|now apply magma_write_same|now apply finalize_same].
Qed.

Theorem C110_same_dataimit (kd : keydata) (sbt : tsbox) (sb : sbox) (data : bytes) :
  (forall v, fst (sbt v) = sb v) -> fst (DataImit_t kd sbt data) = DataImit data (Some (LazyKey kd sb)).
Proof. intros H. now apply dataimit_same. Qed.

(** ** The claim is that an observer learns nothing but the length of the message. It holds
    of the branches and of the order in which the tables are read: two runs with any keys,
    initial values and data of the same length cannot be told apart *)

Theorem C110_sinks_partial {S S'} (put : S -> bytes -> res S) (put' : S' -> bytes -> res S') (m m' : mode) (k k' : str)
    (s : S) (s' : S') (l r l' r' : N) (p p' data data' : bytes) :
  (forall s d, exists s1, put s d = Ok s1) -> (forall s d, exists s1, put' s d = Ok s1) ->
  Forall hex_digit k -> List.length k = 64%nat -> Forall hex_digit k' -> List.length k' = 64%nat ->
  List.length data = List.length data' -> List.length p = List.length p' ->
  let kd := key_data (LazyKey_string k) in
  let kd' := key_data (LazyKey_string k') in
  let alike (e e' : list event) := branches e = branches e' /\ tables e = tables e' in
  alike (snd (ECBSink_write_t kd SboxR3412_t put s data)) (snd (ECBSink_write_t kd' SboxR3412_t put' s' data')) /\
  alike (snd (gost_cfb_write_t kd SboxR3412_t put m data p s l))
        (snd (gost_cfb_write_t kd' SboxR3412_t put' m' data' p' s' l')) /\
  alike (snd (magma_cfb_write_t kd SboxR3412_t put m data p s l r))
        (snd (magma_cfb_write_t kd' SboxR3412_t put' m' data' p' s' l' r')) /\
  alike (snd (cfb_finalize_t kd SboxR3412_t put m p s l)) (snd (cfb_finalize_t kd' SboxR3412_t put' m' p' s' l')).
Proof.
  intros Hp Hp' Hk Hl Hk' Hl' HL HP. cbv zeta beta. split; [|split; [|split]];
    [now apply text_ecb_flow|now apply text_gost_flow|now apply text_magma_flow|now apply text_finalize_flow].
Qed.

Theorem C110_dataimit_partial (k k' : str) (data data' : bytes) :
  Forall hex_digit k -> List.length k = 64%nat -> Forall hex_digit k' -> List.length k' = 64%nat ->
  List.length data = List.length data' ->
  branches (snd (DataImit_t (key_data (LazyKey_string k)) SboxR3412_t data)) =
  branches (snd (DataImit_t (key_data (LazyKey_string k')) SboxR3412_t data')) /\
  tables (snd (DataImit_t (key_data (LazyKey_string k)) SboxR3412_t data)) =
  tables (snd (DataImit_t (key_data (LazyKey_string k')) SboxR3412_t data')).
Proof. intros. now apply text_dataimit_flow. Qed.

(** ** Refuted for the indices. The accesses of ECBSink with a given key belong to one message only, *)

Theorem C110_ecb_refuted {S S'} (put : S -> bytes -> res S) (put' : S' -> bytes -> res S') (k : str)
    (s : S) (s' : S') (data data' : bytes) :
  (forall s d, exists s1, put s d = Ok s1) -> (forall s d, exists s1, put' s d = Ok s1) ->
  Forall hex_digit k -> List.length k = 64%nat ->
  List.length data = List.length data' -> Nat.modulo (List.length data) 8 = 0%nat ->
  Forall u8 data -> Forall u8 data' ->
  let kd := key_data (LazyKey_string k) in
  lookups (snd (ECBSink_write_t kd SboxR3412_t put s data)) = lookups (snd (ECBSink_write_t kd SboxR3412_t put' s' data')) ->
  data = data'.
Proof. intros Hp Hp' Hk Hl. now apply text_ecb_reveals. Qed.

(** those of DataImit as well, *)

Theorem C110_dataimit_refuted (k : str) (data data' : bytes) :
  Forall hex_digit k -> List.length k = 64%nat ->
  List.length data = List.length data' -> Forall u8 data -> Forall u8 data' ->
  lookups (snd (DataImit_t (key_data (LazyKey_string k)) SboxR3412_t data)) =
  lookups (snd (DataImit_t (key_data (LazyKey_string k)) SboxR3412_t data')) -> data = data'.
Proof. intros Hk Hl. now apply text_dataimit_reveals. Qed.

(** and those of gost89::CFBSink to one initial value and one message but for its last block; *)

Theorem C110_cfb_refuted {S S'} (put : S -> bytes -> res S) (put' : S' -> bytes -> res S') (m m' : mode) (k : str)
    (j : nat) (data data' : bytes) (s : S) (s' : S') (l l' : N) :
  (forall s d, exists s1, put s d = Ok s1) -> (forall s d, exists s1, put' s d = Ok s1) ->
  Forall hex_digit k -> List.length k = 64%nat ->
  List.length data = (8 * (j + 1))%nat -> List.length data' = (8 * (j + 1))%nat ->
  Forall u8 data -> Forall u8 data' -> l < 2 ^ 64 -> l' < 2 ^ 64 ->
  let kd := key_data (LazyKey_string k) in
  lookups (snd (gost_cfb_write_t kd SboxR3412_t put m data [] s l)) =
  lookups (snd (gost_cfb_write_t kd SboxR3412_t put' m' data' [] s' l')) ->
  l = l' /\ firstn (8 * j) data = firstn (8 * j) data'.
Proof. intros Hp Hp' Hk Hl. now apply text_gost_reveals. Qed.

(** the last block and what follows it leave no trace at all. *)

Theorem C110_cfb_last_partial {S S'} (put : S -> bytes -> res S) (put' : S' -> bytes -> res S') (m m' : mode) (k : str)
    (a b b' : bytes) (s : S) (s' : S') (l : N) :
  (forall s d, exists s1, put s d = Ok s1) -> (forall s d, exists s1, put' s d = Ok s1) ->
  Forall hex_digit k -> List.length k = 64%nat ->
  List.length b = List.length b' -> (List.length b < 16)%nat -> Nat.modulo (List.length a) 8 = 0%nat ->
  let kd := key_data (LazyKey_string k) in
  snd (gost_cfb_write_t kd SboxR3412_t put m (a ++ b) [] s l) =
  snd (gost_cfb_write_t kd SboxR3412_t put' m' (a ++ b') [] s' l).
Proof. intros Hp Hp' Hk Hl. now apply text_gost_last. Qed.

(** magma::CFBSink, with its two registers, hides the last two blocks. *)

Theorem C110_magma_refuted {S S'} (put : S -> bytes -> res S) (put' : S' -> bytes -> res S') (m m' : mode) (k : str)
    (j : nat) (data data' : bytes) (s : S) (s' : S') (l l' r r' : N) :
  (forall s d, exists s1, put s d = Ok s1) -> (forall s d, exists s1, put' s d = Ok s1) ->
  Forall hex_digit k -> List.length k = 64%nat ->
  List.length data = (8 * (j + 2))%nat -> List.length data' = (8 * (j + 2))%nat ->
  Forall u8 data -> Forall u8 data' -> l < 2 ^ 64 -> l' < 2 ^ 64 -> r < 2 ^ 64 -> r' < 2 ^ 64 ->
  let kd := key_data (LazyKey_string k) in
  lookups (snd (magma_cfb_write_t kd SboxR3412_t put m data [] s l r)) =
  lookups (snd (magma_cfb_write_t kd SboxR3412_t put' m' data' [] s' l' r')) ->
  l = l' /\ r = r' /\ firstn (8 * j) data = firstn (8 * j) data'.
Proof. intros Hp Hp' Hk Hl. now apply text_magma_reveals. Qed.

Theorem C110_magma_last_partial {S S'} (put : S -> bytes -> res S) (put' : S' -> bytes -> res S') (m m' : mode) (k : str)
    (a b b' : bytes) (s : S) (s' : S') (l r : N) :
  (forall s d, exists s1, put s d = Ok s1) -> (forall s d, exists s1, put' s d = Ok s1) ->
  Forall hex_digit k -> List.length k = 64%nat ->
  List.length b = List.length b' -> (List.length b < 24)%nat -> Nat.modulo (List.length a) 8 = 0%nat ->
  let kd := key_data (LazyKey_string k) in
  snd (magma_cfb_write_t kd SboxR3412_t put m (a ++ b) [] s l r) =
  snd (magma_cfb_write_t kd SboxR3412_t put' m' (a ++ b') [] s' l r).
Proof. intros Hp Hp' Hk Hl. now apply text_magma_last. Qed.

(** ** Example: a block and one more byte, into a sink that collects. The first key word and the
    low half of the block add up to 0x03f1dfcd, whose digits are the first indices *)

Definition collect (s d : bytes) : res bytes := Ok (s ++ d).
Definition nine : bytes := [1; 2; 3; 4; 5; 6; 7; 8; 9].
Definition other : bytes := [8; 7; 6; 5; 4; 3; 2; 1; 9].

Example C110_example :
  let kd := key_data mkey in
  (forall s d, exists s1, collect s d = Ok s1) /\
  fst (ECBSink_write_t kd SboxR3412_t collect [] nine) = Throw (RuntimeError "Unaligned ECB encryption") /\
  (let e := snd (ECBSink_write_t kd SboxR3412_t collect [] nine) in
   let e' := snd (ECBSink_write_t kd SboxR3412_t collect [] other) in
   List.length (lookups e) = 256%nat /\ List.length (branches e) = 20%nat /\ branches e = branches e' /\
   firstn 8 (lookups e) = [Lookup 0 13; Lookup 1 12; Lookup 2 15; Lookup 3 13; Lookup 4 1; Lookup 5 15; Lookup 6 3; Lookup 7 0] /\
   firstn 8 (lookups e') = [Lookup 0 4; Lookup 1 13; Lookup 2 4; Lookup 3 14; Lookup 4 4; Lookup 5 15; Lookup 6 4; Lookup 7 0]) /\
  snd (gost_cfb_write_t kd SboxR3412_t collect ISO nine [] [] 0x1234567890abcdef) =
  snd (gost_cfb_write_t kd SboxR3412_t collect ISO other [] [] 0x1234567890abcdef) /\
  nth 256 (lookups (snd (gost_cfb_write_t kd SboxR3412_t collect ISO (nine ++ nine) [] [] 7))) (Branch true) <>
  nth 256 (lookups (snd (gost_cfb_write_t kd SboxR3412_t collect ISO (other ++ nine) [] [] 7))) (Branch true) /\
  nth 0 (lookups (snd (DataImit_t kd SboxR3412_t nine))) (Branch true) <>
  nth 0 (lookups (snd (DataImit_t kd SboxR3412_t other))) (Branch true) /\
  List.length (branches (snd (DataImit_t kd SboxR3412_t nine))) = 12%nat.
Proof.
  cbv zeta. split; [intros s d; eexists; reflexivity|].
  split; [vm_compute; reflexivity|]. vm_compute. repeat split; discriminate.
Qed.

Print Assumptions C110_same_sinks.
Print Assumptions C110_same_dataimit.
Print Assumptions C110_sinks_partial.
Print Assumptions C110_dataimit_partial.
Print Assumptions C110_ecb_refuted.
Print Assumptions C110_dataimit_refuted.
Print Assumptions C110_cfb_refuted.
Print Assumptions C110_cfb_last_partial.
Print Assumptions C110_magma_refuted.
Print Assumptions C110_magma_last_partial.
