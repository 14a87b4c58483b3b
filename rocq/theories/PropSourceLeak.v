(** C111: which way the branches go and which tables are read while a message is read through
    ECBSource or a CFBSource depends on amounts only. *)
From Verif Require Import Base Text MagmaModel Streams Lib SpecText SpecMagma LeakModel SpecLeak LeakProofs
  StreamLeakProofs SourceLeakModel SpecSourceLeak SourceLeakProofs TestVectors.
Local Open Scope N_scope.

(** ** The functions that record events compute the values of the model *)

Theorem C111_same {W St} (kd : keydata) (sbt : tsbox) (sb : sbox) (get : St -> N -> res (bytes * St)) m
    (s : St) (l r : N) (p : bytes) (size : N) (w : W) :
  (forall v, fst (sbt v) = sb v) ->
  let k := KLazy (LazyKey kd sb) in
  let rd : reader W St := fun s n => lift (get s n) in
  fst (ECBSource_read_t kd sbt get m s size) =
    bind (fst (ECBSource_read rd m (ECBSource s k) size w))
         (fun x => Ok (match x with (d, ECBSource s1 _) => (d, s1, true) | (d, ECBBare s1) => (d, s1, false) end)) /\
  fst (gost_cfb_read_t kd sbt get m size s p l) =
    bind (fst (gost_CFBSource_read rd m (GostCFBSource s k l p) size w))
         (fun x => Ok (fst x, (gcr_source (snd x), gcr_iv (snd x), gcr_plain (snd x)))) /\
  fst (magma_cfb_read_t kd sbt get m size s p l r) =
    bind (fst (magma_CFBSource_read rd m (MagmaCFBSource s k l r p) size w))
         (fun x => Ok (fst x, (mcr_source (snd x), mcr_ivl (snd x), mcr_ivr (snd x), mcr_plain (snd x)))).
Proof.
  intros H. split; [|split]; [now apply ecb_read_same|now apply gost_read_same|now apply magma_read_same].
Qed.

(** ** Any two keys, initial values and messages; sources that deliver the same amounts. The runs
    cannot be told apart by branches and tables, they end the same way, with as many bytes, and
    the new objects are again of the kind the theorem speaks of *)

Theorem C111_ecb {St St'} (get : St -> N -> res (bytes * St)) (get' : St' -> N -> res (bytes * St')) (m : mode)
    (R : St -> St' -> Prop) (k k' : str) (s : St) (s' : St') (size : N) :
  same_amounts get get' R -> R s s' ->
  Forall hex_digit k -> List.length k = 64%nat -> Forall hex_digit k' -> List.length k' = 64%nat ->
  let x := ECBSource_read_t (key_data (LazyKey_string k)) SboxR3412_t get m s size in
  let y := ECBSource_read_t (key_data (LazyKey_string k')) SboxR3412_t get' m s' size in
  both (fun a b => List.length (fst (fst a)) = List.length (fst (fst b)) /\ R (snd (fst a)) (snd (fst b)) /\ snd a = snd b)
       (fst x) (fst y) /\
  branches (snd x) = branches (snd y) /\ tables (snd x) = tables (snd y).
Proof.
  intros HG HR Hk Hl Hk' Hl'.
  exact (ecb_read_alike _ _ _ _ _ _ _ (key_words k Hk Hl) (key_words k' Hk' Hl') quiet_R3412 quiet_R3412 get get' m R HG s s' size HR).
Qed.

Theorem C111_gost_cfb {St St'} (get : St -> N -> res (bytes * St)) (get' : St' -> N -> res (bytes * St')) (m : mode)
    (R : St -> St' -> Prop) (k k' : str) (s : St) (s' : St') (p p' : bytes) (l l' : N) (size : N) :
  same_amounts get get' R -> R s s' -> List.length p = List.length p' ->
  Forall hex_digit k -> List.length k = 64%nat -> Forall hex_digit k' -> List.length k' = 64%nat ->
  let x := gost_cfb_read_t (key_data (LazyKey_string k)) SboxR3412_t get m size s p l in
  let y := gost_cfb_read_t (key_data (LazyKey_string k')) SboxR3412_t get' m size s' p' l' in
  both (fun a b => let '(d, (s1, _, q)) := a in let '(d', (s1', _, q')) := b in
                   List.length d = List.length d' /\ R s1 s1' /\ List.length q = List.length q')
       (fst x) (fst y) /\
  branches (snd x) = branches (snd y) /\ tables (snd x) = tables (snd y).
Proof.
  intros HG HR HP Hk Hl Hk' Hl'.
  exact (gost_read_alike _ _ _ _ _ _ _ (key_words k Hk Hl) (key_words k' Hk' Hl') quiet_R3412 quiet_R3412 get get' m R HG
           s s' p p' l l' size HR HP).
Qed.

Theorem C111_magma_cfb {St St'} (get : St -> N -> res (bytes * St)) (get' : St' -> N -> res (bytes * St')) (m : mode)
    (R : St -> St' -> Prop) (k k' : str) (s : St) (s' : St') (p p' : bytes) (l r l' r' : N) (size : N) :
  same_amounts get get' R -> R s s' -> List.length p = List.length p' ->
  Forall hex_digit k -> List.length k = 64%nat -> Forall hex_digit k' -> List.length k' = 64%nat ->
  let x := magma_cfb_read_t (key_data (LazyKey_string k)) SboxR3412_t get m size s p l r in
  let y := magma_cfb_read_t (key_data (LazyKey_string k')) SboxR3412_t get' m size s' p' l' r' in
  both (fun a b => let '(d, (s1, _, _, q)) := a in let '(d', (s1', _, _, q')) := b in
                   List.length d = List.length d' /\ R s1 s1' /\ List.length q = List.length q')
       (fst x) (fst y) /\
  branches (snd x) = branches (snd y) /\ tables (snd x) = tables (snd y).
Proof.
  intros HG HR HP Hk Hl Hk' Hl'.
  exact (magma_read_alike _ _ _ _ _ _ _ (key_words k Hk Hl) (key_words k' Hk' Hl') quiet_R3412 quiet_R3412 get get' m R HG
           s s' p p' l r l' r' size HR HP).
Qed.

(** ** The same for a whole program of reads, of any sizes *)

Theorem C111_reads {St St'} (get : St -> N -> res (bytes * St)) (get' : St' -> N -> res (bytes * St')) (m : mode)
    (R : St -> St' -> Prop) (k k' : str) (s : St) (s' : St') (p p' : bytes) (l r l' r' : N) (sizes : list N) :
  same_amounts get get' R -> R s s' -> List.length p = List.length p' ->
  Forall hex_digit k -> List.length k = 64%nat -> Forall hex_digit k' -> List.length k' = 64%nat ->
  let kd := key_data (LazyKey_string k) in
  let kd' := key_data (LazyKey_string k') in
  let alike x y := both (Forall2 (fun d d' : bytes => List.length d = List.length d')) (fst x) (fst y) /\
                   branches (snd x) = branches (snd y) /\ tables (snd x) = tables (snd y) in
  alike (reads (fun o n => let '(s, l, q) := o in gost_cfb_read_t kd SboxR3412_t get m n s q l) (s, l, p) sizes)
        (reads (fun o n => let '(s, l, q) := o in gost_cfb_read_t kd' SboxR3412_t get' m n s q l) (s', l', p') sizes) /\
  alike (reads (fun o n => let '(s, l, r, q) := o in magma_cfb_read_t kd SboxR3412_t get m n s q l r) (s, l, r, p) sizes)
        (reads (fun o n => let '(s, l, r, q) := o in magma_cfb_read_t kd' SboxR3412_t get' m n s q l r) (s', l', r', p') sizes).
Proof.
  intros HG HR HP Hk Hl Hk' Hl'. split;
    [exact (gost_reads_alike _ _ _ _ _ _ _ (key_words k Hk Hl) (key_words k' Hk' Hl') quiet_R3412 quiet_R3412 get get' m R HG
              sizes s s' p p' l l' HR HP)
    |exact (magma_reads_alike _ _ _ _ _ _ _ (key_words k Hk Hl) (key_words k' Hk' Hl') quiet_R3412 quiet_R3412 get get' m R HG
              sizes s s' p p' l r l' r' HR HP)].
Qed.

(** ** Example: sources that give away a vector from the front. 12 bytes of two
    messages of 16 are read with the same branches and different indices; that a third message
    has only 8 bytes shows *)

Definition front (s : bytes) (n : N) : res (bytes * bytes) := Ok (firstn (N.to_nat n) s, skipn (N.to_nat n) s).
Definition a16 : bytes := [1; 2; 3; 4; 5; 6; 7; 8; 9; 10; 11; 12; 13; 14; 15; 16].
Definition b16 : bytes := [8; 7; 6; 5; 4; 3; 2; 1; 9; 10; 11; 12; 13; 14; 15; 16].
Definition plain_x86 : mode := X86 (fun _ _ => 0).

Example C111_example :
  let kd := key_data mkey in
  let run s := gost_cfb_read_t kd SboxR3412_t front plain_x86 12 s [] 5 in
  let run2 s := magma_cfb_read_t kd SboxR3412_t front plain_x86 12 s [] 5 6 in
  same_amounts front front (fun s s' => List.length s = List.length s') /\
  List.length a16 = List.length b16 /\
  (let e := snd (run a16) in let e' := snd (run b16) in
   branches e = branches e' /\ List.length (branches e) = 52%nat /\ List.length (lookups e) = 512%nat /\
   nth 256 (lookups e) (Branch true) <> nth 256 (lookups e') (Branch true) /\
   branches e <> branches (snd (run (firstn 8 a16)))) /\
  (exists d q, fst (run a16) = Ok (d, ([], 0x100f0e0d0c0b0a09, q)) /\ List.length d = 12%nat /\ List.length q = 4%nat) /\
  (exists d q, fst (run2 a16) = Ok (d, ([], 0x0807060504030201, 0x100f0e0d0c0b0a09, q)) /\
     List.length d = 12%nat /\ List.length q = 4%nat) /\
  branches (snd (run2 a16)) = branches (snd (run2 b16)) /\
  (let e := snd (ECBSource_read_t kd SboxR3412_t front ISO a16 8) in
   branches e = [Branch false; Branch false] /\ List.length (lookups e) = 256%nat /\
   lookups e <> lookups (snd (ECBSource_read_t kd SboxR3412_t front ISO b16 8))) /\
  snd (ECBSource_read_t kd SboxR3412_t front ISO a16 7) = [Branch true] /\
  snd (source_xor_t plain_x86 [1; 2; 3; 4] 5 6) =
    map Branch [true; true; true; false; true; false; true; false].
Proof.
  cbv zeta. split.
  { intros s s' H. cbn [both front fst snd]. now rewrite !firstn_length, !skipn_length, H. }
  split; [reflexivity|]. split; [vm_compute; repeat split; discriminate|].
  split; [vm_compute; do 2 eexists; repeat split|]. split; [vm_compute; do 2 eexists; repeat split|].
  vm_compute; repeat split; discriminate.
Qed.

Example C111_example_reads :
  let program s := reads (fun o n => let '(s, l, q) := o in
                            gost_cfb_read_t (key_data mkey) SboxR3412_t front plain_x86 n s q l) (s, 5, []) [3; 7; 0; 9] in
  (exists a b c, fst (program a16) = Ok [a; b; []; c] /\
     List.length a = 3%nat /\ List.length b = 7%nat /\ List.length c = 6%nat) /\
  branches (snd (program a16)) = branches (snd (program b16)) /\
  lookups (snd (program a16)) <> lookups (snd (program b16)).
Proof.
  cbv zeta. split; [vm_compute; do 3 eexists; repeat split|]. vm_compute. split; [reflexivity|discriminate].
Qed.

Print Assumptions C111_same.
Print Assumptions C111_ecb.
Print Assumptions C111_gost_cfb.
Print Assumptions C111_magma_cfb.
Print Assumptions C111_reads.
