(** Whole keys shared between threads: C67 (Kuznyechik), C68 (Magma); GOST 28147-89 with
    other tables: C69. *)
From Verif Require Import Base Text MagmaModel Streams KuzModel DeepModel ConcModel NetModel.
From Verif Require Import SpecMagma SpecText SpecStreams SpecDeep SpecConc SpecGost.
From Verif Require Import SboxProofs MagmaSpecProofs StreamProofs DeepProofs ConcProofs NetFacts TestVectors.
From Verif Require SpecKuz KuzProofs.
Local Open Scope N_scope.

(** ** C67: refuted *)

(** Two threads that encrypt under one new Key: every finished execution has a data race,
    under every memory model considered. *)
Theorem C67_refuted_race (m : mode) (kd : nat -> kblock * kblock) (k d : nat) (h : N * N) (mo : order)
    (calls : list (list (N * N))) (tr : list access) (c : config) :
  (840 <= d)%nat -> fst (kd k) = Ok h -> shared calls ->
  exec mo (start new_objects (map (map (fun v => kencrypt_prog m kd d (Ok v, k))) calls)) tr c ->
  finished c -> race tr.
Proof.
  intros Hd Hk Hs. apply (race_of (10 * k)); [|reflexivity|exact Hs]. intros v. now apply (kencrypt_pending m kd d v k h).
Qed.

(** Where stores may become visible out of order: one of two threads may get its block
    encrypted with all ten round keys zero, whatever the key. *)
Theorem C67_refuted_values (m : mode) (kd : nat -> kblock * kblock) (k d : nat) (a b x y : N) :
  (840 <= d)%nat -> a < 2 ^ 128 -> b < 2 ^ 128 -> x < 2 ^ 128 -> y < 2 ^ 128 ->
  kd k = (Ok (SpecKuz.kpair a), Ok (SpecKuz.kpair b)) ->
  exists tr c,
    exec PSO (start new_objects (map (map (kencrypt_prog m kd d))
      [[(Ok (SpecKuz.kpair x), k)]; [(Ok (SpecKuz.kpair y), k)]])) tr c /\
    map (fun t => t_results t) (c_threads c) =
      [[Ok (SpecKuz.kpair (SpecKuz.Kuz_E (a * 2 ^ 128 + b) x))];
       [Ok (SpecKuz.kpair (SpecKuz.encrypt_with (repeat 0 10) y))]].
Proof.
  intros Hd Ha Hb Hx Hy Hk.
  assert (E : KEncrypted (Ok (SpecKuz.kpair x)) (key_of kd k) =
              Ok (SpecKuz.kpair (SpecKuz.Kuz_E (a * 2 ^ 128 + b) x)))
    by (unfold key_of; rewrite Hk; now apply KuzProofs.KEncrypted_blocks).
  assert (Z : KEncrypted (Ok (SpecKuz.kpair y)) zero_key =
              Ok (SpecKuz.kpair (SpecKuz.encrypt_with (repeat 0 10) y)))
    by (apply KuzProofs.Key_encrypt_round_keys; [repeat constructor|exact Hy|reflexivity]).
  destruct (kuz_early m kd d _ (Ok (SpecKuz.kpair y)) k _ Hd E) as (tr & c & H1 & H2).
  exists tr, c. split; [exact H1|]. rewrite H2, Z. reflexivity.
Qed.

(** What does hold. If stores become visible in the order in which they are made: any number
    of threads, keys and blocks, every schedule, exceptions included: each call returns what
    KuzModel.v, which has neither threads nor caches, computes. *)
Theorem C67_values_partial (m : mode) (kd : nat -> kblock * kblock) (d : nat) (mo : order)
    (calls : list (list (kblock * nat))) (tr : list access) (c : config) (i : nat) (t : thread) :
  (840 <= d)%nat -> mo <> PSO ->
  exec mo (start new_objects (map (map (kencrypt_prog m kd d)) calls)) tr c ->
  nth_error (c_threads c) i = Some t ->
  exists js, nth_error calls i = Some js /\
    answered (fun c => KEncrypted (fst c) (Key_blocks (fst (kd (snd c))) (snd (kd (snd c))))) js t.
Proof.
  intros Hd Hmo. apply (results_of _ _ NetProofs.bsize (NetProofs.bval (key_of kd)) (NetProofs.bcan (key_of kd)));
    [|exact Hmo|apply new_ok]. intros x. now apply kencrypt_fine.
Qed.

(** ... which is the cipher of the standard. *)
Theorem C67_standard_partial (m : mode) (kd : nat -> kblock * kblock) (K : nat -> N) (d : nat) (mo : order)
    (calls : list (list (N * nat))) (tr : list access) (c : config) (i : nat) (t : thread) :
  (840 <= d)%nat -> mo <> PSO ->
  (forall k, K k < 2 ^ 256 /\
     kd k = (Ok (SpecKuz.kpair (K k / 2 ^ 128)), Ok (SpecKuz.kpair (K k mod 2 ^ 128)))) ->
  Forall (Forall (fun c => fst c < 2 ^ 128)) calls ->
  exec mo (start new_objects
    (map (map (fun c => kencrypt_prog m kd d (Ok (SpecKuz.kpair (fst c)), snd c))) calls)) tr c ->
  nth_error (c_threads c) i = Some t ->
  exists js, nth_error calls i = Some js /\
    answered (fun c => Ok (SpecKuz.kpair (SpecKuz.Kuz_E (K (snd c)) (fst c)))) js t.
Proof.
  intros Hd Hmo HK Hx.
  apply (results_in _ _ NetProofs.bsize (NetProofs.bval (key_of kd)) (NetProofs.bcan (key_of kd)));
    [|exact Hmo|apply new_ok].
  apply Forall_forall. intros js Hjs. apply Forall_forall. intros [x k] Hin. cbn [fst snd].
  rewrite Forall_forall in Hx. specialize (Hx js Hjs). rewrite Forall_forall in Hx. specialize (Hx _ Hin). cbn [fst] in Hx.
  destruct (HK k) as [Hk Ek].
  assert (E : KEncrypted (Ok (SpecKuz.kpair x)) (key_of kd k) = Ok (SpecKuz.kpair (SpecKuz.Kuz_E (K k) x))).
  { unfold key_of. rewrite Ek. cbn [fst snd].
    assert (Hh : K k / 2 ^ 128 < 2 ^ 128) by (apply N.div_lt_upper_bound; [discriminate|]; rewrite <- N.pow_add_r; exact Hk).
    assert (EK : K k / 2 ^ 128 * 2 ^ 128 + K k mod 2 ^ 128 = K k)
      by (rewrite N.mul_comm; symmetry; apply N.div_mod; discriminate).
    rewrite (KuzProofs.KEncrypted_blocks _ _ x Hh (N.mod_lt (K k) (2 ^ 128) ltac:(discriminate)) Hx).
    rewrite EK. reflexivity. }
  rewrite <- E. exact (kencrypt_fine m kd d (Ok (SpecKuz.kpair x), k) Hd).
Qed.

(** The same for key data and blocks made of any objects of the library, keys of earlier keys
    included: each call returns what it returns when one thread makes just this call. The
    programs of NetModel.v, run by one thread, are the sequential model. *)
Theorem C67_any_objects_partial {W} (m : mode) (data : nat -> @blk W * @blk W) (calls : list (list blk)) :
  built_in_order data -> pure_data data -> Forall (Forall pure) calls ->
  exists d0, forall d w, (d0 <= d)%nat ->
  (forall mo tr c i t, mo <> PSO ->
   exec mo (start new_objects (map (map (blk_value_prog m data d)) calls)) tr c ->
   nth_error (c_threads c) i = Some t ->
   exists os, nth_error calls i = Some os /\ answered (fun o => fst (value m data d o (fresh w))) os t) /\
  fst (alone_calls new_objects (map (blk_value_prog m data d) (List.concat calls))) =
  fst (values m data d (List.concat calls) (fresh w)).
Proof. apply any_objects. Qed.

(** If one thread has encrypted some block with each of the keys before they are shared: no
    races and right values, under every memory model. *)
Theorem C67_warm_partial (m : mode) (kd : nat -> kblock * kblock) (d : nat) (mo : order)
    (before : list (kblock * nat)) (calls : list (list (kblock * nat))) (tr : list access) (c : config) :
  let E c := KEncrypted (fst c) (Key_blocks (fst (kd (snd c))) (snd (kd (snd c)))) in
  (840 <= d)%nat ->
  Forall (Forall (fun c => exists b v, In (b, snd c) before /\ E (b, snd c) = Ok v)) calls ->
  exec mo (start (snd (alone_calls new_objects (map (kencrypt_prog m kd d) before)))
                 (map (map (kencrypt_prog m kd d)) calls)) tr c ->
  ~ race tr /\
  forall i t, nth_error (c_threads c) i = Some t ->
    exists js, nth_error calls i = Some js /\ answered E js t.
Proof.
  intros E Hd Hw. destruct (warm_memory m kd d before Hd) as [_ F].
  apply quiet_in. apply Forall_forall. intros js Hjs. apply Forall_forall. intros x Hin.
  rewrite Forall_forall in Hw. specialize (Hw js Hjs). rewrite Forall_forall in Hw.
  destruct (Hw x Hin) as (b & v & Hb & Hv).
  apply (kencrypt_ro m kd d x _ (key_of kd) Hd). exact (F (b, snd x) v Hb Hv).
Qed.

Definition ex_net_key (k : nat) : kblock * kblock :=
  (Ok (0x0011223344556677, 0x8899aabbccddeeff), Ok (0x0123456789abcdef, 0xfedcba9876543210)).

(** The hypotheses can be met: two threads and one key; there is a finished execution; a call
    made before. *)
Example C67_example :
  let call := (Ok (0xffeeddccbbaa9988, 0x1122334455667700) : kblock, 0%nat) in
  shared [[call]; [call; call]] /\ fst (ex_net_key 0) = Ok (0x0011223344556677, 0x8899aabbccddeeff) /\
  KEncrypted (fst call) (Key_blocks (fst (ex_net_key 0)) (snd (ex_net_key 0))) =
    Ok (0x5a468d42b9d4edcd, 0x7f679d90bebc2430) /\
  outcome SC (repeat (Go 0) 3 ++ repeat (Go 1) 7 ++ repeat (Go 0) 4)
    (start new_objects (map (map (blk_value_prog ISO (@fixed_data unit ex_net_key) 20))
      [[BXored (BCached 0) (BRaw (1, 0))]; [BCached 0]])) =
    Some [([Ok (0x0011223344556676, 0x8899aabbccddeeff)], 0%nat);
          ([Ok (0x0011223344556677, 0x8899aabbccddeeff)], 0%nat)].
Proof.
  intros call. split; [|split; [reflexivity|split; [vm_compute; reflexivity|vm_compute; reflexivity]]].
  exists 0%nat, 1%nat, [call], [call; call]. repeat split; discriminate.
Qed.

(** ** C68: refuted *)

Theorem C68_refuted_race (o : nat) (kd : keydata) (sb : sbox) (val : nat -> N) (mo : order)
    (calls : list (list request)) (tr : list access) (c : config) :
  loads kd val -> shared calls ->
  exec mo (start new_objects (map (map (request_prog o kd sb)) calls)) tr c -> finished c -> race tr.
Proof.
  intros Hl Hs. apply (race_of o); [|reflexivity|exact Hs]. intros q. now apply (request_pending o kd sb val).
Qed.

(** Where stores may become visible out of order: one of two threads may get its block
    encrypted with the zero key, whatever the key. *)
Theorem C68_refuted_values (s : str) (x y : N) :
  List.length s = 64%nat -> Forall hex_digit s -> x < 2 ^ 64 -> y < 2 ^ 64 ->
  exists tr c,
    exec PSO (start new_objects (map (map (request_prog 0 (KeyDataString s) SboxR3412))
      [[Encrypt (halves x)]; [Encrypt (halves y)]])) tr c /\
    map (fun t => t_results t) (c_threads c) =
      [[Ok (halves (Magma_E (number s) x))]; [Ok (halves (Magma_E 0 y))]].
Proof. apply magma_early_string. Qed.

(** What does hold: any number of threads and calls, every schedule, if stores become visible
    in order. *)
Theorem C68_values_partial (o : nat) (kd : keydata) (sb : sbox) (val : nat -> N) (mo : order)
    (calls : list (list request)) (tr : list access) (c : config) (i : nat) (t : thread) :
  loads kd val -> mo <> PSO ->
  exec mo (start new_objects (map (map (request_prog o kd sb)) calls)) tr c ->
  nth_error (c_threads c) i = Some t ->
  exists js, nth_error calls i = Some js /\ answered (respond (LazyKey (KeyCachedData kd) sb)) js t.
Proof.
  intros Hl Hmo. apply (results_of _ _ (fun _ => 8%nat) (fun _ => val) mcan); [|exact Hmo|apply new_ok].
  now apply request_fine.
Qed.

(** ... which for keys given as strings is the cipher of the standard. *)
Theorem C68_standard_partial (o : nat) (s : str) (mo : order)
    (calls : list (list (bool * N))) (tr : list access) (c : config) (i : nat) (t : thread) :
  List.length s = 64%nat -> Forall hex_digit s -> mo <> PSO ->
  Forall (Forall (fun c => snd c < 2 ^ 64)) calls ->
  exec mo (start new_objects (map (map (fun c : bool * N => request_prog o (KeyDataString s) SboxR3412
    (if fst c then Encrypt (halves (snd c)) else Decrypt (halves (snd c))))) calls)) tr c ->
  nth_error (c_threads c) i = Some t ->
  exists js, nth_error calls i = Some js /\
    answered (fun c : bool * N => Ok (halves (if fst c then Magma_E (number s) (snd c) else Magma_D (number s) (snd c)))) js t.
Proof. apply magma_values_string. Qed.

(** If one thread has used the key before it is shared: no races and right values, under every
    memory model. *)
Theorem C68_warm_partial (o : nat) (kd : keydata) (sb : sbox) (val : nat -> N) (mo : order)
    (before : list request) (calls : list (list request)) (tr : list access) (c : config) :
  let E := respond (LazyKey (KeyCachedData kd) sb) in
  loads kd val -> before <> [] -> (forall q, In q before -> exists v, E q = Ok v) ->
  exec mo (start (snd (alone_calls new_objects (map (request_prog o kd sb) before)))
                 (map (map (request_prog o kd sb)) calls)) tr c ->
  ~ race tr /\
  forall i t, nth_error (c_threads c) i = Some t ->
    exists js, nth_error calls i = Some js /\ answered E js t.
Proof.
  intros E Hl Hne Hok. destruct (request_warm o kd sb val before Hl Hne Hok) as [_ F].
  apply quiet_in. apply Forall_forall. intros js _. apply Forall_forall. intros q _. apply F.
Qed.

(** The standard's example by two threads: the first stops while it loads the key, the second
    loads it too. *)
Example C68_example :
  let kd := KeyDataString magma_key_str in
  let calls := [[Encrypt (halves 0xfedcba9876543210)]; [Decrypt (halves 0x4ee901e5c2d8ca3d)]] in
  loads kd (key_word (number magma_key_str)) /\ shared calls /\
  outcome TSO (repeat (Go 0) 5 ++ repeat (Go 1) 74 ++ repeat (Flush 1 0) 9 ++ repeat (Go 0) 69 ++ repeat (Flush 0 0) 9)
    (start new_objects (map (map (request_prog 0 kd SboxR3412)) calls)) =
    Some [([Ok (halves 0x4ee901e5c2d8ca3d)], 0%nat); ([Ok (halves 0xfedcba9876543210)], 0%nat)].
Proof.
  split; [|split; [|vm_compute; reflexivity]].
  - intros i Hi. do 8 (destruct i as [|i]; [split; reflexivity|]). exfalso. Lia.lia.
  - exists 0%nat, 1%nat, [Encrypt (halves 0xfedcba9876543210)], [Decrypt (halves 0x4ee901e5c2d8ca3d)]. repeat split; discriminate.
Qed.

(** ** C69 *)

(** GOST 28147-89 with any eight tables, given as lists of ints or packed, and any eight
    words as key. *)
Theorem C69_nibble (ws t0 t1 t2 t3 t4 t5 t6 t7 : list N) :
  List.length ws = 8%nat -> Forall nibble_table [t0; t1; t2; t3; t4; t5; t6; t7] ->
  let k := KLazy (LazyKey_native ws (SboxTwisted
             (SboxNibble (map Z.of_N t0) (map Z.of_N t1) (map Z.of_N t2) (map Z.of_N t3)
                         (map Z.of_N t4) (map Z.of_N t5) (map Z.of_N t6) (map Z.of_N t7)))) in
  enciphers k (encryption (gost_round [t0; t1; t2; t3; t4; t5; t6; t7] ws)) /\
  deciphers k (decryption (gost_round [t0; t1; t2; t3; t4; t5; t6; t7] ws)).
Proof. apply native_nibble. Qed.

Theorem C69_packed (ws uz : list N) (ts : list (list N)) :
  List.length ws = 8%nat -> packed uz ts -> Forall nibble_table ts -> List.length ts = 8%nat ->
  let k := KLazy (LazyKey_native ws (SboxTwisted (SboxByte uz))) in
  enciphers k (encryption (gost_round ts ws)) /\ deciphers k (decryption (gost_round ts ws)).
Proof. apply native_packed. Qed.

(** The same key written in hexadecimal. *)
Theorem C69_string (s : str) (uz : list N) (ts : list (list N)) :
  List.length s = 64%nat -> Forall hex_digit s ->
  packed uz ts -> Forall nibble_table ts -> List.length ts = 8%nat ->
  let k := KLazy (LazyKey_string_sbox s (SboxTwisted (SboxByte uz))) in
  let ws := map (key_word (number s)) (seq 0 8) in
  enciphers k (encryption (gost_round ts ws)) /\ deciphers k (decryption (gost_round ts ws)).
Proof. apply string_packed. Qed.

Definition bank_sbox : sbox := match map (map Z.of_N) bank_tables with
  | [t0; t1; t2; t3; t4; t5; t6; t7] => SboxTwisted (SboxNibble t0 t1 t2 t3 t4 t5 t6 t7)
  | _ => fun _ => OutOfFuel
  end.

Example C69_example :
  List.length bank_key = 8%nat /\ Forall nibble_table bank_tables /\
  BlkEncrypted (BlkRaw64 0x8877665544332211) (Some (LazyKey_native bank_key bank_sbox)) =
    Ok (halves 0xcb8ad2f9141e2503) /\
  packed Pi_packed Pi /\ Forall nibble_table Pi /\ List.length Pi = 8%nat.
Proof.
  split; [reflexivity|]. split; [repeat (constructor; [split; [reflexivity|repeat constructor]|]); constructor|].
  split; [vm_compute; reflexivity|]. split; [exact Pi_packed_ok|]. split; [exact Pi_tables|reflexivity].
Qed.

Print Assumptions C67_refuted_race.
Print Assumptions C67_refuted_values.
Print Assumptions C67_values_partial.
Print Assumptions C67_standard_partial.
Print Assumptions C67_any_objects_partial.
Print Assumptions C67_warm_partial.
Print Assumptions C68_refuted_race.
Print Assumptions C68_refuted_values.
Print Assumptions C68_values_partial.
Print Assumptions C68_standard_partial.
Print Assumptions C68_warm_partial.
Print Assumptions C69_nibble.
Print Assumptions C69_packed.
Print Assumptions C69_string.
