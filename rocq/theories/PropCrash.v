(** Property C91: what is stored when writing fails or stops. *)
From Verif Require Import Base Text MagmaModel Streams SpecText SpecMagma SpecModes SpecStreams
  StreamProofs StreamFacts CrashProofs TestVectors.
Local Open Scope N_scope.

(** ** C91 *)

(** A stack of sinks, outermost [x], over any sink, failing or not, written to in any
    pieces; [log] is what the underlying sink was given, at whatever point the caller
    stopped or was stopped (nothing was finalized). It is the encryption of the first [n]
    blocks of the data; after successful writes these are all complete blocks. *)
Theorem C91_stored {W S} (wr : writer W S) m (x : known_layer) (xs : list known_layer) (chunks : list bytes)
    (s : S) (w : W) r w' log :
  Forall known_ok (x :: xs) -> Forall u8 (List.concat chunks) ->
  writes (tower_write (logged wr) m (map kl (x :: xs))) (sink_tower_init s (map kl (x :: xs))) chunks (w, [])
    = (r, (w', log)) ->
  let data := List.concat chunks in
  let n := List.length log in
  (8 * n <= List.length data)%nat /\
  log = map (to_le 8) (tower_encrypt (x :: xs) (blocks8 (firstn (8 * n) data))) /\
  (forall o, r = Ok o -> n = List.length data / 8)%nat.
Proof. apply stored_prefix. Qed.

(** If the first [k] of these writes reached the medium, the mirrored stack of sources
    gives back the first [k] blocks of the data and then the end: in blocks, *)
Theorem C91_readable_blocks {W S} (wr : writer W S) m (x : known_layer) (xs : list known_layer)
    (chunks : list bytes) (s : S) (w : W) r w' log (k : nat) :
  Forall known_ok (x :: xs) -> Forall u8 (List.concat chunks) ->
  writes (tower_write (logged wr) m (map kl (x :: xs))) (sink_tower_init s (map kl (x :: xs))) chunks (w, [])
    = (r, (w', log)) -> (k <= List.length log)%nat ->
  forall W2 St (rd : reader W2 St) (R : St -> W2 -> bytes -> Prop) m2 src w2 n,
    block_source rd R -> R src w2 (List.concat (firstn k log)) ->
    exists o w3,
      reads (tower_read rd m2 (map kl (x :: xs))) (source_tower_init src (map kl (x :: xs))) (repeat 8 n) w2 =
      (Ok (served (firstn (8 * k) (List.concat chunks)) (repeat 8 n), o), w3).
Proof. apply stored_readable_blocks. Qed.

(** and, when the outermost layer is a CFBSource, in pieces of any size. *)
Theorem C91_readable {W S} (wr : writer W S) m (x : known_layer) (xs : list known_layer)
    (chunks : list bytes) (s : S) (w : W) r w' log (k : nat) :
  Forall known_ok (x :: xs) -> is_cfb x -> Forall u8 (List.concat chunks) ->
  writes (tower_write (logged wr) m (map kl (x :: xs))) (sink_tower_init s (map kl (x :: xs))) chunks (w, [])
    = (r, (w', log)) -> (k <= List.length log)%nat ->
  forall W2 St (rd : reader W2 St) (R : St -> W2 -> bytes -> Prop) m2 src w2 sizes,
    block_source rd R -> R src w2 (List.concat (firstn k log)) ->
    exists o w3,
      reads (tower_read rd m2 (map kl (x :: xs))) (source_tower_init src (map kl (x :: xs))) sizes w2 =
      (Ok (served (firstn (8 * k) (List.concat chunks)) sizes, o), w3).
Proof. apply stored_readable. Qed.

(** A disk that is full after two blocks, under CFB over ECB; the data comes in odd pieces.
    Both layers use the key of the tests. *)
Definition TwoBlocks_write : writer N unit := fun s d w =>
  if w =? 2 then (Throw (UserExn 28), w) else (Ok s, w + 1).
Definition layer1 : known_layer :=
  Known (LMagmaCFB (KLazy mkey) 5 6) (Magma_E (number magma_key_str)) (Magma_D (number magma_key_str)).
Definition layer2 : known_layer :=
  Known (LECB (KLazy mkey)) (Magma_E (number magma_key_str)) (Magma_D (number magma_key_str)).
Definition ls : list layer := [LMagmaCFB (KLazy mkey) 5 6; LECB (KLazy mkey)].
Definition text : bytes := List.concat (map (to_le 8) [1; 2; 3; 4]).
Definition attempt : res (sink_tower unit ls) * (N * list bytes) :=
  writes (tower_write (logged TwoBlocks_write) ISO ls) (sink_tower_init tt ls)
    [firstn 3 text; firstn 20 (skipn 3 text); skipn 23 text] (0, []).
Definition readback (cipher : bytes) : option (list bytes) :=
  match fst (reads (tower_read MemSource_read ISO ls) (source_tower_init cipher ls) [5; 100; 1] tt) with
  | Ok x => Some (fst x)
  | _ => None
  end.

Example C91_example_layers : Forall known_ok [layer1; layer2] /\ is_cfb layer1 /\ map kl [layer1; layer2] = ls.
Proof.
  assert (L : List.length magma_key_str = 64%nat) by reflexivity.
  assert (F : Forall hex_digit magma_key_str).
  { assert (F : forallb (fun c => if digit c then true else false) magma_key_str = true) by (vm_compute; reflexivity).
    rewrite forallb_forall in F. apply Forall_forall. intros c Hc. apply F in Hc.
    unfold hex_digit. now destruct (digit c). }
  pose proof (hex_keys magma_key_str L F) as (HE & HD & _).
  split; [|split; [exact I|reflexivity]].
  apply Forall_cons; [|apply Forall_cons; [|apply Forall_nil]];
    (split; [exact HE|split; [exact HD|]]); [split; reflexivity|exact I].
Qed.

Example C91_example :
  fst attempt = Throw (UserExn 28) /\
  List.length (snd (snd attempt)) = 3%nat /\
  readback (List.concat (firstn 2 (snd (snd attempt)))) =
    Some [firstn 5 text; skipn 5 (firstn 16 text); []].
Proof. split; [vm_compute; reflexivity|]. split; vm_compute; reflexivity. Qed.

Print Assumptions C91_stored.
Print Assumptions C91_readable_blocks.
Print Assumptions C91_readable.
