(** Properties C108 and C109: blocks taken out of ciphertexts. *)
From Verif Require Import Base MagmaModel Streams SpecMagma SpecModes SpecStreams SpecInter.
From Verif Require Import Lib InterProofs TestVectors.
Local Open Scope N_scope.

(** ** C108 *)

(** magma::CFBSink writes what two gost89::CFBSinks write, taking turns: one with the first
    half of the initial value, one with the second. *)
Theorem C108_sink {W S} (wr : writer W S) m (k : key) (E : N -> N) (ivl ivr : N) (s : S)
    (bs : list bytes) (w : W) :
  enciphers k E -> ivl < 2 ^ 64 -> ivr < 2 ^ 64 -> Forall block8 bs -> never_fails wr ->
  exists o o1 o2 w' w1 w2 log,
    writes (magma_CFBSink_write (logged wr) m) (magma_CFBSink_init s k ivl ivr) bs (w, []) = (Ok o, (w', log)) /\
    writes (gost_CFBSink_write (logged wr) m) (gost_CFBSink_init s k ivl) (evens bs) (w, []) = (Ok o1, (w1, evens log)) /\
    writes (gost_CFBSink_write (logged wr) m) (gost_CFBSink_init s k ivr) (odds bs) (w, []) = (Ok o2, (w2, odds log)).
Proof. apply sink_interleaved. Qed.

(** And magma::CFBSource reads what two gost89::CFBSources read. *)
Theorem C108_source {W St} (rd : reader W St) m (R : St -> W -> bytes -> Prop) (k : key) (E : N -> N)
    (ivl ivr : N) (s s1 s2 : St) (bs : list bytes) (w w1 w2 : W) :
  enciphers k E -> delivers8 rd R -> ivl < 2 ^ 64 -> ivr < 2 ^ 64 -> Forall block8 bs ->
  R s w (List.concat bs) -> R s1 w1 (List.concat (evens bs)) -> R s2 w2 (List.concat (odds bs)) ->
  exists ps o o1 o2 w' w1' w2',
    reads (magma_CFBSource_read rd m) (magma_CFBSource_init s k ivl ivr) (map (fun _ => 8) bs) w = (Ok (ps, o), w') /\
    reads (gost_CFBSource_read rd m) (gost_CFBSource_init s1 k ivl) (map (fun _ => 8) (evens bs)) w1 = (Ok (evens ps, o1), w1') /\
    reads (gost_CFBSource_read rd m) (gost_CFBSource_init s2 k ivr) (map (fun _ => 8) (odds bs)) w2 = (Ok (odds ps, o2), w2').
Proof. apply source_interleaved. Qed.

(** The example of the standard (GOST R 34.13-2015, A.2.5), blocks 1 and 3 on their own. *)
Example C108_example :
  let bs := map (to_le 8) P4 in
  Forall block8 bs /\
  evens bs = map (to_le 8) [0x92def06b3c130a59; 0x4a98fb2e67a8024c] /\
  snd (snd (writes (gost_CFBSink_write (logged TestSink_write) ISO) (gost_CFBSink_init [] (KLazy mkey) 0x1234567890abcdef)
         (evens bs) (tt, []))) = map (to_le 8) [0xdb37e0e266903c83; 0x24bdd2035315d38b].
Proof.
  cbv zeta. split; [apply Forall_map, Forall_forall; intros x _; apply to_le_block8|]. split; vm_compute; reflexivity.
Qed.

(** ** C109 *)

(** ECB: blocks of the ciphertext are equal exactly where those of the plaintext are. *)
Theorem C109_equal {W S} (wr : writer W S) (k : key) (E D : N -> N) (s : S) (bs : list bytes) (w : W) :
  enciphers k E -> deciphers k D -> Forall block8 bs -> never_fails wr ->
  exists o w' log,
    writes (ECBSink_write (logged wr)) (ECBSink s k) bs (w, []) = (Ok o, (w', log)) /\
    List.length log = List.length bs /\
    forall i j, (i < List.length bs)%nat -> (j < List.length bs)%nat ->
      (nth i log [] = nth j log [] <-> nth i bs [] = nth j bs []).
Proof.
  intros HE HD Hb Hn. destruct (ecb_pieces wr k E D s bs w HE HD Hb Hn) as (o & w' & log & A & B & C & _).
  exists o, w', log. now split.
Qed.

(** Whatever is put together of blocks of the ciphertext, each as often and in whatever order
    one likes, is deciphered without complaint to the same blocks of the plaintext. *)
Theorem C109_rearranged {W S} (wr : writer W S) (k : key) (E D : N -> N) (s : S) (bs : list bytes) (w : W) :
  enciphers k E -> deciphers k D -> Forall block8 bs -> never_fails wr ->
  exists o w' log,
    writes (ECBSink_write (logged wr)) (ECBSink s k) bs (w, []) = (Ok o, (w', log)) /\
    forall W2 St (rd : reader W2 St) (R : St -> W2 -> bytes -> Prop) m src w2 js,
      block_source rd R -> Forall (fun j => (j < List.length bs)%nat) js ->
      R src w2 (List.concat (pick [] log js)) ->
      exists o2 w3, reads (ECBSource_read rd m) (ECBSource src k) (map (fun _ => 8) js) w2 =
        (Ok (pick [] bs js, o2), w3).
Proof.
  intros HE HD Hb Hn. destruct (ecb_pieces wr k E D s bs w HE HD Hb Hn) as (o & w' & log & A & _ & _ & C).
  exists o, w', log. now split.
Qed.

(** The second of three blocks left out, the first one twice, in another order. *)
Example C109_example :
  let log := map (to_le 8) [0x2b073f0494f372a0; 0xde70e715d3556e48; 0x11d8d9e9eacfbc1e] in
  let bs := map (to_le 8) [0x92def06b3c130a59; 0xdb54c704f8189d20; 0x4a98fb2e67a8024c] in
  snd (snd (writes (ECBSink_write (logged TestSink_write)) (ECBSink [] (KLazy mkey)) bs (tt, []))) = log /\
  pick [] bs [2; 0; 0]%nat = map (to_le 8) [0x4a98fb2e67a8024c; 0x92def06b3c130a59; 0x92def06b3c130a59] /\
  match fst (reads (ECBSource_read MemSource_read ISO)
               (ECBSource (List.concat (pick [] log [2; 0; 0]%nat)) (KLazy mkey)) [8; 8; 8] tt) with
  | Ok (ps, _) => ps = pick [] bs [2; 0; 0]%nat
  | _ => False
  end.
Proof. vm_compute. repeat split. Qed.

Print Assumptions C108_sink.
Print Assumptions C108_source.
Print Assumptions C109_equal.
Print Assumptions C109_rearranged.
