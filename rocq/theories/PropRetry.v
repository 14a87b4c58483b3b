(** Property C80: writes repeated after a failure of the underlying sink. *)
From Verif Require Import Base Text MagmaModel Streams SpecText SpecMagma SpecModes SpecStreams
  RetryProofs TestVectors.
From Coq Require Import Lia.
Local Open Scope N_scope.

(** ** C80: refuted *)

(** The objects are immutable, so after an exception the caller still has the sink it
    called, and writes the same data again. If that succeeds, the underlying sink has been
    given the whole ciphertext, but after blocks it had been given before: [log1], which
    is not empty. *)
Theorem C80_magma_refuted {W S} (wr : writer W S) m (k : key) (E : N -> N) (ivl ivr : N) (p : bytes) (s : S)
    (data : bytes) (w w1 w2 : W) r1 o2 log1 log2 :
  enciphers k E -> ivl < 2 ^ 64 -> ivr < 2 ^ 64 -> (List.length p < 8)%nat -> Forall u8 p -> Forall u8 data ->
  magma_CFBSink_write (logged wr) m (MagmaCFBSink s k ivl ivr p) data (w, []) = (r1, (w1, log1)) ->
  (forall o, r1 <> Ok o) ->
  magma_CFBSink_write (logged wr) m (MagmaCFBSink s k ivl ivr p) data (w1, log1) = (Ok o2, (w2, log2)) ->
  let cs := map (to_le 8) (cfb_encrypt E [ivl; ivr] (blocks8 (complete (p ++ data)))) in
  log1 <> [] /\ (exists rest, cs = log1 ++ rest) /\ log2 = log1 ++ cs.
Proof. apply magma_retry. Qed.

Theorem C80_gost_refuted {W S} (wr : writer W S) m (k : key) (E : N -> N) (iv : N) (p : bytes) (s : S)
    (data : bytes) (w w1 w2 : W) r1 o2 log1 log2 :
  enciphers k E -> iv < 2 ^ 64 -> (List.length p < 8)%nat -> Forall u8 p -> Forall u8 data ->
  gost_CFBSink_write (logged wr) m (GostCFBSink s k iv p) data (w, []) = (r1, (w1, log1)) ->
  (forall o, r1 <> Ok o) ->
  gost_CFBSink_write (logged wr) m (GostCFBSink s k iv p) data (w1, log1) = (Ok o2, (w2, log2)) ->
  let cs := map (to_le 8) (cfb_encrypt E [iv] (blocks8 (complete (p ++ data)))) in
  log1 <> [] /\ (exists rest, cs = log1 ++ rest) /\ log2 = log1 ++ cs.
Proof. apply gost_retry. Qed.

Theorem C80_ecb_refuted {W S} (wr : writer W S) (k : key) (E : N -> N) (s : S) (data : bytes)
    (w w1 w2 : W) r1 o2 log1 log2 :
  transforms k E -> whole data ->
  ECBSink_write (logged wr) (ECBSink s k) data (w, []) = (r1, (w1, log1)) -> (forall o, r1 <> Ok o) ->
  ECBSink_write (logged wr) (ECBSink s k) data (w1, log1) = (Ok o2, (w2, log2)) ->
  let cs := map (to_le 8) (ecb E (blocks8 data)) in
  log1 <> [] /\ (exists rest, cs = log1 ++ rest) /\ log2 = log1 ++ cs.
Proof. apply ecb_retry. Qed.

(** What a caller can do instead: ask the medium how many blocks [n] it has, build a new
    CFBSink with the last blocks of iv and ciphertext as its register, and write the data
    from there on. The medium then has what it would have if nothing had failed, and the
    new sink continues like the one a successful write would have returned. *)
Theorem C80_magma_resume_partial {W S} (wr : writer W S) m (k : key) (E : N -> N) (ivl ivr : N) (p : bytes)
    (s s3 : S) (data : bytes) (w w3 wR : W) oR logR (n : nat) :
  enciphers k E -> ivl < 2 ^ 64 -> ivr < 2 ^ 64 -> (List.length p < 8)%nat -> Forall u8 p -> Forall u8 data ->
  never_fails wr ->
  magma_CFBSink_write (logged wr) m (MagmaCFBSink s k ivl ivr p) data (w, []) = (Ok oR, (wR, logR)) ->
  (n <= List.length logR)%nat ->
  let reg := [ivl; ivr] ++ map of_le (firstn n logR) in
  exists o3 w3',
    magma_CFBSink_write (logged wr) m (magma_CFBSink_init s3 k (nth n reg 0) (nth (n + 1) reg 0))
      (skipn (8 * n) (p ++ data)) (w3, firstn n logR) = (Ok o3, (w3', logR)) /\
    mcs_ivl o3 = mcs_ivl oR /\ mcs_ivr o3 = mcs_ivr oR /\ mcs_plain o3 = mcs_plain oR.
Proof. apply magma_resume. Qed.

Theorem C80_gost_resume_partial {W S} (wr : writer W S) m (k : key) (E : N -> N) (iv : N) (p : bytes)
    (s s3 : S) (data : bytes) (w w3 wR : W) oR logR (n : nat) :
  enciphers k E -> iv < 2 ^ 64 -> (List.length p < 8)%nat -> Forall u8 p -> Forall u8 data ->
  never_fails wr ->
  gost_CFBSink_write (logged wr) m (GostCFBSink s k iv p) data (w, []) = (Ok oR, (wR, logR)) ->
  (n <= List.length logR)%nat ->
  let reg := [iv] ++ map of_le (firstn n logR) in
  exists o3 w3',
    gost_CFBSink_write (logged wr) m (gost_CFBSink_init s3 k (nth n reg 0))
      (skipn (8 * n) (p ++ data)) (w3, firstn n logR) = (Ok o3, (w3', logR)) /\
    gcs_iv o3 = gcs_iv oR /\ gcs_plain o3 = gcs_plain oR.
Proof. apply gost_resume. Qed.

(** A medium that refuses the third write, and only that. *)
Definition Hiccup_write : writer N unit := fun s d w =>
  if w =? 2 then (Throw (UserExn 5), 3) else (Ok s, w + 1).

Definition mkey : lazykey := LazyKey_string magma_key_str.
Definition text32 : bytes := List.concat (map (to_le 8) [1; 2; 3; 4]).

Example C80_example :
  let o := MagmaCFBSink tt (KLazy mkey) 5 6 [] in
  match magma_CFBSink_write (logged Hiccup_write) ISO o text32 (0, []) with
  | (Throw e, (w1, log1)) =>
      List.length log1 = 3%nat /\
      match magma_CFBSink_write (logged Hiccup_write) ISO o text32 (w1, log1) with
      | (Ok _, (_, log2)) => List.length log2 = 7%nat
      | _ => False
      end
  | _ => False
  end.
Proof. vm_compute. auto. Qed.

Print Assumptions C80_magma_refuted.
Print Assumptions C80_gost_refuted.
Print Assumptions C80_ecb_refuted.
Print Assumptions C80_magma_resume_partial.
Print Assumptions C80_gost_resume_partial.
