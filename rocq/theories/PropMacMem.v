(** Property C107: MACs when memory runs out or a key fails. *)
From Verif Require Import Base MagmaModel Streams EffModel MemModel MacMemModel SpecModes SpecStreams SpecEff Lib
  EffProofs MemProofs MacMemProofs.
Local Open Scope N_scope.

(** With functions for keys and memory enough the model is that of Streams.v. *)
Theorem C107_same {W St} (rd : reader W St) m (k : key) fuel s data w :
  mem_Imit (mret tt) rd m (act_cast (quiet k)) fuel s w = magma_Imit rd m fuel s (cast_lazy k) w /\
  mem_DataImit (mret tt) (act_cast (quiet k)) data w = (DataImit data (cast_lazy k), w).
Proof. exact (conj (same_imit k rd m fuel s w) (same_dataimit k data w)). Qed.

(** [alloc] takes memory or throws, the key answers like [k] or throws, when and what is
    left open. Imit::value does what it does with memory enough and the key [k]; or it
    throws after some successful reads of 8 bytes. *)
Theorem C107_imit {W1 W2 St} (alloc : M W2 unit) (rd : reader W1 St) m (a : act_key W2) (k : key) fuel s
    w1 w2 out w1' w2' :
  or_throws alloc (Ok tt) -> unreliable a k ->
  mem_Imit (on_right alloc) (left_reader rd) m (act_cast (right_key a)) fuel s (w1, w2) = (out, (w1', w2')) ->
  magma_Imit rd m fuel s (cast_lazy k) w1 = (out, w1') \/
  exists e n, out = Throw e /\ exists bs s', reads rd s (repeat 8 n) w1 = (Ok (bs, s'), w1').
Proof. intros Ha H. exact (scarce_imit alloc Ha a k H rd m fuel s w1 w2 out w1' w2'). Qed.

(** So a MAC that is returned is the MAC. *)
Theorem C107_never_wrong {W1 W2 St} (alloc : M W2 unit) (rd : reader W1 St) m (a : act_key W2) (k : key) fuel s
    w1 w2 v w :
  or_throws alloc (Ok tt) -> unreliable a k ->
  mem_Imit (on_right alloc) (left_reader rd) m (act_cast (right_key a)) fuel s (w1, w2) = (Ok v, w) ->
  fst (magma_Imit rd m fuel s (cast_lazy k) w1) = Ok v.
Proof.
  intros Ha H E. destruct w as [w1' w2'].
  destruct (scarce_imit alloc Ha a k H rd m fuel s w1 w2 _ _ _ E) as [R|(e & n & R & _)]; [now rewrite R|discriminate].
Qed.

(** DataImit::value likewise; it reads nothing and leaves nothing behind. *)
Theorem C107_dataimit {W1 W2} (alloc : M W2 unit) (a : act_key W2) (k : key) data (w1 : W1) w2 :
  or_throws alloc (Ok tt) -> unreliable a k ->
  exists w2', mem_DataImit (on_right alloc) (act_cast (right_key a)) data (w1, w2) =
      (DataImit data (cast_lazy k), (w1, w2')) \/
    exists e, mem_DataImit (on_right alloc) (act_cast (right_key a)) data (w1, w2) = (Throw e, (w1, w2')).
Proof. intros Ha H. exact (scarce_dataimit alloc Ha a k H data w1 w2). Qed.

(** Memory fails at request number [n] ([UserExn 0] stands for bad_alloc). The MAC of 16
    bytes makes eight to ten requests; if one fails nothing is returned, and asking again
    with the source as it was gives the MAC. *)
Definition fails_at (n : nat) : M nat unit := fun w => (if Nat.eqb w n then Throw (UserExn 0) else Ok tt, Datatypes.S w).
Definition a_key : key :=
  KLazy (LazyKey (fun i => Ok (w32 (0x9e3779b9 * Z.to_N (i + 1)))) (fun v => Ok (w32 (v * 5 + 7)))).
Definition bytes_source : reader unit bytes := fun s n w => (Ok (firstn (N.to_nat n) s, skipn (N.to_nat n) s), w).

Example C107_example_memory n : or_throws (fails_at n) (Ok tt) /\ @unreliable nat (quiet a_key) a_key.
Proof.
  split.
  - intros w. unfold fails_at. cbn [fst]. destruct (Nat.eqb w n); [right; now eexists|now left].
  - split; intros ? ?; now left.
Qed.

Example C107_example :
  let data := map N.of_nat (seq 0 16) in
  let imit n w := mem_Imit (on_right (fails_at n)) (left_reader bytes_source) (X86 (fun _ _ => 0)) (act_cast (right_key (quiet a_key))) 5 data (tt, w) in
  let mac := fst (magma_Imit bytes_source (X86 (fun _ _ => 0)) 5 data (cast_lazy a_key) tt) in
  (exists v, mac = Ok v) /\
  imit 5%nat 0%nat = (Throw (UserExn 0), (tt, 6%nat)) /\ fst (imit 5%nat 6%nat) = mac /\
  imit 7%nat 0%nat = (Throw (UserExn 0), (tt, 8%nat)) /\ fst (imit 7%nat 8%nat) = mac /\
  fst (imit 20%nat 0%nat) = mac.
Proof. vm_compute. split; [eexists; reflexivity|]. repeat split; reflexivity. Qed.

Example C107_example_dataimit :
  let data := [1; 2; 3] in
  let imit n w := mem_DataImit (on_right (fails_at n)) (act_cast (right_key (quiet a_key))) data (tt, w) in
  imit 3%nat 0%nat = (Throw (UserExn 0), (tt, 4%nat)) /\ fst (imit 3%nat 4%nat) = DataImit data (cast_lazy a_key) /\
  exists v, DataImit data (cast_lazy a_key) = Ok v.
Proof. vm_compute. repeat split; try reflexivity. eexists; reflexivity. Qed.

Print Assumptions C107_same.
Print Assumptions C107_imit.
Print Assumptions C107_never_wrong.
Print Assumptions C107_dataimit.
