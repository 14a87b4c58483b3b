(** Property C102: memory that runs out while Kuznyechik computes. *)
From Verif Require Import Base KuzModel DeepModel SpecDeep SpecIter SpecEff KuzMemModel KuzMemProofs KuzFacts.
Local Open Scope N_scope.

(** With memory that never runs out the model is that of C42 and C50. *)
Theorem C102_same {W} (m : mode) (data : nat -> @blk W * @blk W) d o s :
  mem_value (mret tt) m data d o s = value m data d o s.
Proof. apply mem_value_same. Qed.

(** Any number of encryptions with any keys that are used again and again, while memory runs
    out whenever it likes: each gives the right block, or what the allocation threw. *)
Theorem C102_encrypt {W} (alloc : M W unit) (m : mode) (kd : nat -> kblock * kblock) (calls : list (kblock * nat)) w d :
  or_throws alloc (Ok tt) -> (840 <= d)%nat ->
  Forall2 (fun r x => r = x \/ exists w e, fst (alloc w) = Throw e /\ r = Throw e)
    (fst (mem_values alloc m (fixed_data kd) d (map (fun c => BEncrypted (BFixed (fst c)) (snd c)) calls) (fresh w)))
    (map (fun c => KEncrypted (fst c) (Key_blocks (fst (kd (snd c))) (snd (kd (snd c))))) calls).
Proof. apply c102_encrypt. Qed.

(** Once there is memory again, all is as if nothing had happened. *)
Theorem C102_recovers {W} (alloc : M W unit) (enough : W -> Prop) (m : mode) (kd : nat -> kblock * kblock)
    (before after : list (kblock * nat)) w d rs s :
  or_throws alloc (Ok tt) -> (forall w, enough w -> fst (alloc w) = Ok tt /\ enough (snd (alloc w))) -> (840 <= d)%nat ->
  mem_values alloc m (fixed_data kd) d (map (fun c => BEncrypted (BFixed (fst c)) (snd c)) before) (fresh w) = (rs, s) ->
  enough (st_world s) ->
  fst (mem_values alloc m (fixed_data kd) d (map (fun c => BEncrypted (BFixed (fst c)) (snd c)) after) s) =
  map (fun c => KEncrypted (fst c) (Key_blocks (fst (kd (snd c))) (snd (kd (snd c))))) after.
Proof. apply c102_recovers. Qed.

(** The MAC, with a key used before. *)
Theorem C102_imit {W I} (alloc : M W unit) (enough : W -> Prop) (m : mode) (kd : nat -> kblock * kblock)
    (before : list (kblock * nat)) (ops : iter_ops I) iter k fuel w d rs s :
  or_throws alloc (Ok tt) -> (forall w, enough w -> fst (alloc w) = Ok tt /\ enough (snd (alloc w))) ->
  (174 * fuel + 846 <= d)%nat ->
  mem_values alloc m (fixed_data kd) d (map (fun c => BEncrypted (BFixed (fst c)) (snd c)) before) (fresh w) = (rs, s) ->
  let r := fst (mem_DImit alloc m (fixed_data kd) d fuel ops iter k s) in
  let x := KImit fuel m ops iter (Key_blocks (fst (kd k)) (snd (kd k))) in
  (r = x \/ exists w e, fst (alloc w) = Throw e /\ r = Throw e) /\ (enough (st_world s) -> r = x).
Proof. apply c102_imit. Qed.

(** The block number [n] of StCTREncrypted, with a key used before. *)
Theorem C102_ctr {W} (alloc : M W unit) (enough : W -> Prop) (m : mode) (kd : nat -> kblock * kblock)
    (before : list (kblock * nat)) r iv n k w d rs s :
  or_throws alloc (Ok tt) -> (forall w, enough w -> fst (alloc w) = Ok tt /\ enough (snd (alloc w))) ->
  (n + 841 <= d)%nat ->
  mem_values alloc m (fixed_data kd) d (map (fun c => BEncrypted (BFixed (fst c)) (snd c)) before) (fresh w) = (rs, s) ->
  let c := fst (mem_CTR_value alloc m (fixed_data kd) d (BFixed r) iv n k s) in
  let x := KXored r (KEncrypted (Nat.iter n KIncremented (Ok (0, iv))) (Key_blocks (fst (kd k)) (snd (kd k)))) in
  (c = x \/ exists w e, fst (alloc w) = Throw e /\ c = Throw e) /\ (enough (st_world s) -> c = x).
Proof. apply c102_ctr. Qed.

(** Any objects of the library over any keys made of them, the blocks of StCTREncrypted
    included: what a call returns is what it returns on new objects with memory enough. *)
Theorem C102_any {W} (alloc : M W unit) (m : mode) (data : nat -> @blk W * @blk W) (os : list blk) :
  or_throws alloc (Ok tt) -> built_in_order data -> pure_data data -> Forall pure os ->
  exists d0, forall d w, (d0 <= d)%nat ->
  Forall2 (fun r o => r = fst (value m data d o (fresh w)) \/ exists w e, fst (alloc w) = Throw e /\ r = Throw e)
    (fst (mem_values alloc m data d os (fresh w))) os.
Proof. apply c102_any. Qed.

(** The 101st allocation fails, all later ones succeed: the third round key is half made when the
    first call throws; the second one gives the ciphertext of the standard. *)
Definition fails_once : M (option N) unit := fun w =>
  match w with
  | None => (Ok tt, None)
  | Some n => if n =? 0 then (Throw (UserExn 1), None) else (Ok tt, Some (n - 1))
  end.

Example C102_example :
  let kd := fun _ : nat => (Ok (0x0011223344556677, 0x8899aabbccddeeff), Ok (0x0123456789abcdef, 0xfedcba9876543210)) in
  let call := (Ok (0xffeeddccbbaa9988, 0x1122334455667700), 0%nat) in
  let os := map (fun c => BEncrypted (BFixed (fst c)) (snd c)) [call] in
  or_throws fails_once (Ok tt) /\
  (forall w, w = None -> fst (fails_once w) = Ok tt /\ snd (fails_once w) = None) /\
  let s := snd (mem_values fails_once ISO (fixed_data kd) 840 os (fresh (Some 100))) in
  fst (mem_values fails_once ISO (fixed_data kd) 840 os (fresh (Some 100))) = [Throw (UserExn 1)] /\
  st_world s = None /\ st_log s = [1; 0]%nat /\
  fst (mem_values fails_once ISO (fixed_data kd) 840 os s) = [Ok (0x5a468d42b9d4edcd, 0x7f679d90bebc2430)].
Proof.
  intros kd call os.
  assert (A : or_throws fails_once (Ok tt)).
  { intros [n|]; cbn; [destruct (n =? 0); cbn; eauto|now left]. }
  assert (B : forall w, w = None -> fst (fails_once w) = Ok tt /\ snd (fails_once w) = None) by (intros w ->; now split).
  split; [exact A|]. split; [exact B|]. cbv zeta.
  destruct (mem_values fails_once ISO (fixed_data kd) 840 os (fresh (Some 100))) as [rs s] eqn:E.
  assert (F : (fst (mem_values fails_once ISO (fixed_data kd) 840 os (fresh (Some 100))),
               st_world (snd (mem_values fails_once ISO (fixed_data kd) 840 os (fresh (Some 100)))),
               st_log (snd (mem_values fails_once ISO (fixed_data kd) 840 os (fresh (Some 100))))) =
              ([Throw (UserExn 1)], None, [1; 0]%nat)) by (vm_compute; reflexivity).
  rewrite E in F. cbn [fst snd] in *. injection F as F1 F2 F3.
  split; [exact F1|]. split; [exact F2|]. split; [exact F3|].
  etransitivity; [exact (C102_recovers fails_once (fun w => w = None) ISO kd [call] [call] (Some 100) 840 rs s A B (Nat.le_refl _) E F2)|].
  clear. vm_compute. reflexivity.
Qed.

Print Assumptions C102_same.
Print Assumptions C102_encrypt.
Print Assumptions C102_recovers.
Print Assumptions C102_imit.
Print Assumptions C102_ctr.
Print Assumptions C102_any.
