(** Wrapped objects that call their cache back: C101. *)
From Verif Require Import Base CacheModel ReentModel SpecReent ReentProofs.
From Coq Require Import Lia.
Local Open Scope N_scope.

(** ** C101: refuted *)

(** One word, two answers: the object inside was told 101, everybody else is told 100. *)
Theorem C101_refuted (d : nat) : (2 <= d)%nat ->
  exists c w, kr_call curious d 0 (kcache_init, (0, [])) = (Ok 100, (c, w)) /\ snd w = [101] /\
    forall d' w', kr_call curious (S d') 0 (c, w') = (Ok 100, (c, w')).
Proof. apply c101_refuted. Qed.

(** A load that failed counts: from then on the key consists of the first word of that load
    and seven of another one. *)
Theorem C101_refuted_mixed (d : nat) : (2 <= d)%nat ->
  exists c w, kr_call curious_and_weak d 0 (kcache_init, 0) = (Throw (UserExn 1), (c, w)) /\
    forall d' w', fst (kr_calls curious_and_weak (S d') [0; 1; 2; 3; 4; 5; 6; 7]%Z (c, w')) =
      [Ok 100; Ok 102; Ok 103; Ok 104; Ok 105; Ok 106; Ok 107; Ok 108].
Proof. apply c101_refuted_mixed. Qed.

(** An object that always calls back before it answers: no stack is deep enough. *)
Theorem C101_refuted_stack {W} (inner : Z -> script W Z N) (d : nat) (i : Z) (w : W) :
  calls_first (inner 0%Z) -> fst (kr_call inner d i (kcache_init, w)) = OutOfFuel.
Proof. apply c101_refuted_stack. Qed.

Theorem C101_refuted_stack_block {W} (inner : script W unit (N * N)) (d : nat) (w : W) :
  calls_first inner -> fst (br_call inner d tt (bcache_init, w)) = OutOfFuel.
Proof. apply c101_refuted_stack_block. Qed.

(** Blocks: the object inside was told (1, 0), everybody else is told (0, 0). *)
Theorem C101_refuted_block (d : nat) : (2 <= d)%nat ->
  exists c w, br_call curious_block d tt (bcache_init, (0, [])) = (Ok (0, 0), (c, w)) /\ snd w = [(1, 0)] /\
    forall d' w', br_call curious_block (S d') tt (c, w') = (Ok (0, 0), (c, w')).
Proof. apply c101_refuted_block. Qed.

(** What does hold. Objects that do not call back: this is the model of C08 and C41. *)
Theorem C101_same {W} (f : Z -> M W N) (g : M W (N * N)) (d : nat) (h : list Z) (w : W) (c : bcache) :
  kr_calls (fun i => of_M (f i)) (S d) h (kcache_init, w) = kc_calls f h (kcache_init, w) /\
  br_call (of_M g) (S d) tt (c, w) = bc_call g (c, w).
Proof. apply c101_same. Qed.

(** Once a call from outside has returned a word, the answers do not change any more and
    the wrapped object is left alone, whatever it did while it was asked. *)
Theorem C101_settled_partial {W} (inner : Z -> script W Z N) d i c (w : W) v c' w' :
  kr_call inner d i (c, w) = (Ok v, (c', w')) ->
  exists ws, at_int ws i = Ok v /\
    forall d' h w2, kr_calls inner (S d') h (c', w2) = (map (at_int ws) h, (c', w2)).
Proof. apply c101_settled_partial. Qed.

Theorem C101_settled_block_partial {W} (inner : script W unit (N * N)) d c (w : W) v c' w' :
  br_call inner d tt (c, w) = (Ok v, (c', w')) ->
  forall d' w2, br_call inner (S d') tt (c', w2) = (Ok v, (c', w2)).
Proof. apply c101_settled_block_partial. Qed.

(** A wrapped object that never returns anything but eight given words, as long as it is told
    nothing else itself: every answer is right, to everybody, at any depth, after any
    history of calls, exceptions and overflows included. *)
Theorem C101_fixed_partial {W} (inner : Z -> script W Z N) (words : list N) (d : nat) (h : list Z) (w : W) :
  List.length words = 8%nat ->
  (forall i, (i < 8)%nat ->
     says (fun q v => at_int words q = Ok v) (fun v => nth_error words i = Some (w32 v)) (inner (Z.of_nat i))) ->
  Forall2 (fun i r => forall v, r = Ok v -> at_int words i = Ok v) h
    (fst (kr_calls inner d h (kcache_init, w))).
Proof. apply c101_fixed_partial. Qed.

Theorem C101_fixed_block_partial {W} (inner : script W unit (N * N)) (x : N * N) d (w : W) v c' w' :
  says (fun _ v => v = x) (fun v => v = x) inner ->
  br_call inner d tt (bcache_init, w) = (Ok v, (c', w')) -> v = x /\ c' = BCache true x.
Proof. apply c101_fixed_block_partial. Qed.

Example C101_example :
  let words := [100; 101; 102; 103; 104; 105; 106; 107] in
  (forall i, (i < 8)%nat ->
     says (fun q v => at_int words q = Ok v) (fun v => nth_error words i = Some (w32 v)) (honest (Z.of_nat i))) /\
  kr_calls honest 2 [0; 5; 7]%Z (kcache_init, (0, [])) =
    ([Ok 100; Ok 105; Ok 107], (KCache true words, (16, [105]))) /\
  fst (kr_call honest 1 0 (kcache_init, (0, []))) = OutOfFuel /\
  calls_first (Back 0%Z (fun _ => End_ (Ok 0)) : script N Z N) /\
  br_call curious_block 1 tt (bcache_init, (1, [])) = (Ok (1, 0), (BCache true (1, 0), (2, []))).
Proof.
  intros words. split; [|repeat split].
  intros i Hi w. cbn [honest says]. destruct (fst w =? 0).
  - intros [v|e] Hv; [|exact I]. intros _. cbn in Hv. injection Hv as <-.
    do 8 (destruct i as [|i]; [reflexivity|]). lia.
  - do 8 (destruct i as [|i]; [reflexivity|]). lia.
Qed.

Print Assumptions C101_refuted.
Print Assumptions C101_refuted_mixed.
Print Assumptions C101_refuted_stack.
Print Assumptions C101_refuted_stack_block.
Print Assumptions C101_refuted_block.
Print Assumptions C101_same.
Print Assumptions C101_settled_partial.
Print Assumptions C101_settled_block_partial.
Print Assumptions C101_fixed_partial.
Print Assumptions C101_fixed_block_partial.
