(** Properties of the caching decorators: C08, C41. *)
From Verif Require Import Base MagmaModel KuzModel CacheModel SpecCache CacheProofs.
Local Open Scope N_scope.

(** Asking the wrapped KeyData for one word; the array stores uint32_t. *)
Definition ask32 {W} (inner : Z -> M W N) (i : Z) : M W N := v <-- inner i ;; mret (w32 v).

(** ** C08 *)

(** Every history of calls on a fresh object, over any wrapped KeyData. *)
Theorem C08_history {W} (inner : Z -> M W N) (h : list Z) (w : W) xs c w' :
  kc_calls inner h (kcache_init, w) = (xs, (c, w')) ->
  cache_history (ask_all (ask32 inner) [0; 1; 2; 3; 4; 5; 6; 7]%Z) at_int h w xs w'.
Proof. intros H. eapply (kc_calls_history inner h (repeat 0 8)); [reflexivity|exact H]. Qed.

(** The specification leaves no freedom. *)
Theorem C08_history_unique {W} (inner : Z -> M W N) (h : list Z) (w : W) xs w1 ys w2 :
  let spec := cache_history (ask_all (ask32 inner) [0; 1; 2; 3; 4; 5; 6; 7]%Z) at_int in
  spec h w xs w1 -> spec h w ys w2 -> xs = ys /\ w1 = w2.
Proof. apply cache_history_functional. Qed.

(** After any history, once a call returns a word, all later answers are the words of
    one successful load and the world is left alone. *)
Theorem C08_after_first_answer {W} (inner : Z -> M W N) h (w : W) xs c1 w1 i v c2 w2 :
  kc_calls inner h (kcache_init, w) = (xs, (c1, w1)) ->
  kc_call inner i (c1, w1) = (Ok v, (c2, w2)) ->
  exists ws, List.length ws = 8%nat /\
    (exists w0 w0', ask_all (ask32 inner) [0; 1; 2; 3; 4; 5; 6; 7]%Z w0 = (Ok ws, w0')) /\
    at_int ws i = Ok v /\
    (forall h2 w3, kc_calls inner h2 (c2, w3) = (map (at_int ws) h2, (c2, w3))) /\
    (forall j, (j < 8)%nat -> at_int ws (Z.of_nat j) = Ok (nth j ws 0)).
Proof.
  intros H1 H2. destruct (kc_after_success inner h w xs c1 w1 i v c2 w2 H1 H2)
    as (ws & L & P & E & F). exists ws. repeat (split; [assumption|]).
  intros j Hj. apply at_int_in. now rewrite L.
Qed.

(** Over a wrapped object that answers by a fixed function the cache is invisible
    (this justifies the pure [KeyCachedData] used elsewhere). *)
Theorem C08_pure {W} (f : Z -> res N) (h : list Z) (w : W) :
  (forall i v, f i = Ok v -> v < 2 ^ 32) ->
  fst (kc_calls (fun i => lift (f i)) h (kcache_init, w)) = map (KeyCachedData f) h.
Proof. intros H. now apply kc_calls_pure. Qed.

(** A wrapped object that logs its calls, throws on its third call and gives
    different words each time. *)
Definition moody : Z -> M (list Z) N := fun i log =>
  (if Nat.eqb (List.length log) 2 then Throw (UserExn 1)
   else Ok (N.of_nat (List.length log) + 100), i :: log).

Example C08_example :
  let r := kc_calls moody [3; 3; 0; 7; 3]%Z (kcache_init, []) in
  fst r = [Throw (UserExn 1); Ok 106; Ok 103; Ok 110; Ok 106] /\
  rev (snd (snd r)) = [0; 1; 2; 0; 1; 2; 3; 4; 5; 6; 7]%Z.
Proof. split; reflexivity. Qed.

(** ** C41 *)

Theorem C41_history {W} (inner : M W (N * N)) (n : nat) (w : W) xs c w' :
  bc_calls inner n (bcache_init, w) = (xs, (c, w')) ->
  cache_history inner (fun d (_ : unit) => Ok d) (repeat tt n) w xs w'.
Proof. apply bc_calls_history. Qed.

Theorem C41_after_first_answer {W} (inner : M W (N * N)) n (w : W) xs c1 w1 v c2 w2 :
  bc_calls inner n (bcache_init, w) = (xs, (c1, w1)) ->
  bc_call inner (c1, w1) = (Ok v, (c2, w2)) ->
  (exists w0 w0', inner w0 = (Ok v, w0')) /\
  forall n2 w3, bc_calls inner n2 (c2, w3) = (repeat (Ok v) n2, (c2, w3)).
Proof. apply bc_after_success. Qed.

Theorem C41_failure_leaves_empty {W} (inner : M W (N * N)) c (w : W) x c' w' :
  bc_loaded c = false -> inner w = (x, w') -> (forall v, x <> Ok v) ->
  bc_call inner (c, w) = (x, (c', w')) -> c' = c.
Proof. apply bc_call_failure. Qed.

Definition moody_block : M nat (N * N) := fun n =>
  (if Nat.eqb n 1 then Ok (7, N.of_nat n) else Throw (UserExn (N.of_nat n)), S n).

Example C41_example :
  bc_calls moody_block 4 (bcache_init, O) =
  ([Throw (UserExn 0); Ok (7, 1); Ok (7, 1); Ok (7, 1)], (BCache true (7, 1), 2%nat)).
Proof. reflexivity. Qed.

Print Assumptions C08_history.
Print Assumptions C08_history_unique.
Print Assumptions C08_after_first_answer.
Print Assumptions C08_pure.
Print Assumptions C41_history.
Print Assumptions C41_after_first_answer.
Print Assumptions C41_failure_leaves_empty.
