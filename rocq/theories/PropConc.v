(** Properties of cached objects shared between threads: C46. *)
From Verif Require Import Base MagmaModel ConcModel SpecConc ConcProofs TestVectors.
Local Open Scope N_scope.

(** ** C46: refuted *)

(** Not free of data races: if two threads use a new object whose collaborator works,
    every finished execution, under every memory model considered, has a data race. *)
Theorem C46_refuted_race_key (o : nat) (inner : Z -> res N) (val : nat -> N) (mo : order)
    (calls : list (list Z)) (tr : list access) (c : config) :
  loads inner val -> shared calls ->
  exec mo (start new_objects (map (map (key_prog o inner)) calls)) tr c -> finished c -> race tr.
Proof.
  intros Hl Hs. apply (race_of o); [|reflexivity|exact Hs]. intros j. now apply (key_call_pending o inner val).
Qed.

Theorem C46_refuted_race_blk (o : nat) (inner : res (N * N)) (v : N * N) (mo : order)
    (calls : list (list unit)) (tr : list access) (c : config) :
  inner = Ok v -> shared calls ->
  exec mo (start new_objects (map (map (fun _ => blk_prog o inner)) calls)) tr c -> finished c -> race tr.
Proof.
  intros -> Hs. apply (race_of o); [|reflexivity|exact Hs]. intros j. apply blk_call_pending.
Qed.

(** Where stores to different fields may become visible out of order, wrong values are
    returned: zeros instead of the key, whatever the key. *)
Theorem C46_refuted_values_key (val : nat -> N) :
  exists tr c,
    exec PSO (start new_objects (map (map (key_prog 0 (fun j => Ok (val (Z.to_nat j))))) [[0%Z]; [0%Z]])) tr c /\
    map (fun t => t_results t) (c_threads c) = [[]; [Ok 0]].
Proof.
  assert (H : outcome PSO (repeat (Go 0) 10 ++ [Flush 0 8] ++ repeat (Go 1) 3)
    (start new_objects (map (map (key_prog 0 (fun j => Ok (val (Z.to_nat j))))) [[0%Z]; [0%Z]]))
    = Some [([], 1%nat); ([Ok 0], 0%nat)]) by reflexivity.
  apply outcome_exec in H. destruct H as (tr & c & H & E). exists tr, c. split; [exact H|].
  apply (f_equal (map fst)) in E. rewrite map_map in E. exact E.
Qed.

Theorem C46_refuted_values_blk (v : N * N) :
  exists tr c,
    exec PSO (start new_objects (map (map (fun _ => blk_prog 0 (Ok v))) [[tt]; [tt]])) tr c /\
    map (fun t => t_results t) (c_threads c) = [[]; [Ok (0, 0)]].
Proof.
  destruct v as [a b].
  assert (H : outcome PSO (repeat (Go 0) 4 ++ [Flush 0 2] ++ repeat (Go 1) 4)
    (start new_objects (map (map (fun _ => blk_prog 0 (Ok (a, b)))) [[tt]; [tt]]))
    = Some [([], 1%nat); ([Ok (0, 0)], 0%nat)]) by reflexivity.
  apply outcome_exec in H. destruct H as (tr & c & H & E). exists tr, c. split; [exact H|].
  apply (f_equal (map fst)) in E. rewrite map_map in E. exact E.
Qed.

(** What does hold. If stores become visible in the order in which they are made
    (interleaving semantics, or x86 with a compiler that keeps the order): every number of
    threads, every list of calls for each, every schedule: the results of the collaborator. *)
Theorem C46_key_partial (o : nat) (inner : Z -> res N) (val : nat -> N) (mo : order)
    (calls : list (list Z)) (tr : list access) (c : config) (i : nat) (t : thread) :
  loads inner val -> mo <> PSO ->
  exec mo (start new_objects (map (map (key_prog o inner)) calls)) tr c ->
  nth_error (c_threads c) i = Some t ->
  exists js, nth_error calls i = Some js /\ answered (answer val) js t.
Proof.
  intros Hl Hmo. apply (results_of _ _ (fun _ => 8%nat) (fun _ => val) (fun _ => True)); [|exact Hmo|apply new_ok].
  intros j. apply (does_call _ _ _ (fun A => @key_call A o inner j)). now apply key_does.
Qed.

Theorem C46_blk_partial (o : nat) (inner : res (N * N)) (v : N * N) (mo : order)
    (calls : list (list unit)) (tr : list access) (c : config) (i : nat) (t : thread) :
  inner = Ok v -> mo <> PSO ->
  exec mo (start new_objects (map (map (fun _ => blk_prog o inner)) calls)) tr c ->
  nth_error (c_threads c) i = Some t ->
  exists js, nth_error calls i = Some js /\ answered (fun _ => Ok v) js t.
Proof.
  intros -> Hmo.
  apply (results_of _ _ (fun _ => 2%nat) (fun _ => halves_of v) (fun _ => True)); [|exact Hmo|apply new_ok].
  intros j. apply (does_call _ _ _ (fun A => @blk_call A o (plift (Ok v)))). destruct v as [a b].
  apply (blk_does _ _ _ o eq_refl (fun A => plift (Ok (a, b)))); [apply does_lift|reflexivity|].
  intros v [= <-]. now split.
Qed.

(** A collaborator that throws: every call throws the same. *)
Theorem C46_key_throws_partial (o : nat) (inner : Z -> res N) (f : nat) (e : exn) (mo : order)
    (calls : list (list Z)) (tr : list access) (c : config) (i : nat) (t : thread) :
  (f < 8)%nat -> (forall i, (i < f)%nat -> exists v, inner (Z.of_nat i) = Ok v) ->
  inner (Z.of_nat f) = Throw e -> mo <> PSO ->
  exec mo (start new_objects (map (map (key_prog o inner)) calls)) tr c ->
  nth_error (c_threads c) i = Some t ->
  exists js, nth_error calls i = Some js /\ answered (fun _ => Throw e) js t.
Proof.
  intros Hf Hok He Hmo.
  apply (results_of _ _ (fun _ => 8%nat) (fun _ i => match inner (Z.of_nat i) with Ok v => w32 v | _ => 0 end)
                    (fun _ => False)); [|exact Hmo|apply new_ok].
  intros j. apply (does_call _ _ _ (fun A => @key_call A o inner j)).
  apply (key_does_fail _ _ _ o inner eq_refl f e j Hf); [tauto| |exact He].
  intros x Hx. destruct (Hok x Hx) as [v Hv]. exists v. now rewrite Hv.
Qed.

Theorem C46_blk_throws_partial (o : nat) (inner : res (N * N)) (e : exn) (mo : order)
    (calls : list (list unit)) (tr : list access) (c : config) (i : nat) (t : thread) :
  inner = Throw e -> mo <> PSO ->
  exec mo (start new_objects (map (map (fun _ => blk_prog o inner)) calls)) tr c ->
  nth_error (c_threads c) i = Some t ->
  exists js, nth_error calls i = Some js /\ answered (fun _ => Throw e) js t.
Proof.
  intros -> Hmo. apply (results_of _ _ (fun _ => 2%nat) (fun _ _ => 0) (fun _ => False)); [|exact Hmo|apply new_ok].
  intros j. apply (does_call _ _ _ (fun A => @blk_call A o (plift (Throw e)))).
  apply (blk_does _ _ _ o eq_refl (fun A => plift (Throw e))); [apply does_lift|tauto|discriminate].
Qed.

(** An object that was used before it was shared: no races and right values, under every
    memory model; the collaborator is not called any more. *)
Theorem C46_key_loaded_partial (o : nat) (inner : Z -> res N) (m : memory) (mo : order)
    (calls : list (list Z)) (tr : list access) (c : config) :
  m_flag m o = true -> exec mo (start m (map (map (key_prog o inner)) calls)) tr c ->
  ~ race tr /\
  forall i t, nth_error (c_threads c) i = Some t ->
    exists js, nth_error calls i = Some js /\ answered (answer (m_word m o)) js t.
Proof. intros Hm. apply quiet_of. intros j. now apply key_prog_ro. Qed.

Theorem C46_blk_loaded_partial (o : nat) (inner : res (N * N)) (m : memory) (mo : order)
    (calls : list (list unit)) (tr : list access) (c : config) :
  m_flag m o = true -> exec mo (start m (map (map (fun _ => blk_prog o inner)) calls)) tr c ->
  ~ race tr /\
  forall i t, nth_error (c_threads c) i = Some t ->
    exists js, nth_error calls i = Some js /\ answered (fun _ => Ok (m_word m o 0%nat, m_word m o 1%nat)) js t.
Proof. intros Hm. apply quiet_of. intros j. now apply blk_prog_ro. Qed.

(** No call waits for another thread: a thread that has calls to make can always make the
    next step, and a call makes at most 11 (or 6) accesses. *)
Theorem C46_go_on_partial {A} (mo : order) (c : @config A) (i : nat) (t : thread) :
  nth_error (c_threads c) i = Some t -> t_calls t <> [] ->
  exists t' e c', thread_step (c_mem c) t = Some (t', e) /\
    step mo c (match e with Some (l, b) => [(i, l, b)] | None => [] end) c'.
Proof. apply can_go_on. Qed.

Theorem C46_key_accesses_partial (o : nat) (inner : Z -> res N) (mo : order) (m : memory)
    (calls : list (list Z)) (tr : list access) (c : config) (i : nat) (js : list Z) :
  exec mo (start m (map (map (key_prog o inner)) calls)) tr c ->
  nth_error calls i = Some js -> (List.length (own i tr) <= 11 * List.length js)%nat.
Proof. apply accesses_of, key_prog_bounded. Qed.

Theorem C46_blk_accesses_partial (o : nat) (inner : res (N * N)) (mo : order) (m : memory)
    (calls : list (list unit)) (tr : list access) (c : config) (i : nat) (js : list unit) :
  exec mo (start m (map (map (fun _ => blk_prog o inner)) calls)) tr c ->
  nth_error calls i = Some js -> (List.length (own i tr) <= 6 * List.length js)%nat.
Proof. apply accesses_of. intros _. apply blk_prog_bounded. Qed.

(** Two threads, both find the flag unset and load; the second sees half of the words
    written by the first. Both schedules below end with all calls answered. *)
Definition ex_inner (j : Z) : res N := Ok (100 + Z.to_N j).

Example C46_example :
  loads ex_inner (fun i => 100 + N.of_nat i) /\ shared [[3%Z; 4%Z]; [5%Z]] /\
  outcome SC (repeat (Go 0) 5 ++ repeat (Go 1) 7 ++ repeat (Go 0) 10 ++ repeat (Go 1) 5)
             (start new_objects (map (map (key_prog 0 ex_inner)) [[3%Z; 4%Z]; [5%Z]]))
    = Some [([Ok 103; Ok 104], 0%nat); ([Ok 105], 0%nat)] /\
  outcome TSO (repeat (Go 0) 10 ++ repeat (Flush 0 0) 9 ++ repeat (Go 1) 3 ++ repeat (Go 0) 5)
              (start new_objects (map (map (key_prog 0 ex_inner)) [[3%Z; 4%Z]; [5%Z]]))
    = Some [([Ok 103; Ok 104], 0%nat); ([Ok 105], 0%nat)] /\
  outcome SC (repeat (Go 0) 3 ++ repeat (Go 1) 7 ++ repeat (Go 0) 4)
             (start new_objects (map (map (fun _ => blk_prog 0 (Ok (7, 8)))) [[tt]; [tt]]))
    = Some [([Ok (7, 8)], 0%nat); ([Ok (7, 8)], 0%nat)].
Proof.
  split; [|split; [|split; [vm_compute; reflexivity|split; vm_compute; reflexivity]]].
  - intros i Hi. do 8 (destruct i as [|i]; [split; reflexivity|]). exfalso. Lia.lia.
  - exists 0%nat, 1%nat, [3%Z; 4%Z], [5%Z]. repeat split; discriminate.
Qed.

Print Assumptions C46_refuted_race_key.
Print Assumptions C46_refuted_race_blk.
Print Assumptions C46_refuted_values_key.
Print Assumptions C46_refuted_values_blk.
Print Assumptions C46_key_partial.
Print Assumptions C46_blk_partial.
Print Assumptions C46_key_throws_partial.
Print Assumptions C46_blk_throws_partial.
Print Assumptions C46_key_loaded_partial.
Print Assumptions C46_blk_loaded_partial.
Print Assumptions C46_go_on_partial.
Print Assumptions C46_key_accesses_partial.
Print Assumptions C46_blk_accesses_partial.
