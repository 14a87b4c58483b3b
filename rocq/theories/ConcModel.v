(** Several threads calling the methods of shared KeyCachedData and BlkCached objects: the
    memory accesses the methods make, and how they may interleave. *)
From Verif Require Import Base.
Local Open Scope N_scope.

(** ** The methods as programs over the shared fields *)

(** The fields of object number [o]: a bool ("cached" or "loaded") and words ("key[i]", or
    "state.first" and "state.second" as words 0 and 1). *)
Inductive loc : Type := LFlag (o : nat) | LWord (o i : nat).

(** A method body: reads and writes of the fields in program order, then the outcome. *)
Inductive prog (A : Type) : Type :=
| Ret (r : res A)
| RdFlag (o : nat) (k : bool -> prog A)
| RdWord (o i : nat) (k : N -> prog A)
| WrFlag (o : nat) (b : bool) (p : prog A)
| WrWord (o i : nat) (v : N) (p : prog A).
Arguments Ret {A}. Arguments RdFlag {A}. Arguments RdWord {A}. Arguments WrFlag {A}. Arguments WrWord {A}.

(** Go on with the value, or end with the failure. *)
Definition plift {A B} (r : res A) (k : A -> prog B) : prog B :=
  match r with
  | Ok v => k v
  | Throw e => Ret (Throw e)
  | Undef u => Ret (Undef u)
  | OutOfFuel => Ret OutOfFuel
  end.

(** The methods are given with what the caller does next, [k]. *)

Section KeyCachedData.
(** Object [o]. keydata->key(int): deterministic, touches nothing shared. *)
Context {A : Type} (o : nat) (inner : Z -> res N).

(** return cache->key[index]; KeyCachedData.cpp:24. std::array has no bounds check. *)
Definition key_read (index : Z) (k : N -> prog A) : prog A :=
  if ((0 <=? index) && (index <? 8))%Z then RdWord o (Z.to_nat index) k
  else Ret (Undef OutOfBounds).

(** The loop at KeyCachedData.cpp:19-21, [n] iterations from index [i], then [p]. *)
Fixpoint key_load (n i : nat) (p : prog A) : prog A :=
  match n with
  | O => p
  | S n' => plift (inner (Z.of_nat i)) (fun v => WrWord o i (w32 v) (key_load n' (S i) p))
  end.

(** KeyCachedData::key, goost/magma/KeyCachedData.cpp:16-25 *)
Definition key_call (index : Z) (k : N -> prog A) : prog A :=
  RdFlag o (fun cached =>
    if cached then key_read index k
    else key_load 8 0 (WrFlag o true (key_read index k))).
End KeyCachedData.

Definition key_prog (o : nat) (inner : Z -> res N) (index : Z) : prog N :=
  key_call o inner index (fun v => Ret (Ok v)).

Section BlkCached.
(** Object [o]. block->value(), given what is done with the value. *)
Context {A : Type} (o : nat) (inner : (N * N -> prog A) -> prog A).

(** return state; BlkCached.cpp:24 (a copy of the pair, member by member). *)
Definition blk_read (k : N * N -> prog A) : prog A :=
  RdWord o 0 (fun a => RdWord o 1 (fun b => k (a, b))).

(** BlockCache::value, goost/kuznyechik/BlkCached.cpp:18-25 *)
Definition blk_call (k : N * N -> prog A) : prog A :=
  RdFlag o (fun loaded =>
    if loaded then blk_read k
    else inner (fun v => WrWord o 0 (fst v) (WrWord o 1 (snd v) (WrFlag o true (blk_read k))))).
End BlkCached.

(** A BlkCached over a block that is deterministic and touches nothing shared. *)
Definition blk_prog (o : nat) (inner : res (N * N)) : prog (N * N) :=
  blk_call o (plift inner) (fun v => Ret (Ok v)).

(** ** Threads *)

Record memory : Type := Mem { m_flag : nat -> bool; m_word : nat -> nat -> N }.

Inductive store : Type := SFlag (o : nat) (b : bool) | SWord (o i : nat) (v : N).

Definition store_loc (s : store) : loc :=
  match s with SFlag o _ => LFlag o | SWord o i _ => LWord o i end.

Definition apply_store (m : memory) (s : store) : memory :=
  match s with
  | SFlag o b => Mem (fun x => if Nat.eqb x o then b else m_flag m x) (m_word m)
  | SWord o i v => Mem (m_flag m) (fun x j => if Nat.eqb x o && Nat.eqb j i then v else m_word m x j)
  end.

Section Machine.
Context {A : Type}.

(** A thread: the calls it still makes (the first may be under way), the results of
    the calls made, and its stores that other threads do not see yet, oldest first. *)
Record thread : Type := Thread {
  t_calls : list (prog A); t_results : list (res A); t_buffer : list store }.

Record config : Type := Config { c_mem : memory; c_threads : list thread }.

(** What the thread itself sees. *)
Definition view (m : memory) (t : thread) : memory := fold_left apply_store (t_buffer t) m.

(** The next step of a thread, with the access it makes (location, is it a write). *)
Definition thread_step (m : memory) (t : thread) : option (thread * option (loc * bool)) :=
  match t_calls t with
  | [] => None
  | Ret r :: ps => Some (Thread ps (t_results t ++ [r]) (t_buffer t), None)
  | RdFlag o k :: ps =>
      Some (Thread (k (m_flag (view m t) o) :: ps) (t_results t) (t_buffer t), Some (LFlag o, false))
  | RdWord o i k :: ps =>
      Some (Thread (k (m_word (view m t) o i) :: ps) (t_results t) (t_buffer t), Some (LWord o i, false))
  | WrFlag o b p :: ps =>
      Some (Thread (p :: ps) (t_results t) (t_buffer t ++ [SFlag o b]), Some (LFlag o, true))
  | WrWord o i v p :: ps =>
      Some (Thread (p :: ps) (t_results t) (t_buffer t ++ [SWord o i v]), Some (LWord o i, true))
  end.

(** How stores become visible. SC: at once. TSO: later, in the order in which they were
    made (x86). PSO: later, in any order except that stores to one field keep theirs (the
    freedom that compilers and other processors take). *)
Inductive order : Type := SC | TSO | PSO.

Definition may_flush (mo : order) (older : list store) (s : store) : Prop :=
  match mo with
  | SC | TSO => older = []
  | PSO => forall x, In x older -> store_loc x <> store_loc s
  end.

Fixpoint set_thread (l : list thread) (i : nat) (t : thread) : list thread :=
  match l, i with
  | [], _ => []
  | _ :: r, O => t :: r
  | x :: r, S j => x :: set_thread r j t
  end.

(** An access: thread, location, is it a write. *)
Definition access : Type := nat * loc * bool.

(** One step of the program: a thread goes on, or one of its stores becomes visible. *)
Inductive step (mo : order) (c : config) : list access -> config -> Prop :=
| step_run i t t' ev :
    nth_error (c_threads c) i = Some t ->
    thread_step (c_mem c) t = Some (t', ev) ->
    step mo c (match ev with Some (l, b) => [(i, l, b)] | None => [] end)
         (match mo with
          | SC => Config (view (c_mem c) t')
                         (set_thread (c_threads c) i (Thread (t_calls t') (t_results t') []))
          | _ => Config (c_mem c) (set_thread (c_threads c) i t')
          end)
| step_flush i t older s newer :
    nth_error (c_threads c) i = Some t ->
    t_buffer t = older ++ s :: newer -> may_flush mo older s ->
    step mo c []
         (Config (apply_store (c_mem c) s)
                 (set_thread (c_threads c) i (Thread (t_calls t) (t_results t) (older ++ newer)))).

(** Executions, with the accesses in the order in which they were made. *)
Inductive exec (mo : order) (c : config) : list access -> config -> Prop :=
| exec_nil : exec mo c [] c
| exec_step tr c1 ev c2 : exec mo c tr c1 -> step mo c1 ev c2 -> exec mo c (tr ++ ev) c2.

(** Every thread makes its list of calls. *)
Definition start (m : memory) (calls : list (list (prog A))) : config :=
  Config m (map (fun ps => Thread ps [] []) calls).
End Machine.

(** New objects: KeyCachedData.cpp:12 (make_unique<CachedData>() zeroes the fields),
    BlkCached.cpp:14. *)
Definition new_objects : memory := Mem (fun _ => false) (fun _ _ => 0).

(** A thread that makes the calls [ps] while no other is running: results and memory. *)
Fixpoint alone {A} (m : memory) (p : prog A) : res A * memory :=
  match p with
  | Ret r => (r, m)
  | RdFlag o k => alone m (k (m_flag m o))
  | RdWord o i k => alone m (k (m_word m o i))
  | WrFlag o b p => alone (apply_store m (SFlag o b)) p
  | WrWord o i v p => alone (apply_store m (SWord o i v)) p
  end.

Fixpoint alone_calls {A} (m : memory) (ps : list (prog A)) : list (res A) * memory :=
  match ps with
  | [] => ([], m)
  | p :: r => let (x, m1) := alone m p in let (xs, m2) := alone_calls m1 r in (x :: xs, m2)
  end.
