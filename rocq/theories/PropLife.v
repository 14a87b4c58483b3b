(** When objects are destroyed, and how much stack that takes: C72, C73. *)
From Verif Require Import LifeModel SpecLife LifeProofs.
From Coq Require Import List Arith Lia.
Import ListNotations.

(** ** C72 *)

(** Whatever a program does, no shared_ptr ever points to a destroyed object. *)
Theorem C72_safe (d : nat) (cs : list instr) : run d cs start <> Dangling.
Proof. intros E. pose proof (run_good d cs start start_good) as H. now rewrite E in H. Qed.

(** An object exists if and only if the program can get at it. *)
Theorem C72_exact (d : nat) (cs : list instr) (s : mem) : run d cs start = Done s ->
  forall p, objects s p <> None <-> reachable s p.
Proof. intros E. pose proof (run_good d cs start start_good) as H. rewrite E in H. now apply good_exact. Qed.

(** Nothing is left when the last variable is gone. *)
Theorem C72_no_leak (d : nat) (cs : list instr) (s : mem) : run d cs start = Done s -> vars s = [] ->
  forall p, objects s p = None.
Proof.
  intros E V p. destruct (objects s p) as [o|] eqn:Eo; [|reflexivity].
  assert (R : reachable s p) by (apply (C72_exact d cs s E); congruence). exfalso. clear Eo.
  induction R as [q Hq|q o' r _ IH _ _]; [now rewrite V in Hq|exact IH].
Qed.

(** Every program gets to its end if the stack is deep enough. *)
Theorem C72_finishes (d : nat) (cs : list instr) : length cs <= d -> exists s, run d cs start = Done s.
Proof. apply run_enough. Qed.

(** Three steps over a CTR stream: the iterator, the key, the plaintext iterator and the chain of
    four counters are alive, nothing else; afterwards nothing is. *)
Example C72_example :
  match run 9 (ctr_walk 3) start with
  | Done s => map (fun p => match objects s p with Some o => strong o | None => 0 end) (seq 0 13)
  | _ => []
  end = [2; 0; 1; 0; 0; 1; 0; 0; 1; 0; 1; 1; 1] /\
  match run 9 (ctr_walk 3 ++ [Drop 0; Drop 0; Lock 2]) start with
  | Done s => vars s = []
  | _ => False
  end.
Proof. split; vm_compute; reflexivity. Qed.

(** ** C73 *)

(** Destroying the iterator at position n of a CTR stream, the chain that kuznyechik::Imit has
    built after n blocks, or the one of magma::Imit, takes a stack that grows with n: each of
    the following programs ends in a stack overflow although all but its last instruction,
    the end of a variable, succeed. *)
Theorem C73_refuted_ctr (d n : nat) : 2 <= d -> d <= S n ->
  (exists s, run d (ctr_walk n) start = Done s) /\ run d (ctr_walk n ++ [Drop 0]) start = Deep.
Proof. intros H1 H2. destruct (ctr_deep d n H1) as [A B]. split; [exact A|now apply B]. Qed.

Theorem C73_refuted_imit (d n : nat) : 1 <= d -> d <= 2 * n ->
  (exists s, run d (imit_loop n) start = Done s) /\ run d (imit_loop n ++ [Drop 0]) start = Deep.
Proof. intros H1 H2. destruct (imit_deep d n H1) as [A B]. split; [exact A|now apply B]. Qed.

Theorem C73_refuted_magma (d n : nat) : 1 <= d -> d <= 7 * n ->
  (exists s, run d (magma_loop n) start = Done s) /\ run d (magma_loop n ++ [Drop 0]) start = Deep.
Proof. intros H1 H2. destruct (magma_deep d n H1) as [A B]. split; [exact A|now apply B]. Qed.

(** What holds: the stack needed is at most the number of objects ever created. *)
Theorem C73_partial (d d' : nat) (cs : list instr) (s : mem) (i : nat) :
  run d cs start = Done s -> created s <= d' -> exists s', exec d' (Drop i) s = Done s'.
Proof.
  intros E H. pose proof (run_good d cs start start_good) as G. rewrite E in G.
  pose proof (exec_good d' (Drop i) s (proj1 G)) as R. destruct (exec d' (Drop i) s); [eauto|contradiction|lia].
Qed.

Definition fits (d : nat) (cs : list instr) : bool := match run d cs start with Done _ => true | _ => false end.

Example C73_example :
  fits 5 (ctr_walk 4 ++ [Drop 0]) = false /\ fits 6 (ctr_walk 4 ++ [Drop 0]) = true /\
  fits 8 (imit_loop 4 ++ [Drop 0]) = false /\ fits 9 (imit_loop 4 ++ [Drop 0]) = true /\
  fits 28 (magma_loop 4 ++ [Drop 0]) = false /\ fits 29 (magma_loop 4 ++ [Drop 0]) = true.
Proof. repeat split; vm_compute; reflexivity. Qed.

Print Assumptions C72_safe.
Print Assumptions C72_exact.
Print Assumptions C72_no_leak.
Print Assumptions C72_finishes.
Print Assumptions C73_refuted_ctr.
Print Assumptions C73_refuted_imit.
Print Assumptions C73_refuted_magma.
Print Assumptions C73_partial.
