(** Proofs about LifeModel.v. *)
From Verif Require Import LifeModel SpecLife.
From Coq Require Import List Arith Lia.
Import ListNotations.

Notation occ l p := (count_occ Nat.eq_dec l p).

Lemma occ_cons x l p : occ (x :: l) p = (if Nat.eqb x p then 1 else 0) + occ l p.
Proof. cbn [count_occ]. destruct (Nat.eq_dec x p) as [->|H]; [now rewrite Nat.eqb_refl|]. apply Nat.eqb_neq in H. now rewrite H. Qed.

Lemma occ_app l l' p : occ (l ++ l') p = occ l p + occ l' p.
Proof. apply count_occ_app. Qed.

Lemma occ_in l p : In p l <-> 0 < occ l p.
Proof. apply count_occ_In. Qed.

Lemma upd_same h p o : upd h p o p = o.
Proof. unfold upd. now rewrite Nat.eqb_refl. Qed.
Lemma upd_other h p o q : q <> p -> upd h p o q = h q.
Proof. intros H. unfold upd. apply Nat.eqb_neq in H. now rewrite H. Qed.

(** ** The invariant: counts are right, members are older *)

Definition mrefs (h : heap) (j p : nat) : nat := match h j with Some o => occ (members o) p | None => 0 end.
Fixpoint refs (h : heap) (n p : nat) : nat := match n with O => 0 | S k => refs h k p + mrefs h k p end.
Definition count (h : heap) (p : nat) : nat := match h p with Some o => strong o | None => 0 end.

(** [held]: the shared_ptr that are not members. *)
Record Inv (held : list nat) (h : heap) (n : nat) : Prop := {
  older : forall p o, h p = Some o -> p < n /\ 0 < strong o /\ Forall (fun q => q < p) (members o);
  right : forall p, count h p = occ held p + refs h n p }.

Lemma refs_ext h h' n p : (forall j, j < n -> mrefs h j p = mrefs h' j p) -> refs h n p = refs h' n p.
Proof. induction n as [|n IH]; intros H; [reflexivity|]. cbn [refs]. rewrite IH, (H n); [reflexivity|lia|]. intros j Hj. apply H. lia. Qed.

Lemma mrefs_le h j n p : j < n -> mrefs h j p <= refs h n p.
Proof. induction 1; cbn [refs]; lia. Qed.

Lemma refs_remove h q o n p : h q = Some o -> q < n -> refs (upd h q None) n p + occ (members o) p = refs h n p.
Proof.
  intros E. induction 1 as [|n Hn IH]; cbn [refs].
  - rewrite (refs_ext (upd h q None) h).
    + unfold mrefs. rewrite upd_same, E. lia.
    + intros j Hj. unfold mrefs. rewrite upd_other by lia. reflexivity.
  - unfold mrefs at 1 2. rewrite upd_other by lia. lia.
Qed.

Lemma refs_recount h q o k n p : h q = Some o -> refs (upd h q (Some (Object k (members o)))) n p = refs h n p.
Proof.
  intros E. apply refs_ext. intros j _. unfold mrefs, upd. destruct (Nat.eqb_spec j q) as [->|_]; [now rewrite E|reflexivity].
Qed.

Lemma count_upd h q o p : count (upd h q o) p = if Nat.eqb p q then match o with Some o => strong o | None => 0 end else count h p.
Proof. unfold count, upd. now destruct (Nat.eqb p q). Qed.

Lemma live_count held h n p : Inv held h n -> h p <> None <-> 0 < count h p.
Proof.
  intros I. unfold count. destruct (h p) as [o|] eqn:E; [|split; [congruence|lia]].
  split; [intros _; apply (older _ _ _ I) in E; lia|discriminate].
Qed.

Lemma held_live held h n p : Inv held h n -> In p held -> h p <> None.
Proof. intros I H. apply (live_count _ _ _ _ I). rewrite (right _ _ _ I). apply occ_in in H. lia. Qed.

Lemma member_live held h n p o q : Inv held h n -> h p = Some o -> In q (members o) -> h q <> None.
Proof.
  intros I E H. apply (live_count _ _ _ _ I). rewrite (right _ _ _ I).
  destruct (older _ _ _ I _ _ E) as (Hp & _). pose proof (mrefs_le h p n q Hp) as L. unfold mrefs in L. rewrite E in L.
  apply occ_in in H. lia.
Qed.

(** The same objects or fewer, with the same members and no higher counts. *)
Definition shrinks (h h' : heap) : Prop :=
  forall p o', h' p = Some o' -> exists o, h p = Some o /\ members o' = members o /\ strong o' <= strong o.

Lemma shrinks_refl h : shrinks h h.
Proof. intros p o E. eauto. Qed.
Lemma shrinks_trans h1 h2 h3 : shrinks h1 h2 -> shrinks h2 h3 -> shrinks h1 h3.
Proof.
  intros A B p o3 E. destruct (B p o3 E) as (o2 & E2 & M2 & S2). destruct (A p o2 E2) as (o1 & E1 & M1 & S1).
  exists o1. repeat split; [exact E1|congruence|lia].
Qed.

Lemma Inv_acquire held h n p o : Inv held h n -> h p = Some o ->
  Inv (p :: held) (upd h p (Some (Object (S (strong o)) (members o)))) n.
Proof.
  intros I E. split.
  - intros q o' Eq. unfold upd in Eq. destruct (Nat.eqb_spec q p) as [->|Hne].
    + injection Eq as <-. cbn [strong members]. destruct (older _ _ _ I _ _ E) as (A & B & C). repeat split; [exact A|lia|exact C].
    + now apply (older _ _ _ I).
  - intros q. rewrite refs_recount by exact E. rewrite count_upd, occ_cons. cbn [strong].
    pose proof (right _ _ _ I q) as R. rewrite (Nat.eqb_sym p q). destruct (Nat.eqb_spec q p) as [->|Hne]; [|lia].
    unfold count in R. rewrite E in R. lia.
Qed.

Lemma Inv_acquires n l : forall held h, Inv held h n -> Forall (fun p => h p <> None) l ->
  exists h', each acquire l h = Done h' /\ Inv (l ++ held) h' n.
Proof.
  induction l as [|p l IH]; intros held h I Hl; [exists h; now split|]. inversion Hl as [|? ? Hp Hl']; subst.
  cbn [each]. unfold acquire at 1. destruct (h p) as [o|] eqn:E; [|congruence]. cbn [obind].
  pose proof (Inv_acquire held h n p o I E) as I1.
  destruct (IH (p :: held) _ I1) as (h' & E' & I').
  { rewrite Forall_forall in *. intros q Hq. unfold upd. destruct (Nat.eqb q p); [discriminate|now apply Hl']. }
  exists h'. split; [exact E'|]. destruct I' as [A B]. split; [exact A|]. intros q. rewrite B.
  cbn [app]. rewrite !occ_app, !occ_cons, occ_app. lia.
Qed.

Lemma Inv_perm held held' h n : (forall p, occ held p = occ held' p) -> Inv held h n -> Inv held' h n.
Proof. intros H [A B]. split; [exact A|]. intros p. rewrite B, H. reflexivity. Qed.

Lemma Inv_make ms held h n : Inv (ms ++ held) h n -> Inv (n :: held) (upd h n (Some (Object 1 ms))) (S n).
Proof.
  intros I. assert (En : h n = None). { destruct (h n) as [o|] eqn:E; [|reflexivity]. apply (older _ _ _ I) in E. lia. }
  assert (Zn : occ (ms ++ held) n = 0). { pose proof (right _ _ _ I n) as R. unfold count in R. rewrite En in R. lia. }
  split.
  - intros p o E. unfold upd in E. destruct (Nat.eqb_spec p n) as [->|Hne].
    + injection E as <-. cbn [strong members]. repeat split; [lia|lia|]. apply Forall_forall. intros q Hq.
      assert (Hl : h q <> None) by (apply (held_live _ _ _ q I), in_or_app; now left).
      destruct (h q) as [o|] eqn:Eq; [|congruence]. now apply (older _ _ _ I) in Eq.
    + apply (older _ _ _ I) in E. repeat split; [lia|apply E|apply E].
  - intros p. rewrite count_upd, occ_cons. cbn [refs strong]. unfold mrefs at 1. rewrite upd_same. cbn [members].
    rewrite (refs_ext (upd h n (Some (Object 1 ms))) h) by (intros j Hj; unfold mrefs; rewrite upd_other by lia; reflexivity).
    pose proof (right _ _ _ I p) as R. rewrite occ_app in R. rewrite (Nat.eqb_sym n p).
    destruct (Nat.eqb_spec p n) as [->|Hne]; [|lia]. unfold count in R. rewrite En in R. lia.
Qed.

(** ** Destruction *)

Definition released (held : list nat) (h : heap) (n : nat) (deep : Prop) (x : outcome heap) : Prop :=
  match x with
  | Done h' => Inv held h' n /\ shrinks h h'
  | Dangling => False
  | Deep => deep
  end.

Lemma each_released n (f : nat -> heap -> outcome heap) (deep : nat -> Prop) :
  (forall p held h, Inv (p :: held) h n -> released held h n (deep p) (f p h)) ->
  forall l held h, Inv (l ++ held) h n -> released held h n (exists q, In q l /\ deep q) (each f l h).
Proof.
  intros Hf. induction l as [|p l IH]; intros held h I; [split; [exact I|apply shrinks_refl]|].
  cbn [each]. pose proof (Hf p (l ++ held) h I) as H. destruct (f p h) as [h1| |]; cbn [obind released] in *; [|exact H|].
  - destruct H as [I1 S1]. specialize (IH held h1 I1). destruct (each f l h1) as [h2| |]; cbn [released] in *; [|exact IH|].
    + split; [apply IH|]. now apply (shrinks_trans h h1 h2).
    + destruct IH as (q & Hq & Hd). exists q. split; [now right|exact Hd].
  - exists p. split; [now left|exact H].
Qed.

Lemma remove_inv p o held h n : Inv (p :: held) h n -> h p = Some o -> strong o <= 1 ->
  Inv (members o ++ held) (upd h p None) n /\ shrinks h (upd h p None).
Proof.
  intros I E S1. destruct (older _ _ _ I _ _ E) as (Hp & S0 & Hm). split; [split|].
  - intros q o' Eq. unfold upd in Eq. destruct (Nat.eqb_spec q p); [discriminate|]. now apply (older _ _ _ I).
  - intros q. pose proof (right _ _ _ I q) as R. pose proof (refs_remove h p o n q E Hp) as Q.
    rewrite occ_cons in R. rewrite count_upd, occ_app. rewrite (Nat.eqb_sym p q) in R.
    destruct (Nat.eqb_spec q p) as [Heq|Hne]; [subst q|lia]. unfold count in R. rewrite E in R. lia.
  - intros q o' Eq. unfold upd in Eq. destruct (Nat.eqb_spec q p); [discriminate|]. eauto.
Qed.

Lemma release_released n d : forall p held h, Inv (p :: held) h n -> released held h n (d <= p) (release d p h).
Proof.
  induction d as [|d IH]; intros p held h I; [cbn; lia|]. cbn [release].
  assert (Hl : h p <> None) by (apply (held_live _ _ _ p I); now left).
  destruct (h p) as [[c ms]|] eqn:E; [|congruence]. destruct (older _ _ _ I _ _ E) as (Hp & S0 & Hm). cbn [strong members] in *.
  destruct c as [|[|c]]; [lia| |].
  - destruct (remove_inv p _ held h n I E (le_n 1)) as [I1 S1]. cbn [members] in I1.
    pose proof (each_released n (release d) (fun q => d <= q) IH ms held _ I1) as H.
    destruct (each (release d) ms _) as [h'| |]; cbn [released] in *; [|exact H|].
    + split; [apply H|]. now apply (shrinks_trans _ (upd h p None)).
    + destruct H as (q & Hq & Hd). rewrite Forall_forall in Hm. specialize (Hm q Hq). lia.
  - cbn [released]. split; [split|].
    + intros q o' Eq. unfold upd in Eq. destruct (Nat.eqb_spec q p) as [->|Hne]; [|now apply (older _ _ _ I)].
      injection Eq as <-. cbn [strong members]. repeat split; [exact Hp|lia|exact Hm].
    + intros q. pose proof (right _ _ _ I q) as R.
      change ms with (members (Object (S (S c)) ms)) at 2. rewrite refs_recount by exact E.
      rewrite occ_cons in R. rewrite count_upd. cbn [strong]. rewrite (Nat.eqb_sym p q) in R.
      destruct (Nat.eqb_spec q p) as [Heq|Hne]; [subst q|lia]. unfold count in R. rewrite E in R. cbn [strong] in R. lia.
    + intros q o' Eq. unfold upd in Eq. destruct (Nat.eqb_spec q p) as [->|Hne]; [|eauto].
      injection Eq as <-. eexists. split; [exact E|]. cbn [strong members]. split; [reflexivity|lia].
Qed.

(** ** Programs *)

Definition good (s : mem) : Prop := Inv (vars s) (objects s) (created s).

Lemma start_good : good start.
Proof. split; [discriminate|]. intros p. reflexivity. Qed.

Lemma pick_in l is ms : pick l is = Some ms -> Forall (fun p => In p l) ms.
Proof.
  revert ms. induction is as [|i is IH]; intros ms; cbn [pick]; [intros [= <-]; constructor|].
  destruct (nth_error l i) as [p|] eqn:E; [|discriminate]. destruct (pick l is) as [ps|]; [|discriminate].
  intros [= <-]. constructor; [now apply nth_error_In in E|now apply IH].
Qed.

Lemma occ_without l : forall i p q, nth_error l i = Some p -> occ l q = occ (p :: without i l) q.
Proof.
  induction l as [|x l IH]; intros i p q; [now destruct i|]. destruct i as [|i]; cbn [nth_error without].
  - now intros [= ->].
  - intros H. rewrite occ_cons, (IH i p q H), !occ_cons. lia.
Qed.

Lemma push_good s p : good s -> objects s p <> None ->
  exists s', push p s = Done s' /\ good s' /\ created s' = created s.
Proof.
  intros G Hp. unfold push, acquire. destruct (objects s p) as [o|] eqn:E; [|congruence]. cbn [obind].
  eexists. split; [reflexivity|]. split; [|reflexivity]. now apply Inv_acquire.
Qed.

Lemma exec_good d c s : good s ->
  match exec d c s with
  | Done s' => good s' /\ created s' <= S (created s)
  | Dangling => False
  | Deep => d < created s /\ exists i, c = Drop i
  end.
Proof.
  intros G. destruct c as [is|i|i j|p|i]; cbn [exec].
  - destruct (pick (vars s) is) as [ms|] eqn:E; [|split; [exact G|lia]].
    destruct (Inv_acquires (created s) ms (vars s) (objects s) G) as (h & Eh & I).
    { apply pick_in in E. eapply Forall_impl; [|exact E]. intros q Hq. exact (held_live _ _ _ q G Hq). }
    rewrite Eh. cbn [obind]. split; [|cbn; lia]. now apply Inv_make.
  - destruct (nth_error (vars s) i) as [p|] eqn:E; [|split; [exact G|lia]]. apply nth_error_In in E.
    destruct (push_good s p G (held_live _ _ _ p G E)) as (s' & -> & G' & C). split; [exact G'|lia].
  - destruct (nth_error (vars s) i) as [p|] eqn:E; [|split; [exact G|lia]]. apply nth_error_In in E.
    pose proof (held_live _ _ _ p G E) as Hl. destruct (objects s p) as [o|] eqn:Eo; [|congruence].
    destruct (nth_error (members o) j) as [q|] eqn:Eq; [|split; [exact G|lia]]. apply nth_error_In in Eq.
    destruct (push_good s q G (member_live _ _ _ _ _ _ G Eo Eq)) as (s' & -> & G' & C). split; [exact G'|lia].
  - destruct (objects s p) as [o|] eqn:Eo; [|split; [exact G|lia]].
    destruct (push_good s p G) as (s' & -> & G' & C); [congruence|]. split; [exact G'|lia].
  - destruct (nth_error (vars s) i) as [p|] eqn:E; [|split; [exact G|lia]].
    assert (I : Inv (p :: without i (vars s)) (objects s) (created s)).
    { eapply Inv_perm; [|exact G]. intros q. now apply occ_without. }
    pose proof (release_released (created s) d p _ _ I) as H. destruct (release d p (objects s)) as [h| |]; cbn [obind released] in *.
    + split; [apply H|cbn; lia].
    + exact H.
    + split; [|eauto]. pose proof (held_live _ _ _ p I (or_introl eq_refl)) as Hl.
      destruct (objects s p) as [o|] eqn:Eo; [|congruence]. apply (older _ _ _ I) in Eo. lia.
Qed.

Lemma run_good d cs : forall s, good s ->
  match run d cs s with
  | Done s' => good s' /\ created s' <= created s + length cs
  | Dangling => False
  | Deep => d < created s + length cs
  end.
Proof.
  induction cs as [|c cs IH]; intros s G; [split; [exact G|cbn; lia]|]. cbn [run].
  pose proof (exec_good d c s G) as H. destruct (exec d c s) as [s1| |]; cbn [obind] in *; [|exact H|cbn [length]; lia].
  destruct H as [G1 C1]. specialize (IH s1 G1). cbn [length].
  destruct (run d cs s1); [split; [apply IH|lia]|exact IH|lia].
Qed.

Lemma run_app d cs cs' s : run d (cs ++ cs') s = obind (run d cs s) (run d cs').
Proof.
  revert s. induction cs as [|c cs IH]; intros s; [reflexivity|]. cbn [app run]. destruct (exec d c s); cbn [obind]; [apply IH|reflexivity|reflexivity].
Qed.

Lemma refs_some h n p : 0 < refs h n p -> exists j o, j < n /\ h j = Some o /\ In p (members o).
Proof.
  induction n as [|n IH]; cbn [refs]; [lia|]. intros H. destruct (Nat.eq_dec (mrefs h n p) 0) as [Z|Z].
  - destruct IH as (j & o & Hj & Ho); [lia|]. exists j, o. split; [lia|exact Ho].
  - unfold mrefs in Z. destruct (h n) as [o|] eqn:E; [|congruence]. exists n, o. split; [lia|]. split; [exact E|]. apply occ_in. lia.
Qed.

Lemma good_exact s : good s -> forall p, objects s p <> None <-> reachable s p.
Proof.
  intros G p. split.
  - assert (H : forall k p, created s - p <= k -> objects s p <> None -> reachable s p).
    { induction k as [|k IH]; intros q Hk Hq.
      - destruct (objects s q) as [o|] eqn:E; [|congruence]. apply (older _ _ _ G) in E. lia.
      - pose proof (proj1 (live_count _ _ _ _ G) Hq) as C. rewrite (right _ _ _ G) in C.
        destruct (Nat.eq_dec (occ (vars s) q) 0) as [Z|Z].
        + destruct (refs_some (objects s) (created s) q) as (j & o & Hj & E & Hm); [lia|].
          apply (By_member s j o q); [|exact E|exact Hm]. apply IH; [|congruence].
          apply (older _ _ _ G) in E. destruct E as (_ & _ & F). rewrite Forall_forall in F. specialize (F q Hm). lia.
        + apply By_variable, occ_in. lia. }
    now apply (H (created s - p)).
  - induction 1 as [p Hp|p o q _ IH E Hm]; [exact (held_live _ _ _ p G Hp)|exact (member_live _ _ _ p o q G E Hm)].
Qed.

(** ** How deep destructors nest *)

Inductive chain (h : heap) : nat -> nat -> Prop :=
| Single p o : h p = Some o -> strong o = 1 -> chain h p 1
| Link p o q n : h p = Some o -> strong o = 1 -> In q (members o) -> chain h q n -> chain h p (S n).

Lemma chain_keep held h h' n n' : Inv held h' n' ->
  (forall p o, h p = Some o -> p < n -> Forall (fun q => q < p) (members o)) ->
  (forall p o', p < n -> h' p = Some o' -> exists o, h p = Some o /\ members o' = members o /\ strong o' <= strong o) ->
  forall q k, chain h q k -> q < n -> h' q <> None -> chain h' q k.
Proof.
  intros I Hm Hs q k C. induction C as [p o E S1|p o q k E S1 Hq C IH]; intros Hp Hl;
    destruct (h' p) as [o'|] eqn:E'; try congruence; destruct (Hs p o' Hp E') as (o1 & E1 & M1 & L1);
    rewrite E in E1; injection E1 as <-; destruct (older _ _ _ I _ _ E') as (_ & S0 & _).
  - apply (Single h' p o'); [exact E'|lia].
  - assert (Hlt : q < p). { specialize (Hm p o E Hp). rewrite Forall_forall in Hm. now apply Hm. }
    apply (Link h' p o' q); [exact E'|lia|now rewrite M1|]. apply IH; [lia|].
    apply (member_live _ _ _ p o' q I E'). now rewrite M1.
Qed.

Lemma chain_shrinks held held' h h' n q k : Inv held h n -> Inv held' h' n -> shrinks h h' ->
  chain h q k -> h' q <> None -> chain h' q k.
Proof.
  intros I I' Hs C Hl. assert (q < n). { destruct C as [p o E _|p o r j E _ _ _]; now apply (older _ _ _ I) in E. }
  apply (chain_keep held' h h' n n I'); try assumption.
  - intros p o E _. now apply (older _ _ _ I) in E.
  - intros p o' _ E. now apply Hs.
Qed.

Lemma each_deep n d q k : forall pre post held h,
  (forall held h, Inv (q :: held) h n -> chain h q k -> release d q h = Deep) ->
  Inv ((pre ++ q :: post) ++ held) h n -> chain h q k -> each (release d) (pre ++ q :: post) h = Deep.
Proof.
  intros pre post held h Hq. revert h. induction pre as [|p pre IH]; intros h I C; cbn [app each].
  - cbn [app] in I. now rewrite (Hq _ _ I C).
  - cbn [app] in I. pose proof (release_released n d p _ _ I) as H.
    destruct (release d p h) as [h1| |]; cbn [obind released] in *; [|contradiction|reflexivity].
    destruct H as [I1 S1]. apply IH; [exact I1|]. apply (chain_shrinks _ _ h h1 n q k I I1 S1 C).
    apply (held_live _ _ _ q I1). apply in_or_app. left. apply in_or_app. right. now left.
Qed.

Lemma release_deep n d : forall k q held h, d < k -> Inv (q :: held) h n -> chain h q k -> release d q h = Deep.
Proof.
  induction d as [|d IH]; intros k q held h Hk I C; [reflexivity|]. destruct C as [p o E S1|p o r j E S1 Hr C]; [lia|].
  cbn [release]. destruct (remove_inv p o held h n I E ltac:(lia)) as [I1 Sh].
  rewrite E. destruct o as [c ms]. cbn [strong members] in *. subst c.
  destruct (in_split _ _ Hr) as (pre & post & ->).
  apply (each_deep n d r j pre post held); [|exact I1|].
  - intros held' h'. apply IH. lia.
  - apply (chain_shrinks _ _ h _ n r j I I1 Sh C). apply (held_live _ _ _ r I1). apply in_or_app. now left.
Qed.

(** ** Walks *)

Ltac look := repeat match goal with
  | |- context [upd ?h ?p ?o ?q] => first [constr_eq p q; rewrite (upd_same h p o) | rewrite (upd_other h p o q) by lia]
  end.
Ltac go1 := cbn [run exec pick nth_error vars objects created without each members strong obind]; unfold push, acquire; look; cbn [release]; look.
Ltac go := repeat (progress go1).

Lemma good_members s p o q : good s -> objects s p = Some o -> In q (members o) -> q < p.
Proof. intros G E Hq. apply (older _ _ _ G) in E. destruct E as (_ & _ & F). rewrite Forall_forall in F. now apply F. Qed.

Lemma good_lt s p o : good s -> objects s p = Some o -> p < created s.
Proof. intros G E. now apply (older _ _ _ G) in E. Qed.

Lemma chain_one h q k : chain h q k -> exists ms, h q = Some (Object 1 ms).
Proof. intros C. destruct C as [p [c ms] E S1|p [c ms] r j E S1 _ _]; cbn [strong] in S1; subst c; eauto. Qed.

(** What holds between two steps of the loops: [block] is the head of a chain. *)
Definition blocks (n : nat) (s : mem) : Prop :=
  exists b key kc, vars s = [b; key] /\ b <> key /\
    objects s key = Some (Object (S kc) []) /\ chain (objects s) b n.

Lemma imit_start_run d : exists s, run d imit_start start = Done s /\ blocks 1 s.
Proof.
  eexists. split; [reflexivity|]. exists 1, 0, 0. split; [reflexivity|]. split; [discriminate|]. split; [reflexivity|].
  eapply Single; reflexivity.
Qed.

(** The chain survives if its objects do; the key, which has more owners, is not in it. *)
Lemma chain_step held held' h h' n n' key q k : Inv held h n -> Inv held' h' n' -> In key held ->
  (forall p o', p < n -> p <> key -> h' p = Some o' ->
     exists o, h p = Some o /\ members o' = members o /\ strong o' <= strong o) ->
  chain h q k -> q <> key -> h' q <> None -> chain h' q k.
Proof.
  intros I I' Hk Hs C. induction C as [p o E S1|p o q k E S1 Hq C IH]; intros Hp Hl;
    destruct (older _ _ _ I _ _ E) as (Hlt & _ & _);
    destruct (h' p) as [o'|] eqn:E'; try congruence; destruct (Hs p o' Hlt Hp E') as (o1 & E1 & M1 & L1);
    rewrite E in E1; injection E1 as <-; destruct (older _ _ _ I' _ _ E') as (_ & S0 & _).
  - apply (Single h' p o'); [exact E'|lia].
  - apply (Link h' p o' q); [exact E'|lia|now rewrite M1|]. apply IH.
    + intros ->. destruct (chain_one _ _ _ C) as (ms & Eq). pose proof (right _ _ _ I key) as R. unfold count in R.
      rewrite Eq in R. cbn [strong] in R. pose proof (mrefs_le h p n key Hlt) as L. unfold mrefs in L. rewrite E in L.
      apply occ_in in Hq, Hk. lia.
    + apply (member_live _ _ _ p o' q I' E'). now rewrite M1.
Qed.

Lemma imit_step_run d n s : 1 <= d -> good s -> blocks n s ->
  exists s', run d imit_step s = Done s' /\ blocks (2 + n) s'.
Proof.
  intros Hd G (b & key & kc & V & Hne & Ek & C). destruct (chain_one _ _ _ C) as (ms & Eb).
  destruct d as [|d]; [lia|]. pose proof (run_good (S d) imit_step s G) as G'.
  pose proof (good_lt _ _ _ G Ek). pose proof (good_lt _ _ _ G Eb).
  destruct s as [h c vs]. cbn [vars objects created] in *. subst vs.
  assert (E : exists h', run (S d) imit_step (Mem h c [b; key]) = Done (Mem h' (S (S (S c))) [S (S c); key]) /\
     h' key = Some (Object (S (S kc)) []) /\ h' (S (S c)) = Some (Object 1 [key; S c]) /\ h' (S c) = Some (Object 1 [c; b]) /\
     h' b = Some (Object 1 ms) /\ forall p, p < c -> p <> b -> p <> key -> h' p = h p).
  { unfold imit_step. go. rewrite Eb. go. rewrite Ek. go. eexists. split; [reflexivity|]. look.
    repeat (split; [reflexivity|]). intros p H1 H2 H3. look. reflexivity. }
  destruct E as (h' & E & E1 & E2 & E3 & E4 & E5). rewrite E in *. eexists. split; [reflexivity|].
  destruct G' as [G' _]. unfold good in G, G'. cbn [vars objects created] in G, G'.
  exists (S (S c)), key, (S kc). cbn [vars objects]. split; [reflexivity|]. split; [lia|]. split; [exact E1|].
  apply (Link _ _ _ (S c) _ E2); [reflexivity|right; now left|].
  apply (Link _ _ _ b _ E3); [reflexivity|right; now left|].
  apply (chain_step _ _ _ _ _ _ key _ _ G G'); [right; now left| |exact C|exact Hne|congruence].
  intros p o' Hp Hpk Ep. destruct (Nat.eq_dec p b) as [->|Hb]; [exists (Object 1 ms); rewrite E4 in Ep; injection Ep as <-; now split|].
  rewrite E5 in Ep by assumption. eauto.
Qed.

Lemma magma_step_run d n s : 1 <= d -> good s -> blocks n s ->
  exists s', run d magma_step s = Done s' /\ blocks (7 + n) s'.
Proof.
  intros Hd G (b & key & kc & V & Hne & Ek & C). destruct (chain_one _ _ _ C) as (ms & Eb).
  destruct d as [|d]; [lia|]. pose proof (run_good (S d) magma_step s G) as G'.
  pose proof (good_lt _ _ _ G Ek). pose proof (good_lt _ _ _ G Eb).
  destruct s as [h c vs]. cbn [vars objects created] in *. subst vs.
  assert (E : exists h', run (S d) magma_step (Mem h c [b; key]) = Done (Mem h' (8 + c) [7 + c; key]) /\
     h' key = Some (Object (5 + kc) []) /\ h' (7 + c) = Some (Object 1 [6 + c]) /\ h' (6 + c) = Some (Object 1 [5 + c]) /\
     h' (5 + c) = Some (Object 1 [key; 4 + c]) /\ h' (4 + c) = Some (Object 1 [key; 3 + c]) /\
     h' (3 + c) = Some (Object 1 [key; 2 + c]) /\ h' (2 + c) = Some (Object 1 [key; 1 + c]) /\
     h' (1 + c) = Some (Object 1 [c; b]) /\
     h' b = Some (Object 1 ms) /\ forall p, p < c -> p <> b -> p <> key -> h' p = h p).
  { unfold magma_step. go. rewrite Eb. go. rewrite Ek. do 8 go. eexists. split; [reflexivity|]. cbn [Nat.add]. look.
    repeat (split; [reflexivity|]). intros p H1 H2 H3. look. reflexivity. }
  destruct E as (h' & E & E1 & E7 & E6 & E5 & E4 & E3 & E2 & E0 & Eb' & Eo). rewrite E in *. eexists. split; [reflexivity|].
  destruct G' as [G' _]. unfold good in G, G'. cbn [vars objects created] in G, G'.
  exists (7 + c), key, (4 + kc). cbn [vars objects]. split; [reflexivity|]. split; [lia|]. split; [exact E1|].
  apply (Link _ _ _ (6 + c) _ E7); [reflexivity|now left|].
  apply (Link _ _ _ (5 + c) _ E6); [reflexivity|now left|].
  apply (Link _ _ _ (4 + c) _ E5); [reflexivity|right; now left|].
  apply (Link _ _ _ (3 + c) _ E4); [reflexivity|right; now left|].
  apply (Link _ _ _ (2 + c) _ E3); [reflexivity|right; now left|].
  apply (Link _ _ _ (1 + c) _ E2); [reflexivity|right; now left|].
  apply (Link _ _ _ b _ E0); [reflexivity|right; now left|].
  apply (chain_step _ _ _ _ _ _ key _ _ G G'); [right; now left| |exact C|exact Hne|congruence].
  intros p o' Hp Hpk Ep. destruct (Nat.eq_dec p b) as [->|Hb]; [exists (Object 1 ms); rewrite Eb' in Ep; injection Ep as <-; now split|].
  rewrite Eo in Ep by assumption. eauto.
Qed.

Definition walking (n : nat) (s : mem) : Prop :=
  exists it ctr key inner kc, vars s = [it; key] /\ ctr <> key /\ inner <> key /\ inner <> ctr /\
    objects s it = Some (Object 1 [ctr; key; inner]) /\ objects s key = Some (Object (S (S kc)) []) /\
    objects s inner = Some (Object 1 []) /\ chain (objects s) ctr n.

Lemma ctr_start_run d : 1 <= d -> exists s, run d ctr_start start = Done s /\ walking 1 s.
Proof.
  intros Hd. destruct d as [|d]; [lia|]. eexists. split; [reflexivity|]. exists 3, 2, 0, 1, 0.
  split; [reflexivity|]. repeat (split; [discriminate || reflexivity|]). eapply Single; reflexivity.
Qed.

Lemma ctr_next_run d n s : 2 <= d -> good s -> walking n s ->
  exists s', run d ctr_next s = Done s' /\ walking (1 + n) s'.
Proof.
  intros Hd G (it & ctr & key & inner & kc & V & N1 & N2 & N3 & Ei & Ek & En & C).
  destruct (chain_one _ _ _ C) as (ms & Ec).
  destruct d as [|[|d]]; [lia|lia|]. pose proof (run_good (S (S d)) ctr_next s G) as G'.
  pose proof (good_lt _ _ _ G Ei). pose proof (good_members _ _ _ ctr G Ei (or_introl eq_refl)).
  pose proof (good_members _ _ _ key G Ei (or_intror (or_introl eq_refl))).
  pose proof (good_members _ _ _ inner G Ei (or_intror (or_intror (or_introl eq_refl)))).
  destruct s as [h c vs]. cbn [vars objects created] in *. subst vs.
  assert (E : exists h', run (S (S d)) ctr_next (Mem h c [it; key]) = Done (Mem h' (3 + c) [2 + c; key]) /\
     h' key = Some (Object (S (S kc)) []) /\ h' (2 + c) = Some (Object 1 [1 + c; key; c]) /\
     h' (1 + c) = Some (Object 1 [ctr]) /\ h' c = Some (Object 1 []) /\ h' ctr = Some (Object 1 ms) /\
     h' it = None /\ h' inner = None /\
     forall p, p < c -> p <> it -> p <> inner -> p <> key -> p <> ctr -> h' p = h p).
  { unfold ctr_next. repeat (go; first [rewrite Ei|rewrite Ec|rewrite Ek|rewrite En]). go. eexists.
    split; [reflexivity|]. cbn [Nat.add]. look. repeat (split; [reflexivity|]). intros p H3 H4 H5 H6 H7. look. reflexivity. }
  destruct E as (h' & E & E1 & E2 & E3 & E4 & E5 & E6 & E7 & E8). rewrite E in *. eexists. split; [reflexivity|].
  destruct G' as [G' _]. unfold good in G, G'. cbn [vars objects created] in G, G'.
  exists (2 + c), (1 + c), key, c, kc. cbn [vars objects]. split; [reflexivity|].
  repeat (split; [lia || assumption|]).
  apply (Link _ _ _ ctr _ E3); [reflexivity|now left|].
  apply (chain_step _ _ _ _ _ _ key _ _ G G'); [right; now left| |exact C|exact N1|congruence].
  intros p o' Hp Hpk Ep.
  destruct (Nat.eq_dec p ctr) as [->|H3]; [exists (Object 1 ms); rewrite E5 in Ep; injection Ep as <-; now split|].
  destruct (Nat.eq_dec p it) as [->|H4]; [congruence|]. destruct (Nat.eq_dec p inner) as [->|H5]; [congruence|].
  rewrite E8 in Ep by assumption. eauto.
Qed.

(** ** The loops *)

Lemma repeat_run d (P : nat -> mem -> Prop) step k m : 
  (forall n s, good s -> P n s -> exists s', run d step s = Done s' /\ P (k + n) s') ->
  forall n s, good s -> P m s -> exists s', run d (concat (repeat step n)) s = Done s' /\ good s' /\ P (n * k + m) s'.
Proof.
  intros Hs. assert (H : forall n m s, good s -> P m s ->
    exists s', run d (concat (repeat step n)) s = Done s' /\ good s' /\ P (n * k + m) s').
  { induction n as [|n IH]; intros m0 s G HP; [exists s; now split|]. cbn [repeat concat]. rewrite run_app.
    destruct (Hs m0 s G HP) as (s1 & E1 & P1). rewrite E1. cbn [obind].
    pose proof (run_good d step s G) as G1. rewrite E1 in G1. destruct (IH (k + m0) s1 (proj1 G1) P1) as (s2 & E2 & G2 & P2).
    exists s2. split; [exact E2|]. split; [exact G2|]. replace (S n * k + m0) with (n * k + (k + m0)) by lia. exact P2. }
  intros n s. apply H.
Qed.

Lemma drop_deep d s p rest k : good s -> vars s = p :: rest -> chain (objects s) p k -> d < k -> run d [Drop 0] s = Deep.
Proof.
  intros G V C Hk. cbn [run exec]. rewrite V. cbn [nth_error]. unfold good in G. rewrite V in G.
  now rewrite (release_deep (created s) d k p rest _ Hk G C).
Qed.

Lemma walk_deep d start' step (P : nat -> mem -> Prop) k m n : 
  (exists s, run d start' start = Done s /\ P m s) ->
  (forall n s, good s -> P n s -> exists s', run d step s = Done s' /\ P (k + n) s') ->
  (forall n s, P n s -> exists p rest, vars s = p :: rest /\ chain (objects s) p n) ->
  (exists s, run d (start' ++ concat (repeat step n)) start = Done s) /\
  (d < n * k + m -> run d ((start' ++ concat (repeat step n)) ++ [Drop 0]) start = Deep).
Proof.
  intros (s0 & E0 & P0) Hs HP. pose proof (run_good d start' start start_good) as G0. rewrite E0 in G0.
  destruct (repeat_run d P step k m Hs n s0 (proj1 G0) P0) as (s & E & G & Ps).
  assert (R : run d (start' ++ concat (repeat step n)) start = Done s) by (rewrite run_app, E0; exact E).
  split; [eauto|]. intros Hd. rewrite run_app, R. cbn [obind]. destruct (HP _ _ Ps) as (p & rest & V & C).
  now apply (drop_deep d s p rest (n * k + m)).
Qed.

Lemma imit_deep d n : 1 <= d -> (exists s, run d (imit_loop n) start = Done s) /\
  (d <= 2 * n -> run d (imit_loop n ++ [Drop 0]) start = Deep).
Proof.
  intros Hd. destruct (walk_deep d imit_start imit_step blocks 2 1 n) as [A B].
  - apply imit_start_run.
  - intros j s. now apply imit_step_run.
  - intros j s (b & key & kc & V & _ & _ & C). eauto.
  - split; [exact A|]. intros H. apply B. lia.
Qed.

Lemma magma_deep d n : 1 <= d -> (exists s, run d (magma_loop n) start = Done s) /\
  (d <= 7 * n -> run d (magma_loop n ++ [Drop 0]) start = Deep).
Proof.
  intros Hd. destruct (walk_deep d imit_start magma_step blocks 7 1 n) as [A B].
  - apply imit_start_run.
  - intros j s. now apply magma_step_run.
  - intros j s (b & key & kc & V & _ & _ & C). eauto.
  - split; [exact A|]. intros H. apply B. lia.
Qed.

Lemma ctr_deep d n : 2 <= d -> (exists s, run d (ctr_walk n) start = Done s) /\
  (d <= S n -> run d (ctr_walk n ++ [Drop 0]) start = Deep).
Proof.
  intros Hd. destruct (walk_deep d ctr_start ctr_next (fun j s => exists i, j = S i /\ walking i s) 1 2 n) as [A B].
  - destruct (ctr_start_run d ltac:(lia)) as (s & E & H). exists s. split; [exact E|]. now exists 1.
  - intros j s G (i & -> & H). destruct (ctr_next_run d i s Hd G H) as (s' & E & H'). exists s'. split; [exact E|]. now exists (1 + i).
  - intros j s (i & -> & it & ctr & key & inner & kc & V & _ & _ & _ & Ei & _ & _ & C). exists it, [key]. split; [exact V|].
    apply (Link _ _ _ ctr _ Ei); [reflexivity|now left|exact C].
  - split; [exact A|]. intros H. apply B. lia.
Qed.

(** ** What is enough *)

Lemma run_enough d cs : length cs <= d -> exists s, run d cs start = Done s.
Proof.
  intros H. pose proof (run_good d cs start start_good) as R. cbn [created start] in R.
  destruct (run d cs start) as [s| |]; [eauto|contradiction|lia].
Qed.
