(** Proofs about ConcModel.v. *)
From Verif Require Import Base ConcModel SpecConc.
From Coq Require Import ZifyNat ZifyN ZifyBool Lia.
Local Open Scope N_scope.
Ltac Zify.zify_post_hook ::= idtac.

Section Machine.
Context {A : Type}.
Notation thread := (@thread A).
Notation config := (@config A).

Lemma set_thread_same (l : list thread) : forall i t, (i < List.length l)%nat ->
  nth_error (set_thread l i t) i = Some t.
Proof.
  induction l as [|x l IH]; intros i t Hi; [cbn in Hi; lia|].
  destruct i as [|i]; [reflexivity|]. cbn [set_thread nth_error]. apply IH. cbn in Hi. lia.
Qed.

Lemma set_thread_other (l : list thread) : forall i j t, i <> j ->
  nth_error (set_thread l i t) j = nth_error l j.
Proof.
  induction l as [|x l IH]; intros i j t Hij; [reflexivity|].
  destruct i as [|i], j as [|j]; try reflexivity; [congruence|].
  cbn [set_thread nth_error]. apply IH. congruence.
Qed.

Lemma nth_error_lt {B} (l : list B) i x : nth_error l i = Some x -> (i < List.length l)%nat.
Proof. intros H. apply nth_error_Some. congruence. Qed.

(** What is known of one thread after another one was replaced. *)
Lemma set_thread_inv (P : nat -> thread -> Prop) l i t :
  (forall j x, nth_error l j = Some x -> j <> i -> P j x) ->
  P i t -> forall j x, nth_error (set_thread l i t) j = Some x -> P j x.
Proof.
  intros H1 H2 j x Hx. destruct (Nat.eq_dec i j) as [<-|Hne].
  - destruct (Nat.lt_ge_cases i (List.length l)) as [Hl|Hl].
    + rewrite set_thread_same in Hx by exact Hl. now injection Hx as <-.
    + assert (E : set_thread l i t = l).
      { clear -Hl. revert i Hl. induction l as [|y l IH]; intros i Hl; [reflexivity|].
        destruct i as [|i]; [cbn in Hl; lia|]. cbn [set_thread]. rewrite IH; [reflexivity|]. cbn in Hl. lia. }
      rewrite E in Hx. apply nth_error_lt in Hx. lia.
  - rewrite set_thread_other in Hx by exact Hne. apply H1; [exact Hx|congruence].
Qed.

Lemma start_thread m calls i (t : thread) : nth_error (c_threads (start m calls)) i = Some t ->
  exists ps, nth_error calls i = Some ps /\ t = Thread ps [] [].
Proof.
  cbn [start c_threads]. intros H. rewrite nth_error_map in H.
  destruct (nth_error calls i) as [ps|]; [|discriminate]. injection H as <-. eauto.
Qed.

(** ** Right values *)

Section Values.
(** [size o]: number of words of object [o]; [val o]: their right values; [can o]: the flag
    can be set at all. *)
Context (size : nat -> nat) (val : nat -> nat -> N) (can : nat -> Prop).

(** [fine K r p]: if the words of [K] have their values, and all words of an object once its
    flag is seen set, then the program returns [r], stores right values only, and sets a
    flag only when all words of the object are stored. *)
Inductive fine : (nat -> nat -> Prop) -> res A -> prog A -> Prop :=
| fine_ret K r : fine K r (Ret r)
| fine_rdflag (K : nat -> nat -> Prop) r o k :
    (can o -> fine (fun x i => x = o /\ (i < size o)%nat) r (k true)) -> fine K r (k false) -> fine K r (RdFlag o k)
| fine_rdword (K : nat -> nat -> Prop) r o i k : K o i -> fine K r (k (val o i)) -> fine K r (RdWord o i k)
| fine_wrflag (K : nat -> nat -> Prop) r o p :
    can o -> (forall i, (i < size o)%nat -> K o i) -> fine K r p -> fine K r (WrFlag o true p)
| fine_wrword (K : nat -> nat -> Prop) r o i v p :
    v = val o i -> fine (fun x j => K x j \/ (x = o /\ j = i)) r p -> fine K r (WrWord o i v p).

(** The words of [K] are right in memory or will be through the stores of [b]. *)
Definition covered (m : memory) (b : list store) (o i : nat) : Prop :=
  m_word m o i = val o i \/ In (SWord o i (val o i)) b.

Definition right_store (s : store) : Prop :=
  match s with SFlag o _ => can o | SWord o i v => v = val o i end.

Definition buffer_ok (m : memory) (b : list store) : Prop :=
  Forall right_store b /\
  forall older o x newer, b = older ++ SFlag o x :: newer ->
  forall i, (i < size o)%nat -> covered m older o i.

Definition memory_ok (m : memory) : Prop :=
  forall o, m_flag m o = true -> can o /\ forall i, (i < size o)%nat -> m_word m o i = val o i.

(** [todo]: expected results of all calls of the thread. *)
Definition thread_ok (m : memory) (todo : list (res A)) (t : thread) : Prop :=
  buffer_ok m (t_buffer t) /\
  exists rs, todo = t_results t ++ rs /\
  match t_calls t, rs with
  | [], [] => True
  | p :: ps, r :: rs =>
      (exists K : nat -> nat -> Prop, (forall o i, K o i -> covered m (t_buffer t) o i) /\ fine K r p) /\
      Forall2 (fine (fun _ _ => False)) rs ps
  | _, _ => False
  end.

Definition inv (todo : list (list (res A))) (c : config) : Prop :=
  memory_ok (c_mem c) /\
  forall i t, nth_error (c_threads c) i = Some t ->
    exists rs, nth_error todo i = Some rs /\ thread_ok (c_mem c) rs t.

Lemma fold_word b : forall m o i, Forall right_store b ->
  m_word (fold_left apply_store b m) o i = m_word m o i \/
  m_word (fold_left apply_store b m) o i = val o i.
Proof.
  induction b as [|s b IH]; intros m o i Hb; [now left|]. inversion Hb; subst. cbn [fold_left].
  destruct (IH (apply_store m s) o i ltac:(assumption)) as [E|E]; [|now right]. rewrite E.
  destruct s as [p x|p j v]; cbn [apply_store m_word]; [now left|].
  cbn [right_store] in *. subst v.
  destruct (Nat.eqb_spec o p) as [->|]; [|now left]. destruct (Nat.eqb_spec i j) as [->|]; [now right|now left].
Qed.

Lemma fold_covered b m o i : Forall right_store b -> covered m b o i ->
  m_word (fold_left apply_store b m) o i = val o i.
Proof.
  revert m. induction b as [|s b IH]; intros m Hb [H|H]; [exact H|destruct H| |].
  - cbn [fold_left]. destruct (fold_word (s :: b) m o i Hb) as [E|E]; cbn [fold_left] in E; congruence.
  - cbn [fold_left]. inversion Hb; subst. destruct H as [->|H].
    + destruct (fold_word b (apply_store m (SWord o i (val o i))) o i ltac:(assumption)) as [E|E]; [|exact E].
      rewrite E. cbn [apply_store m_word]. now rewrite !Nat.eqb_refl.
    + apply IH; [assumption|now right].
Qed.

Lemma fold_flag b : forall m o, Forall right_store b -> m_flag (fold_left apply_store b m) o = true ->
  m_flag m o = true \/ exists older x newer, b = older ++ SFlag o x :: newer.
Proof.
  induction b as [|s b IH]; intros m o Hb H; [now left|]. inversion Hb; subst. cbn [fold_left] in H.
  destruct (IH _ _ ltac:(assumption) H) as [E|(a & x & r & ->)].
  - destruct s as [p x|p i v]; cbn [apply_store m_flag] in E; [|now left].
    destruct (Nat.eqb_spec o p) as [->|]; [|now left]. right. now exists [], x, b.
  - right. now exists (s :: a), x, r.
Qed.

Lemma view_flag m (t : thread) o : memory_ok m -> buffer_ok m (t_buffer t) -> m_flag (view m t) o = true ->
  can o /\ forall i, (i < size o)%nat -> covered m (t_buffer t) o i.
Proof.
  intros Hm [B1 B2] H. apply fold_flag in H; [|exact B1].
  destruct H as [H|(a & x & r & E)]; [split; [now apply Hm|]; intros i Hi; left; now apply Hm|].
  split.
  { rewrite E in B1. apply Forall_app in B1. destruct B1 as [_ B1]. now inversion B1. }
  intros i Hi. destruct (B2 a o x r E i Hi) as [H|H]; [now left|right]. rewrite E. apply in_or_app. now left.
Qed.

(** Memory only gets better. *)
Definition better (m m' : memory) : Prop := forall o i, m_word m o i = val o i -> m_word m' o i = val o i.

Lemma covered_better m m' b o i : better m m' -> covered m b o i -> covered m' b o i.
Proof. intros H [E|E]; [left; now apply H|now right]. Qed.

Lemma buffer_better m m' b : better m m' -> buffer_ok m b -> buffer_ok m' b.
Proof.
  intros H [B1 B2]. split; [exact B1|]. intros a o x r E i Hi.
  eapply covered_better; [exact H|]. now apply (B2 a o x r).
Qed.

Lemma thread_better m m' todo t : better m m' -> thread_ok m todo t -> thread_ok m' todo t.
Proof.
  intros H [B (rs & E & C)]. split; [now apply (buffer_better m)|]. exists rs. split; [exact E|].
  destruct (t_calls t), rs; try exact C. destruct C as [(K & HK & Hf) C]. split; [|exact C].
  exists K. split; [|exact Hf]. intros o i Hi. eapply covered_better; [exact H|]. now apply HK.
Qed.

Lemma apply_better m s : right_store s -> better m (apply_store m s).
Proof.
  intros Hs o i E. destruct s as [p x|p j v]; cbn [apply_store m_word]; [exact E|].
  cbn [right_store] in Hs. destruct (Nat.eqb_spec o p) as [->|]; [|exact E].
  destruct (Nat.eqb_spec i j) as [->|]; [exact Hs|exact E].
Qed.

Lemma fold_better b : forall m, Forall right_store b -> better m (fold_left apply_store b m).
Proof.
  induction b as [|s b IH]; intros m Hb o i E; [exact E|]. inversion Hb; subst. cbn [fold_left].
  apply IH; [assumption|]. now apply (apply_better m s).
Qed.

Lemma buffer_app m b s : buffer_ok m b -> right_store s ->
  (forall o x, s = SFlag o x -> forall i, (i < size o)%nat -> covered m b o i) -> buffer_ok m (b ++ [s]).
Proof.
  intros [B1 B2] Hs H. split; [apply Forall_app; split; [exact B1|repeat constructor; exact Hs]|].
  intros a o x r E i Hi. destruct r as [|y r].
  - apply app_inj_tail in E. destruct E as [-> ->]. now apply (H o x).
  - assert (Hr : exists r' z, y :: r = r' ++ [z]).
    { destruct (exists_last (l := y :: r)) as (r' & z & ->); [discriminate|]. eauto. }
    destruct Hr as (r' & z & Er). rewrite Er in E.
    change (a ++ SFlag o x :: r' ++ [z]) with (a ++ (SFlag o x :: r') ++ [z]) in E.
    rewrite app_assoc in E. apply app_inj_tail in E. destruct E as [-> ->].
    now apply (B2 a o x r').
Qed.

Lemma run_ok m todo t t' ev : memory_ok m -> thread_ok m todo t ->
  thread_step m t = Some (t', ev) -> thread_ok m todo t'.
Proof.
  intros Hm [B (rs & E & C)] Hs. unfold thread_step in Hs.
  destruct (t_calls t) as [|p ps]; [discriminate|]. destruct rs as [|r rs]; [destruct C|].
  destruct C as [(K & HK & Hf) C].
  destruct p as [r'|o k|o i k|o b p|o i v p]; injection Hs as <- _; unfold thread_ok; cbn [t_calls t_results t_buffer].
  - inversion Hf; subst. split; [exact B|]. exists rs. split; [now rewrite <- app_assoc|].
    inversion C as [|r0 p0 rs0 ps0 C1 C2]; subst; [exact I|]. split; [|exact C2].
    exists (fun _ _ => False). split; [tauto|exact C1].
  - inversion Hf; subst. split; [exact B|]. exists (r :: rs). split; [reflexivity|]. split; [|exact C].
    destruct (m_flag (view m t) o) eqn:Ef.
    + destruct (view_flag m t o Hm B Ef) as [V1 V2].
      exists (fun x i => x = o /\ (i < size o)%nat). split; [|auto]. intros x i [-> Hi]. now apply V2.
    + exists K. split; assumption.
  - inversion Hf; subst. split; [exact B|]. exists (r :: rs). split; [reflexivity|]. split; [|exact C].
    exists K. split; [exact HK|]. unfold view. rewrite fold_covered; [assumption|apply B|now apply HK].
  - inversion Hf; subst. split.
    + apply buffer_app; [exact B|assumption|]. intros o' x [= <- <-] i Hi. now apply HK; auto.
    + exists (r :: rs). split; [reflexivity|]. split; [|exact C]. exists K. split; [|assumption].
      intros x i Hi. destruct (HK x i Hi) as [H|H]; [now left|right]. apply in_or_app. now left.
  - inversion Hf; subst. split.
    + apply buffer_app; [exact B|reflexivity|]. discriminate.
    + exists (r :: rs). split; [reflexivity|]. split; [|exact C]. eexists. split; [|eassumption].
      intros x j [Hj | [-> ->]]; [|right; apply in_or_app; right; now left].
      destruct (HK x j Hj) as [H|H]; [now left|right]. apply in_or_app. now left.
Qed.

Lemma settle_ok m todo t : memory_ok m -> thread_ok m todo t ->
  memory_ok (view m t) /\ better m (view m t) /\
  thread_ok (view m t) todo (Thread (t_calls t) (t_results t) []).
Proof.
  intros Hm Ht. pose proof Ht as Ht'. destruct Ht as [B (rs & E & C)].
  assert (HB : better m (view m t)) by (apply fold_better; apply B).
  split; [|split; [exact HB|]].
  - intros o H. destruct (view_flag m t o Hm B H) as [V1 V2]. split; [exact V1|].
    intros i Hi. apply fold_covered; [apply B|]. now apply V2.
  - split.
    + split; [constructor|]. intros a o x r H. destruct a; discriminate.
    + exists rs. split; [exact E|]. cbn [t_calls t_buffer]. destruct (t_calls t), rs; try exact C.
      destruct C as [(K & HK & Hf) C]. split; [|exact C]. exists K. split; [|exact Hf].
      intros o i Hi. left. apply fold_covered; [apply B|]. now apply HK.
Qed.

Lemma flush_ok m todo t s newer : memory_ok m -> thread_ok m todo t -> t_buffer t = s :: newer ->
  memory_ok (apply_store m s) /\ better m (apply_store m s) /\
  thread_ok (apply_store m s) todo (Thread (t_calls t) (t_results t) newer).
Proof.
  intros Hm [B (rs & E & C)] Eb. rewrite Eb in *. destruct B as [B1 B2]. inversion B1; subst.
  assert (HB : better m (apply_store m s)) by now apply apply_better.
  assert (HC : forall older o i, covered m (s :: older) o i -> covered (apply_store m s) older o i).
  { intros older o i [H|[->|H]]; [left; now apply HB| |now right].
    left. cbn [apply_store m_word]. now rewrite !Nat.eqb_refl. }
  split; [|split; [exact HB|]].
  - assert (Keep : forall o, m_flag m o = true ->
      can o /\ forall i, (i < size o)%nat -> m_word (apply_store m s) o i = val o i).
    { intros o H. destruct (Hm o H) as [H0 H0']. split; [exact H0|]. intros i Hi. apply HB. now apply H0'. }
    intros o H. destruct s as [p x|p j v]; [|now apply Keep]. cbn [apply_store m_flag] in H.
    destruct (Nat.eqb_spec o p) as [Eo|]; [|now apply Keep]. rewrite Eo.
    split; [assumption|]. intros i Hi. destruct (B2 [] p x newer eq_refl i Hi) as [H'|H']; [exact H'|destruct H'].
  - split.
    + split; [assumption|]. intros a o x r Er i Hi. apply HC. apply (B2 (s :: a) o x r); [|exact Hi].
      cbn [t_buffer] in Er. now rewrite Er.
    + exists rs. split; [reflexivity|]. cbn [t_calls t_buffer]. destruct (t_calls t), rs; try exact C.
      destruct C as [(K & HK & Hf) C]. split; [|exact C]. exists K. split; [|exact Hf].
      intros o i Hi. now apply HC, HK.
Qed.

Lemma inv_set todo c i t m' t' rs : nth_error (c_threads c) i = Some t ->
  inv todo c -> nth_error todo i = Some rs ->
  memory_ok m' -> better (c_mem c) m' -> thread_ok m' rs t' ->
  inv todo (Config m' (set_thread (c_threads c) i t')).
Proof.
  intros Ht [H1 H2] Hr Hm HB Hok. split; [exact Hm|]. cbn [c_threads c_mem].
  apply (set_thread_inv (fun j x => exists rs, nth_error todo j = Some rs /\ thread_ok m' rs x)).
  - intros j x Hx _. destruct (H2 j x Hx) as (rs' & E & O). exists rs'. split; [exact E|].
    now apply (thread_better (c_mem c)).
  - eauto.
Qed.

Lemma step_ok mo todo c ev c' : mo <> PSO -> inv todo c -> step mo c ev c' -> inv todo c'.
Proof.
  intros Hmo Hi Hs. destruct Hs as [i t t' e Ht Hstep|i t older s newer Ht Hb Hf].
  - destruct (proj2 Hi i t Ht) as (rs & E & O).
    pose proof (run_ok _ _ _ _ _ (proj1 Hi) O Hstep) as O'.
    destruct mo; [| |congruence].
    + destruct (settle_ok _ _ _ (proj1 Hi) O') as (S1 & S2 & S3). now apply (inv_set todo c i t _ _ rs).
    + apply (inv_set todo c i t _ _ rs); auto; [apply Hi|now intros x j].
  - destruct (proj2 Hi i t Ht) as (rs & E & O).
    assert (Eo : older = []) by (destruct mo; try exact Hf; congruence). subst older.
    destruct (flush_ok _ _ _ _ _ (proj1 Hi) O Hb) as (S1 & S2 & S3).
    now apply (inv_set todo c i t _ _ rs).
Qed.

Lemma exec_ok mo todo c tr c' : mo <> PSO -> inv todo c -> exec mo c tr c' -> inv todo c'.
Proof. intros Hmo Hi He. induction He as [|tr c1 ev c2 He IH Hs]; [exact Hi|]. now apply (step_ok mo todo c1 ev). Qed.

Lemma start_ok (m : memory) (calls : list (list (prog A))) todo : memory_ok m ->
  Forall2 (Forall2 (fine (fun _ _ => False))) todo calls -> inv todo (start m calls).
Proof.
  intros Hm HF. split; [exact Hm|]. intros i t Ht. apply start_thread in Ht. destruct Ht as (ps & Hp & ->).
  revert todo i HF Hp. clear Hm. induction calls as [|c calls IH]; intros todo i HF Hp; [destruct i; discriminate|].
  inversion HF as [|rs ? todo' ? H1 H2]; subst. destruct i as [|i].
  - injection Hp as ->. exists rs. split; [reflexivity|]. split.
    + split; [constructor|]. intros a o x r H. destruct a; discriminate.
    + exists rs. split; [reflexivity|]. cbn [t_calls]. inversion H1 as [|r p rs' ps' F1 F2]; subst; [exact I|].
      split; [|exact F2]. exists (fun _ _ => False). split; [tauto|exact F1].
  - destruct (IH todo' i H2 Hp) as (rs' & E & O). exists rs'. split; [exact E|exact O].
Qed.

(** All executions: the results so far are the expected ones, and a thread that has made
    all its calls has all of them. *)
Lemma exec_results mo m calls todo tr c i t :
  mo <> PSO -> memory_ok m -> Forall2 (Forall2 (fine (fun _ _ => False))) todo calls ->
  exec mo (start m calls) tr c -> nth_error (c_threads c) i = Some t ->
  exists rs rest, nth_error todo i = Some rs /\ rs = t_results t ++ rest /\ (t_calls t = [] -> rest = []).
Proof.
  intros Hmo Hm HF He Ht. pose proof (exec_ok mo todo _ _ _ Hmo (start_ok m calls todo Hm HF) He) as [_ H].
  destruct (H i t Ht) as (rs & E & _ & rest & E' & C). exists rs, rest. split; [exact E|]. split; [exact E'|].
  intros Hc. rewrite Hc in C. destruct rest; [reflexivity|destruct C].
Qed.
End Values.

(** ** Races *)

Section Races.
Context (o : nat).

(** The program sets the flag of [o] before it returns, if it finds it unset. *)
Inductive pending : prog A -> Prop :=
| pending_rdflag k : pending (k false) -> pending (RdFlag o k)
| pending_wrword x i v p : pending p -> pending (WrWord x i v p)
| pending_wrflag p : pending (WrFlag o true p).

Definition reads_flag (p : prog A) : Prop := exists k, p = RdFlag o k.

Definition no_flag_store (s : store) : Prop := exists x i v, s = SWord x i v.

(** As long as nobody has written the flag. *)
Definition unset (calls : list (list (prog A))) (c : config) : Prop :=
  m_flag (c_mem c) o = false /\
  forall i t, nth_error (c_threads c) i = Some t ->
    Forall no_flag_store (t_buffer t) /\
    exists ps, nth_error calls i = Some ps /\
    match ps with
    | [] => t_calls t = []
    | _ :: later => exists p, t_calls t = p :: later /\ pending p
    end.

Lemma fold_unset b : forall m, Forall no_flag_store b -> m_flag (fold_left apply_store b m) o = m_flag m o.
Proof.
  induction b as [|s b IH]; intros m Hb; [reflexivity|]. inversion Hb as [|? ? (x & i & v & ->) Hb']; subst.
  cbn [fold_left]. rewrite IH by exact Hb'. reflexivity.
Qed.

Definition is_flag_write (a : access) : Prop := exists i, a = (i, LFlag o, true).

Lemma unset_set calls c i t m' t' ps : nth_error (c_threads c) i = Some t -> unset calls c ->
  m_flag m' o = false -> Forall no_flag_store (t_buffer t') -> nth_error calls i = Some ps ->
  match ps with
  | [] => t_calls t' = []
  | _ :: later => exists p, t_calls t' = p :: later /\ pending p
  end ->
  unset calls (Config m' (set_thread (c_threads c) i t')).
Proof.
  intros Ht [U1 U2] Hm Hb Hp Hc. split; [exact Hm|]. cbn [c_threads].
  apply (set_thread_inv (fun i t => Forall no_flag_store (t_buffer t) /\
    exists ps, nth_error calls i = Some ps /\
    match ps with
    | [] => t_calls t = []
    | _ :: later => exists p, t_calls t = p :: later /\ pending p
    end)).
  - intros j x Hx _. now apply U2.
  - split; [exact Hb|]. eauto.
Qed.

Lemma step_unset mo calls c ev c' : unset calls c -> step mo c ev c' ->
  (exists a, In a ev /\ is_flag_write a) \/ unset calls c'.
Proof.
  intros U Hs. destruct Hs as [i t t' e Ht Hstep|i t older s newer Ht Hb Hf].
  - destruct (proj2 U i t Ht) as (B & ps & Hp & Hc). unfold thread_step in Hstep.
    destruct ps as [|p0 later]; [rewrite Hc in Hstep; discriminate|]. destruct Hc as (p & Ec & P).
    rewrite Ec in Hstep.
    assert (G : forall t'', Forall no_flag_store (t_buffer t'') ->
       (exists p, t_calls t'' = p :: later /\ pending p) ->
       unset calls match mo with
                   | SC => Config (view (c_mem c) t'') (set_thread (c_threads c) i (Thread (t_calls t'') (t_results t'') []))
                   | _ => Config (c_mem c) (set_thread (c_threads c) i t'')
                   end).
    { intros t'' B' C'. destruct mo.
      - apply (unset_set calls c i t _ _ (p0 :: later)); auto; [|constructor].
        unfold view. rewrite fold_unset by exact B'. apply U.
      - apply (unset_set calls c i t _ _ (p0 :: later)); auto. apply U.
      - apply (unset_set calls c i t _ _ (p0 :: later)); auto. apply U. }
    destruct P as [k Pk|x j v p Pp|p]; injection Hstep as <- <-.
    + right. apply G; [exact B|]. cbn [t_calls]. unfold view. rewrite fold_unset by exact B.
      rewrite (proj1 U). eauto.
    + right. apply G; cbn [t_buffer t_calls]; [|eauto]. apply Forall_app. split; [exact B|].
      repeat constructor. now exists x, j, v.
    + left. eexists. split; [now left|]. now exists i.
  - right. destruct (proj2 U i t Ht) as (B & ps & Hp & Hc). rewrite Hb in B.
    apply Forall_app in B. destruct B as [B1 B2]. inversion B2 as [|? ? (x & j & v & ->) B3]; subst.
    apply (unset_set calls c i t _ _ ps); auto; [apply U|]. cbn [t_buffer]. apply Forall_app. now split.
Qed.

Lemma exec_unset mo calls c tr c' : unset calls c -> exec mo c tr c' ->
  (exists a, In a tr /\ is_flag_write a) \/ unset calls c'.
Proof.
  intros U He. induction He as [|tr c1 ev c2 He IH Hs]; [now right|].
  destruct IH as [(a & Ha & Hw)|U1].
  - left. exists a. split; [apply in_or_app; now left|exact Hw].
  - destruct (step_unset mo calls c1 ev c2 U1 Hs) as [(a & Ha & Hw)|U2]; [left|now right].
    exists a. split; [apply in_or_app; now right|exact Hw].
Qed.

(** A thread that has left its initial state has read the flag. *)
Definition has_read (calls : list (list (prog A))) (tr : list access) (c : config) : Prop :=
  forall i t, nth_error (c_threads c) i = Some t ->
    exists ps, nth_error calls i = Some ps /\ (t_calls t = ps \/ In (i, LFlag o, false) tr).

Lemma step_has_read mo calls tr c ev c' : Forall (Forall reads_flag) calls ->
  has_read calls tr c -> step mo c ev c' -> has_read calls (tr ++ ev) c'.
Proof.
  intros HF H Hs.
  assert (Mono : forall j x tr', (exists ps, nth_error calls j = Some ps /\ (t_calls x = ps \/ In (j, LFlag o, false) tr)) ->
     exists ps, nth_error calls j = Some ps /\ (t_calls x = ps \/ In (j, LFlag o, false) (tr ++ tr'))).
  { intros j x tr' (ps & E & [C|C]); exists ps; (split; [exact E|]); [now left|right; apply in_or_app; now left]. }
  destruct Hs as [i t t' e Ht Hstep|i t older s newer Ht Hb Hf].
  - set (evs := match e with Some (l, b) => [(i, l, b)] | None => [] end).
    assert (N : forall x, t_calls x = t_calls t' -> exists ps, nth_error calls i = Some ps /\
       (t_calls x = ps \/ In (i, LFlag o, false) (tr ++ evs))).
    { intros x Ex. destruct (H i t Ht) as (ps & E & [C|C]).
      - exists ps. split; [exact E|]. right. apply in_or_app. right. unfold thread_step in Hstep. rewrite C in Hstep.
        destruct ps as [|p ps']; [discriminate|].
        assert (Hr : reads_flag p).
        { rewrite Forall_forall in HF. apply nth_error_In in E. apply HF in E. now inversion E. }
        destruct Hr as [k ->]. subst evs. injection Hstep as _ <-. now left.
      - exists ps. split; [exact E|]. right. apply in_or_app. now left. }
    unfold has_read. destruct mo; cbn [c_threads]; (apply (set_thread_inv (fun i t => exists ps, nth_error calls i = Some ps /\ (t_calls t = ps \/ In (i, LFlag o, false) (tr ++ evs)))); [intros j x Hx _; apply Mono, H, Hx|now apply N]).
  - unfold has_read. cbn [c_threads].
    apply (set_thread_inv (fun i t => exists ps, nth_error calls i = Some ps /\ (t_calls t = ps \/ In (i, LFlag o, false) (tr ++ [])))).
    + intros j x Hx _. apply Mono, H, Hx.
    + cbn [t_calls]. apply Mono. now apply H.
Qed.

Lemma exec_has_read mo calls m tr c : Forall (Forall reads_flag) calls ->
  exec mo (start m calls) tr c -> has_read calls tr c.
Proof.
  intros HF He. induction He as [|tr c1 ev c2 He IH Hs].
  - intros i t Ht. apply start_thread in Ht. destruct Ht as (ps & Hp & ->). exists ps. split; [exact Hp|now left].
  - now apply (step_has_read mo calls tr c1 ev c2).
Qed.

Lemma exec_threads mo (c : config) tr c' : exec mo c tr c' -> List.length (c_threads c') = List.length (c_threads c).
Proof.
  assert (L : forall l i (t : thread), List.length (set_thread l i t) = List.length l).
  { induction l as [|x l IH]; intros i t; [reflexivity|]. destruct i; cbn [set_thread List.length]; [reflexivity|now rewrite IH]. }
  intros He. induction He as [|tr c1 ev c2 He IH Hs]; [reflexivity|]. rewrite <- IH.
  destruct Hs; [destruct mo; cbn [c_threads]; apply L|cbn [c_threads]; apply L].
Qed.

Lemma always_race mo m calls tr c :
  m_flag m o = false -> Forall (Forall (fun p => reads_flag p /\ pending p)) calls ->
  (exists i j ps qs, i <> j /\ nth_error calls i = Some ps /\ nth_error calls j = Some qs /\ ps <> [] /\ qs <> []) ->
  exec mo (start m calls) tr c -> finished c -> race tr.
Proof.
  intros Hm HF (i & j & ps & qs & Hij & Hi & Hj & Hps & Hqs) He Hfin.
  assert (HR : Forall (Forall reads_flag) calls).
  { eapply Forall_impl; [|exact HF]. intros l Hl. eapply Forall_impl; [|exact Hl]. now intros p [H _]. }
  pose proof (exec_has_read mo calls m tr c HR He) as HH.
  assert (HT : forall a ps, nth_error calls a = Some ps -> ps <> [] -> In (a, LFlag o, false) tr).
  { intros a xs Ha Hxs. destruct (nth_error (c_threads c) a) as [t|] eqn:Et.
    - destruct (HH a t Et) as (xs' & E & [C|C]); [|exact C]. rewrite Ha in E. injection E as <-.
      unfold finished in Hfin. rewrite Forall_forall in Hfin. apply nth_error_In in Et. apply Hfin in Et. congruence.
    - apply nth_error_None in Et. rewrite (exec_threads mo _ _ _ He) in Et. cbn [start c_threads] in Et.
      rewrite map_length in Et. apply nth_error_lt in Ha. lia. }
  assert (HW : exists a, In a tr /\ is_flag_write a).
  { destruct (exec_unset mo calls (start m calls) tr c) as [H|[_ U]]; [|exact He|exact H|].
    - split; [exact Hm|]. intros a t Ht. apply start_thread in Ht. destruct Ht as (xs & Hx & ->).
      split; [constructor|]. exists xs. split; [exact Hx|]. cbn [t_calls]. destruct xs as [|p xs]; [reflexivity|].
      exists p. split; [reflexivity|]. rewrite Forall_forall in HF. apply nth_error_In in Hx. apply HF in Hx.
      inversion Hx as [|? ? H0 _]. apply H0.
    - exfalso. pose proof Hi as Hl. apply nth_error_lt in Hl.
      destruct (nth_error (c_threads c) i) as [t|] eqn:Et.
      + destruct (U i t Et) as (_ & xs & E & C). rewrite Hi in E. injection E as <-.
        unfold finished in Hfin. rewrite Forall_forall in Hfin. apply nth_error_In in Et. apply Hfin in Et.
        destruct ps as [|p ps]; [congruence|]. destruct C as (q & Eq & _). congruence.
      + apply nth_error_None in Et. rewrite (exec_threads mo _ _ _ He) in Et. cbn [start c_threads] in Et.
        rewrite map_length in Et. lia. }
  destruct HW as (w & Hw & (a & ->)).
  assert (HB : exists b, a <> b /\ In (b, LFlag o, false) tr).
  { destruct (Nat.eq_dec a i) as [->|Hne].
    - exists j. split; [exact Hij|]. now apply (HT j qs).
    - exists i. split; [exact Hne|]. now apply (HT i ps). }
  destruct HB as (b & Hab & Hb). apply In_nth_error in Hw, Hb. destruct Hw as [x Hx], Hb as [y Hy].
  exists x, y, (a, LFlag o, true), (b, LFlag o, false). split; [exact Hx|]. split; [exact Hy|].
  split; [cbn; auto|]. split.
  - intros [_ (u & v & E1 & E2 & E3)]. pose proof (eq_trans (eq_sym Hx) E1) as F1. pose proof (eq_trans (eq_sym Hy) E2) as F2.
    injection F1 as <-. injection F2 as <-. now cbn in E3.
  - intros [_ (u & v & E1 & E2 & E3)]. pose proof (eq_trans (eq_sym Hy) E1) as F1. pose proof (eq_trans (eq_sym Hx) E2) as F2.
    injection F1 as <-. injection F2 as <-. cbn in E3. now symmetry in E3.
Qed.

End Races.

(** ** After the first call *)

(** With this memory the program makes reads only. *)
Inductive read_only (m : memory) : res A -> prog A -> Prop :=
| ro_ret r : read_only m r (Ret r)
| ro_flag r o k : read_only m r (k (m_flag m o)) -> read_only m r (RdFlag o k)
| ro_word r o i k : read_only m r (k (m_word m o i)) -> read_only m r (RdWord o i k).

Definition quiet (m : memory) (todo : list (list (res A))) (c : config) : Prop :=
  c_mem c = m /\
  forall i t, nth_error (c_threads c) i = Some t ->
    t_buffer t = [] /\ exists rs rest, nth_error todo i = Some rs /\ rs = t_results t ++ rest /\
                       Forall2 (read_only m) rest (t_calls t).

Definition is_read (a : access) : Prop := snd a = false.

Lemma step_quiet mo m todo c ev c' : quiet m todo c -> step mo c ev c' ->
  Forall is_read ev /\ quiet m todo c'.
Proof.
  intros [Q1 Q2] Hs. destruct Hs as [i t t' e Ht Hstep|i t older s newer Ht Hb Hf].
  - destruct (Q2 i t Ht) as (B & rs & rest & E & Er & C). rewrite Q1 in Hstep.
    assert (G : forall t'', t_buffer t'' = [] ->
      (exists rest, rs = t_results t'' ++ rest /\ Forall2 (read_only m) rest (t_calls t'')) ->
      quiet m todo match mo with
                   | SC => Config (view (c_mem c) t'') (set_thread (c_threads c) i (Thread (t_calls t'') (t_results t'') []))
                   | _ => Config (c_mem c) (set_thread (c_threads c) i t'')
                   end).
    { intros t'' B' (rest' & E' & C').
      assert (V : view (c_mem c) t'' = m) by (unfold view; rewrite B'; exact Q1).
      destruct mo; (split; [cbn [c_mem]; assumption|]); cbn [c_threads];
        (eapply (set_thread_inv (fun i t => t_buffer t = [] /\ exists rs rest, nth_error todo i = Some rs /\ rs = t_results t ++ rest /\
                       Forall2 (read_only m) rest (t_calls t))); [intros j x Hx _; now apply Q2|]);
        (split; [assumption || reflexivity|]); exists rs, rest'; auto. }
    unfold thread_step in Hstep. destruct (t_calls t) as [|p ps]; [discriminate|].
    inversion C as [|r ? rest' ? C1 C2]; subst.
    assert (V : view (c_mem c) t = c_mem c) by (unfold view; now rewrite B).
    destruct C1 as [r|r o k C1|r o n k C1]; injection Hstep as <- <-.
    + split; [constructor|]. apply G; [exact B|]. cbn [t_results t_calls]. exists rest'. split; [now rewrite <- app_assoc|exact C2].
    + split; [repeat constructor|]. apply G; [exact B|]. cbn [t_results t_calls]. rewrite V. exists (r :: rest'). auto.
    + split; [repeat constructor|]. apply G; [exact B|]. cbn [t_results t_calls]. rewrite V. exists (r :: rest'). auto.
  - destruct (Q2 i t Ht) as (B & _). rewrite Hb in B. destruct older; discriminate.
Qed.

Lemma exec_quiet mo m calls todo tr c :
  Forall2 (Forall2 (read_only m)) todo calls -> exec mo (start m calls) tr c ->
  Forall is_read tr /\ quiet m todo c.
Proof.
  intros HF He. induction He as [|tr c1 ev c2 He IH Hs].
  - split; [constructor|]. split; [reflexivity|]. intros i t Ht. apply start_thread in Ht.
    destruct Ht as (ps & Hp & ->). split; [reflexivity|].
    revert todo i HF Hp. induction calls as [|x calls IH]; intros todo i HF Hp; [destruct i; discriminate|].
    inversion HF as [|rs ? todo' ? H1 H2]; subst. destruct i as [|i].
    + injection Hp as ->. exists rs, rs. auto.
    + destruct (IH todo' i H2 Hp) as (rs' & rest & H). exists rs', rest. exact H.
  - destruct IH as [I1 I2]. destruct (step_quiet mo m todo c1 ev c2 I2 Hs) as [S1 S2].
    split; [apply Forall_app; now split|exact S2].
Qed.

Lemma reads_no_race tr : Forall is_read tr -> ~ race tr.
Proof.
  intros H (i & j & [[a l] w] & [[b l'] w'] & Hi & Hj & (_ & _ & Hw) & _).
  rewrite Forall_forall in H. apply nth_error_In in Hi, Hj. apply H in Hi, Hj.
  unfold is_read in *. cbn [snd] in *. destruct Hw; congruence.
Qed.

(** ** Number of accesses *)

(** Every run of the program makes at most [n] accesses. *)
Inductive bounded : nat -> prog A -> Prop :=
| bd_ret n r : bounded n (Ret r)
| bd_rdflag n o k : (forall b, bounded n (k b)) -> bounded (Datatypes.S n) (RdFlag o k)
| bd_rdword n o i k : (forall v, bounded n (k v)) -> bounded (Datatypes.S n) (RdWord o i k)
| bd_wrflag n o b p : bounded n p -> bounded (Datatypes.S n) (WrFlag o b p)
| bd_wrword n o i v p : bounded n p -> bounded (Datatypes.S n) (WrWord o i v p).

Definition left (b : nat) (tr : list access) (calls : list (list (prog A))) (c : config) : Prop :=
  forall i t, nth_error (c_threads c) i = Some t ->
    exists ps, nth_error calls i = Some ps /\
    match t_calls t with
    | [] => (List.length (own i tr) <= b * List.length ps)%nat
    | p :: later => Forall (bounded b) later /\
        exists k, bounded k p /\ (List.length (own i tr) + k + b * List.length later <= b * List.length ps)%nat
    end.

Lemma own_other i j l w : i <> j -> own j [(i, l, w)] = [].
Proof. intros H. unfold own. cbn [filter fst]. now replace (Nat.eqb i j) with false by lia. Qed.
Lemma own_self i l w : own i [(i, l, w)] = [(i, l, w)].
Proof. unfold own. cbn [filter fst]. now rewrite Nat.eqb_refl. Qed.

Lemma step_left mo b tr calls c ev c' : left b tr calls c -> step mo c ev c' -> left b (tr ++ ev) calls c'.
Proof.
  intros H Hs. destruct Hs as [i t t' e Ht Hstep|i t older s newer Ht Hb Hf].
  - set (evs := match e with Some (l, b) => [(i, l, b)] | None => [] end).
    assert (O : forall j x, nth_error (c_threads c) j = Some x -> j <> i ->
      exists ps, nth_error calls j = Some ps /\
      match t_calls x with
      | [] => (List.length (own j (tr ++ evs)) <= b * List.length ps)%nat
      | p :: later => Forall (bounded b) later /\
          exists k, bounded k p /\ (List.length (own j (tr ++ evs)) + k + b * List.length later <= b * List.length ps)%nat
      end).
    { intros j x Hx Hne. assert (E : own j (tr ++ evs) = own j tr).
      { transitivity (own j tr ++ own j evs); [apply filter_app|].
        assert (own j evs = []) as ->; [|apply app_nil_r].
        unfold evs. destruct e as [[l w]|]; [apply own_other; congruence|reflexivity]. }
      rewrite E. now apply H. }
    assert (S : forall x, t_calls x = t_calls t' -> exists ps, nth_error calls i = Some ps /\
      match t_calls x with
      | [] => (List.length (own i (tr ++ evs)) <= b * List.length ps)%nat
      | p :: later => Forall (bounded b) later /\
          exists k, bounded k p /\ (List.length (own i (tr ++ evs)) + k + b * List.length later <= b * List.length ps)%nat
      end).
    { intros x Ex. rewrite Ex. destruct (H i t Ht) as (ps & E & C). exists ps. split; [exact E|].
      assert (EO : List.length (own i (tr ++ evs)) = (List.length (own i tr) + List.length evs)%nat).
      { transitivity (List.length (own i tr ++ own i evs)); [f_equal; apply filter_app|].
        rewrite app_length. f_equal. unfold evs. destruct e as [[l w]|]; [|reflexivity].
        exact (f_equal (@List.length _) (own_self i l w)). }
      rewrite EO. unfold thread_step in Hstep. destruct (t_calls t) as [|p later]; [discriminate|].
      destruct C as (C1 & k & C2 & C3). unfold evs. clear EO O evs.
      destruct C2 as [n r|n o f C2|n o j f C2|n o v p C2|n o j v p C2]; injection Hstep as <- <-; cbn [t_calls List.length].
      - destruct later as [|q later]; [cbn [List.length] in *; lia|]. inversion C1; subst. split; [assumption|].
        exists b. split; [assumption|]. cbn [List.length] in *. lia.
      - split; [exact C1|]. exists n. split; [apply C2|lia].
      - split; [exact C1|]. exists n. split; [apply C2|lia].
      - split; [exact C1|]. exists n. split; [apply C2|lia].
      - split; [exact C1|]. exists n. split; [apply C2|lia]. }
    destruct mo; unfold left; cbn [c_threads]; (eapply (set_thread_inv (fun i t => exists ps, nth_error calls i = Some ps /\
    match t_calls t with
    | [] => (List.length (own i (tr ++ evs)) <= b * List.length ps)%nat
    | p :: later => Forall (bounded b) later /\
        exists k, bounded k p /\ (List.length (own i (tr ++ evs)) + k + b * List.length later <= b * List.length ps)%nat
    end)); [exact O|now apply S]).
  - rewrite app_nil_r. unfold left. cbn [c_threads].
    eapply (set_thread_inv (fun i t => exists ps, nth_error calls i = Some ps /\
    match t_calls t with
    | [] => (List.length (own i tr) <= b * List.length ps)%nat
    | p :: later => Forall (bounded b) later /\
        exists k, bounded k p /\ (List.length (own i tr) + k + b * List.length later <= b * List.length ps)%nat
    end)); [intros j x Hx _; now apply H|]. cbn [t_calls]. now apply H.
Qed.

Lemma exec_left mo b m calls tr c : Forall (Forall (bounded b)) calls ->
  exec mo (start m calls) tr c -> left b tr calls c.
Proof.
  intros HF He. induction He as [|tr c1 ev c2 He IH Hs]; [|now apply (step_left mo b tr calls c1 ev c2)].
  intros i t Ht. apply start_thread in Ht. destruct Ht as (ps & Hp & ->). exists ps. split; [exact Hp|].
  cbn [t_calls]. rewrite Forall_forall in HF. pose proof (nth_error_In _ _ Hp) as Hin. apply HF in Hin.
  destruct ps as [|p later]; [cbn; lia|]. inversion Hin; subst. split; [assumption|].
  exists b. split; [assumption|]. cbn [own filter List.length]. lia.
Qed.

(** A thread that has calls to make can always go on. *)
Lemma can_go_on mo (c : config) i t : nth_error (c_threads c) i = Some t -> t_calls t <> [] ->
  exists t' e c', thread_step (c_mem c) t = Some (t', e) /\
    step mo c (match e with Some (l, b) => [(i, l, b)] | None => [] end) c'.
Proof.
  intros Ht Hc.
  assert (H : exists t' e, thread_step (c_mem c) t = Some (t', e)).
  { unfold thread_step. destruct (t_calls t) as [|p ps]; [congruence|]. destruct p; eauto. }
  destruct H as (t' & e & H). exists t', e. eexists. split; [exact H|]. eapply step_run; eassumption.
Qed.
End Machine.

(** ** Methods *)

Section Methods.
Context (size : nat -> nat) (val : nat -> nat -> N) (can : nat -> Prop).

(** [x], given what to do next, computes [r], and does it right whatever is known. *)
Definition does {A} (x : forall B, (A -> prog B) -> prog B) (r : res A) : Prop :=
  forall B K k (g : A -> res B),
    (forall a K', r = Ok a -> fine size val can K' (g a) (k a)) ->
    fine size val can K (bind r g) (x B k).

Lemma does_lift {A} (r : res A) : does (fun B => @plift A B r) r.
Proof. intros B K k g H. destruct r; cbn [plift bind]; [now apply H|constructor|constructor|constructor]. Qed.

Lemma bind_assoc {A B C} (r : res A) (f : A -> res B) (g : B -> res C) :
  bind (bind r f) g = bind r (fun a => bind (f a) g).
Proof. now destruct r. Qed.

Lemma does_bind {A C} (x : forall B, (A -> prog B) -> prog B) r (f : A -> forall B, (C -> prog B) -> prog B) h :
  does x r -> (forall a, r = Ok a -> does (f a) (h a)) ->
  does (fun B k => x B (fun a => f a B k)) (bind r h).
Proof.
  intros Hx Hf B K k g H. rewrite bind_assoc. apply Hx. intros a K' E. apply (Hf a E). intros c K'' Ec.
  apply H. rewrite E. exact Ec.
Qed.

Lemma does_call {A} (x : forall B, (A -> prog B) -> prog B) r : does x r ->
  fine size val can (fun _ _ => False) r (x A (fun a => Ret (Ok a))).
Proof.
  intros H. replace r with (bind r (@Ok A)) by now destruct r.
  apply (H A (fun _ _ => False) (fun a => Ret (Ok a)) (@Ok A)). intros a K' _. constructor.
Qed.
End Methods.

(** KeyCachedData *)

Section Key.
Context (size : nat -> nat) (val : nat -> nat -> N) (can : nat -> Prop).
Context (o : nat) (inner : Z -> res N).
Context (Hsize : size o = 8%nat).

Lemma key_read_fine {A} (K : nat -> nat -> Prop) j k (g : N -> res A) :
  (forall i, (i < 8)%nat -> K o i) ->
  (forall v K', answer (val o) j = Ok v -> fine size val can K' (g v) (k v)) ->
  fine size val can K (bind (answer (val o) j) g) (key_read o j k).
Proof.
  intros HK Hk. unfold key_read. unfold answer in *. destruct (_ && _)%bool eqn:E; [|constructor]. cbn [bind].
  apply fine_rdword; [apply HK; lia|]. now apply Hk.
Qed.

Lemma key_load_fine {A} (r : res A) p : loads inner (val o) -> forall n i (K : nat -> nat -> Prop), (n + i = 8)%nat ->
  (forall x, (x < i)%nat -> K o x) ->
  (forall K : nat -> nat -> Prop, (forall x, (x < 8)%nat -> K o x) -> fine size val can K r p) ->
  fine size val can K r (key_load o inner n i p).
Proof.
  intros Hl. induction n as [|n IH]; intros i K Hn HK Hp; cbn [key_load].
  - apply Hp. intros x Hx. apply HK. lia.
  - destruct (Hl i ltac:(lia)) as [E L]. rewrite E. cbn [plift].
    apply fine_wrword; [unfold w32; now apply N.mod_small|].
    apply IH; [lia| |exact Hp]. intros x Hx.
    destruct (Nat.eq_dec x i) as [->|]; [now right|left; apply HK; lia].
Qed.

Lemma key_does j : loads inner (val o) -> can o ->
  does size val can (fun A => @key_call A o inner j) (answer (val o) j).
Proof.
  intros Hl Hc A K k g Hk. unfold key_call. constructor.
  - intros _. apply key_read_fine; [|exact Hk]. rewrite Hsize. intros i Hi. now split.
  - apply key_load_fine; [exact Hl|lia|lia|]. intros K' HK'.
    constructor; [exact Hc|rewrite Hsize; exact HK'|]. now apply key_read_fine.
Qed.

(** The collaborator fails at word [f]. *)
Lemma key_does_fail f e j : (f < 8)%nat -> ~ can o ->
  (forall i, (i < f)%nat -> exists v, inner (Z.of_nat i) = Ok v /\ w32 v = val o i) ->
  inner (Z.of_nat f) = Throw e ->
  does size val can (fun A => @key_call A o inner j) (Throw e).
Proof.
  intros Hf Hc Hok He A K k g Hk. unfold key_call. constructor; [tauto|].
  assert (G : forall n i (K : nat -> nat -> Prop) p, (n + i = 8)%nat -> (i <= f)%nat ->
    fine size val can K (bind (Throw e) g) (key_load o inner n i p)).
  { induction n as [|n IH]; intros i K' p Hn Hi; [lia|]. cbn [key_load].
    destruct (Nat.eq_dec i f) as [->|Hne]; [rewrite He; constructor|].
    destruct (Hok i ltac:(lia)) as (v & Hv & Ev). rewrite Hv. cbn [plift].
    apply fine_wrword; [exact Ev|]. apply IH; lia. }
  apply G; lia.
Qed.
End Key.

Lemma key_load_pending {A} o inner val : loads inner val -> forall n i (p : prog A), (n + i = 8)%nat ->
  pending o p -> pending o (key_load o inner n i p).
Proof.
  intros Hl. induction n as [|n IH]; intros i p Hn Hp; [exact Hp|]. cbn [key_load].
  destruct (Hl i ltac:(lia)) as [-> _]. constructor. apply IH; [lia|exact Hp].
Qed.

Lemma key_call_pending {A} o inner val j (k : N -> prog A) : loads inner val ->
  reads_flag o (key_call o inner j k) /\ pending o (key_call o inner j k).
Proof.
  intros Hl. split; [now eexists|]. constructor.
  apply (key_load_pending o inner val Hl); [reflexivity|]. constructor.
Qed.

Lemma key_prog_ro m o inner j : m_flag m o = true ->
  read_only m (answer (m_word m o) j) (key_prog o inner j).
Proof.
  intros Hm. constructor. rewrite Hm. unfold key_read, answer. destruct (_ && _)%bool; [|constructor].
  constructor. constructor.
Qed.

Lemma bounded_S {A} n (p : prog A) : bounded n p -> bounded (S n) p.
Proof. intros H. induction H; constructor; auto. Qed.
Lemma bounded_le {A} n m (p : prog A) : (n <= m)%nat -> bounded n p -> bounded m p.
Proof. intros H. induction H; [auto|]. intros Hb. apply bounded_S. auto. Qed.

Lemma key_read_bounded {A} o j k n : (forall v, bounded n (k v)) -> @bounded A (S n) (key_read o j k).
Proof. intros H. unfold key_read. destruct (_ && _)%bool; constructor. exact H. Qed.

Lemma key_call_bounded {A} o inner j k n : (forall v, bounded n (k v)) -> @bounded A (11 + n) (key_call o inner j k).
Proof.
  intros Hk. constructor. intros [].
  - apply (bounded_le (S n)); [lia|]. now apply key_read_bounded.
  - assert (G : forall n i p k, bounded k p -> @bounded A (n + k) (key_load o inner n i p)).
    { clear. induction n as [|n IH]; intros i p k Hp; cbn [key_load]; [exact Hp|].
      destruct (inner (Z.of_nat i)); constructor. now apply IH. }
    apply (G 8%nat 0%nat _ (2 + n)%nat). constructor. now apply key_read_bounded.
Qed.

Lemma key_prog_bounded o inner j : bounded 11 (key_prog o inner j).
Proof. apply (key_call_bounded o inner j _ 0%nat). intros v. constructor. Qed.

(** BlkCached *)

Definition halves_of (v : N * N) (i : nat) : N := match i with O => fst v | _ => snd v end.

Section Blk.
Context (size : nat -> nat) (val : nat -> nat -> N) (can : nat -> Prop).
Context (o : nat) (Hsize : size o = 2%nat).

Lemma blk_read_fine {A} (K : nat -> nat -> Prop) k (r : res A) : (forall i, (i < 2)%nat -> K o i) ->
  (forall K', fine size val can K' r (k (val o 0%nat, val o 1%nat))) ->
  fine size val can K r (blk_read o k).
Proof. intros HK Hk. constructor; [apply HK; lia|]. constructor; [apply HK; lia|]. apply Hk. Qed.

(** A block that fails or has the value of the object. *)
Lemma blk_does (x : forall A, (N * N -> prog A) -> prog A) r : does size val can x r ->
  (can o -> r = Ok (val o 0%nat, val o 1%nat)) -> (forall v, r = Ok v -> can o /\ v = (val o 0%nat, val o 1%nat)) ->
  does size val can (fun A => blk_call o (x A)) r.
Proof.
  intros Hx Hc Hr A K k g Hk. unfold blk_call. constructor.
  - intros C. rewrite (Hc C) in *. apply blk_read_fine; [rewrite Hsize; intros i Hi; now split|].
    intros K'. cbn [bind]. now apply Hk.
  - apply Hx. intros v K' E. destruct (Hr v E) as [C ->]. cbn [fst snd].
    apply fine_wrword; [reflexivity|]. apply fine_wrword; [reflexivity|].
    assert (HK : forall i, (i < 2)%nat -> (K' o i \/ (o = o /\ i = 0%nat)) \/ (o = o /\ i = 1%nat)) by lia.
    constructor; [exact C|rewrite Hsize; exact HK|]. apply blk_read_fine; [exact HK|].
    intros K''. now apply Hk.
Qed.
End Blk.

Lemma blk_call_pending {A} o (v : N * N) (k : N * N -> prog A) :
  reads_flag o (blk_call o (plift (Ok v)) k) /\ pending o (blk_call o (plift (Ok v)) k).
Proof. split; [now eexists|]. constructor. cbn [plift]. repeat constructor. Qed.

Lemma blk_prog_ro m o inner : m_flag m o = true ->
  read_only m (Ok (m_word m o 0%nat, m_word m o 1%nat)) (blk_prog o inner).
Proof. intros Hm. constructor. rewrite Hm. constructor. constructor. constructor. Qed.

Lemma blk_prog_bounded o inner : bounded 6 (blk_prog o inner).
Proof.
  constructor. intros []; [repeat constructor|]. destruct inner as [[a b]| | |]; repeat constructor.
Qed.

(** ** Lists of calls *)

Lemma Forall2_calls {B A} (P : res A -> prog A -> Prop) (f : B -> prog A) (g : B -> res A) (calls : list (list B)) :
  (forall x, P (g x) (f x)) ->
  Forall2 (Forall2 P) (map (map g) calls) (map (map f) calls).
Proof.
  intros H. induction calls as [|c calls IH]; [constructor|]. cbn [map]. constructor; [|exact IH].
  induction c as [|x c IHc]; [constructor|]. cbn [map]. now constructor.
Qed.

Lemma Forall_calls {B A} (P : prog A -> Prop) (f : B -> prog A) (calls : list (list B)) :
  (forall x, P (f x)) -> Forall (Forall P) (map (map f) calls).
Proof.
  intros H. apply Forall_map, Forall_forall. intros c _. apply Forall_map, Forall_forall. now intros x _.
Qed.

Lemma results_of {A B} (f : B -> prog A) (g : B -> res A) n val can mo m calls tr c i t :
  (forall x, fine n val can (fun _ _ => False) (g x) (f x)) ->
  mo <> PSO -> memory_ok n val can m ->
  exec mo (start m (map (map f) calls)) tr c -> nth_error (c_threads c) i = Some t ->
  exists js, nth_error calls i = Some js /\
    t_results t = map g (firstn (List.length (t_results t)) js) /\
    (t_calls t = [] -> t_results t = map g js).
Proof.
  intros Hf Hmo Hm He Ht.
  destruct (exec_results n val can mo m (map (map f) calls) (map (map g) calls) tr c i t Hmo Hm
              (Forall2_calls _ f g calls Hf) He Ht) as (rs & rest & E1 & E2 & E3).
  rewrite nth_error_map in E1. destruct (nth_error calls i) as [js|]; [|discriminate]. injection E1 as <-.
  exists js. split; [reflexivity|]. split.
  - rewrite <- firstn_map, E2, firstn_app, firstn_all, Nat.sub_diag. cbn [firstn]. now rewrite app_nil_r.
  - intros H. rewrite (E3 H), app_nil_r in E2. now symmetry.
Qed.

Lemma race_of {A B} (o : nat) (f : B -> prog A) mo m calls tr c :
  (forall x, reads_flag o (f x) /\ pending o (f x)) -> m_flag m o = false ->
  (exists i j ps qs, i <> j /\ nth_error calls i = Some ps /\ nth_error calls j = Some qs /\ ps <> [] /\ qs <> []) ->
  exec mo (start m (map (map f) calls)) tr c -> finished c -> race tr.
Proof.
  intros Hf Hm (i & j & ps & qs & H1 & H2 & H3 & H4 & H5) He Hfin.
  apply (always_race o mo m (map (map f) calls) tr c Hm (Forall_calls _ f calls Hf)); [|exact He|exact Hfin].
  exists i, j, (map f ps), (map f qs). rewrite !nth_error_map, H2, H3.
  repeat split; try assumption; [destruct ps|destruct qs]; cbn; congruence.
Qed.

Lemma quiet_of {A B} (f : B -> prog A) (g : B -> res A) mo m calls tr c :
  (forall x, read_only m (g x) (f x)) ->
  exec mo (start m (map (map f) calls)) tr c ->
  ~ race tr /\ forall i t, nth_error (c_threads c) i = Some t ->
    exists js, nth_error calls i = Some js /\
      t_results t = map g (firstn (List.length (t_results t)) js) /\
      (t_calls t = [] -> t_results t = map g js).
Proof.
  intros Hf He.
  destruct (exec_quiet mo m (map (map f) calls) (map (map g) calls) tr c (Forall2_calls _ f g calls Hf) He) as [R Q].
  split; [now apply reads_no_race|]. intros i t Ht. destruct (proj2 Q i t Ht) as (_ & rs & rest & E1 & E2 & E3).
  rewrite nth_error_map in E1. destruct (nth_error calls i) as [js|]; [|discriminate]. injection E1 as <-.
  exists js. split; [reflexivity|]. split.
  - rewrite <- firstn_map, E2, firstn_app, firstn_all, Nat.sub_diag. cbn [firstn]. now rewrite app_nil_r.
  - intros H. rewrite H in E3. inversion E3; subst. now rewrite app_nil_r in E2.
Qed.

Lemma accesses_of {A B} (f : B -> prog A) b mo m calls tr c i js :
  (forall x, bounded b (f x)) -> exec mo (start m (map (map f) calls)) tr c ->
  nth_error calls i = Some js -> (List.length (own i tr) <= b * List.length js)%nat.
Proof.
  intros Hf He Hi. pose proof (exec_left mo b m (map (map f) calls) tr c (Forall_calls _ f calls Hf) He) as HL.
  destruct (nth_error (c_threads c) i) as [t|] eqn:Et.
  - destruct (HL i t Et) as (ps & Hp & C). rewrite nth_error_map, Hi in Hp. injection Hp as <-.
    rewrite map_length in C. destruct (t_calls t) as [|p later]; [exact C|]. destruct C as (_ & k & _ & C). lia.
  - apply nth_error_None in Et. rewrite (exec_threads mo _ _ _ He) in Et. cbn [start c_threads] in Et.
    rewrite !map_length in Et. apply nth_error_lt in Hi. lia.
Qed.

Lemma new_ok n val can : memory_ok n val can new_objects.
Proof. intros o. discriminate. Qed.

(** ** Schedules *)

Section Schedule.
Context {A : Type}.

(** Thread i goes on, or its store number p becomes visible. *)
Inductive act : Type := Go (i : nat) | Flush (i p : nat).

Definition same_loc (a b : loc) : bool :=
  match a, b with
  | LFlag o, LFlag p => Nat.eqb o p
  | LWord o i, LWord p j => Nat.eqb o p && Nat.eqb i j
  | _, _ => false
  end.

Definition do_act (mo : order) (a : act) (c : @config A) : option (list access * config) :=
  match a with
  | Go i =>
      match nth_error (c_threads c) i with
      | None => None
      | Some t =>
          match thread_step (c_mem c) t with
          | None => None
          | Some (t', e) =>
              Some (match e with Some (l, b) => [(i, l, b)] | None => [] end,
                    match mo with
                    | SC => Config (view (c_mem c) t')
                                   (set_thread (c_threads c) i (Thread (t_calls t') (t_results t') []))
                    | _ => Config (c_mem c) (set_thread (c_threads c) i t')
                    end)
          end
      end
  | Flush i p =>
      match nth_error (c_threads c) i with
      | None => None
      | Some t =>
          match skipn p (t_buffer t) with
          | [] => None
          | s :: newer =>
              let older := firstn p (t_buffer t) in
              if match mo with
                 | PSO => forallb (fun x => negb (same_loc (store_loc x) (store_loc s))) older
                 | _ => match older with [] => true | _ => false end
                 end
              then Some ([], Config (apply_store (c_mem c) s)
                                    (set_thread (c_threads c) i (Thread (t_calls t) (t_results t) (older ++ newer))))
              else None
          end
      end
  end.

Fixpoint play (mo : order) (acts : list act) (c : @config A) : option (list access * config) :=
  match acts with
  | [] => Some ([], c)
  | a :: r => match do_act mo a c with
              | None => None
              | Some (ev, c1) => match play mo r c1 with
                                 | None => None
                                 | Some (tr, c2) => Some (ev ++ tr, c2)
                                 end
              end
  end.

Lemma same_loc_refl l : same_loc l l = true.
Proof. destruct l; cbn [same_loc]; now rewrite ?Nat.eqb_refl. Qed.

Lemma do_act_step mo a c ev c' : do_act mo a c = Some (ev, c') -> step mo c ev c'.
Proof.
  destruct a as [i|i p]; cbn [do_act]; destruct (nth_error (c_threads c) i) as [t|] eqn:Et; try discriminate.
  - destruct (thread_step (c_mem c) t) as [[t' e]|] eqn:Es; [|discriminate].
    intros H. injection H as <- <-. now apply (step_run mo c i t t' e).
  - destruct (skipn p (t_buffer t)) as [|s newer] eqn:Eb; [discriminate|]. cbv zeta.
    destruct (match mo with PSO => _ | _ => _ end) eqn:Ec; [|discriminate].
    intros H. injection H as <- <-. apply (step_flush mo c i t (firstn p (t_buffer t)) s newer Et).
    + rewrite <- Eb. symmetry. apply firstn_skipn.
    + unfold may_flush. destruct mo; try (destruct (firstn p (t_buffer t)); [reflexivity|discriminate]).
      intros x Hx E. rewrite forallb_forall in Ec. apply Ec in Hx. rewrite E, same_loc_refl in Hx. discriminate.
Qed.

Lemma exec_app mo (c1 c2 c3 : @config A) tr tr' : exec mo c1 tr c2 -> exec mo c2 tr' c3 -> exec mo c1 (tr ++ tr') c3.
Proof.
  intros H1 H2. induction H2 as [|tr' c ev c' H IH Hs]; [now rewrite app_nil_r|].
  rewrite app_assoc. now apply (exec_step mo c1 (tr ++ tr') c).
Qed.

Lemma play_exec mo acts : forall c tr c', play mo acts c = Some (tr, c') -> exec mo c tr c'.
Proof.
  induction acts as [|a acts IH]; intros c tr c' H; cbn [play] in H; [injection H as <- <-; constructor|].
  destruct (do_act mo a c) as [[ev c1]|] eqn:Ea; [|discriminate].
  destruct (play mo acts c1) as [[tr' c2]|] eqn:Ep; [|discriminate]. injection H as <- <-.
  apply (exec_app mo c c1 c2); [|now apply IH].
  change ev with ([] ++ ev). apply (exec_step mo c [] c); [constructor|now apply (do_act_step mo a)].
Qed.

(** What a schedule leads to: the results of each thread and the calls left to it. *)
Definition outcome (mo : order) (acts : list act) (c : @config A) : option (list (list (res A) * nat)) :=
  match play mo acts c with
  | Some (_, c') => Some (map (fun t => (t_results t, List.length (t_calls t))) (c_threads c'))
  | None => None
  end.

Lemma outcome_exec mo acts c rs : outcome mo acts c = Some rs ->
  exists tr c', exec mo c tr c' /\ map (fun t => (t_results t, List.length (t_calls t))) (c_threads c') = rs.
Proof.
  unfold outcome. destruct (play mo acts c) as [[tr c']|] eqn:E; [|discriminate].
  intros H. injection H as <-. exists tr, c'. split; [now apply (play_exec mo acts)|reflexivity].
Qed.
End Schedule.
