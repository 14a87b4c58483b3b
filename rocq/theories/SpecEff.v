(** Vocabulary for keys that act on the world: functions as such keys, keys that fail now
    and then, and records of the calls made. *)
From Verif Require Import Base MagmaModel Streams EffModel.
Local Open Scope N_scope.

(** ** A function as a key that acts *)
Definition quiet {W} (k : key) : act_key W :=
  match k with
  | KLazy lk => AKLazy (ActLazy (fun i => lift (key_data lk i)) (fun v => lift (key_sbox lk v)))
  | KUser f => AKUser (fun v i => lift (f v i))
  end.

(** ** Keys that fail now and then

    In the world they act on, they answer like [k] or throw something; nothing is said
    about when, or about what they do to the world. *)
Definition or_throws {W A} (x : M W A) (r : res A) : Prop :=
  forall w, fst (x w) = r \/ exists e, fst (x w) = Throw e.

Definition unreliable {W} (a : act_key W) (k : key) : Prop :=
  match a, k with
  | AKLazy al, KLazy lk =>
      (forall i, or_throws (al_data al i) (key_data lk i)) /\
      (forall v, or_throws (al_sbox al v) (key_sbox lk v))
  | AKUser f, KUser g => forall v i, or_throws (f v i) (g v i)
  | _, _ => False
  end.

(** Two worlds side by side: sinks and sources act on the left one, keys on the right. *)
Definition on_left {W1 W2 A} (x : M W1 A) : M (W1 * W2) A := fun w =>
  let (w1, w2) := w in let (r, w1') := x w1 in (r, (w1', w2)).
Definition on_right {W1 W2 A} (x : M W2 A) : M (W1 * W2) A := fun w =>
  let (w1, w2) := w in let (r, w2') := x w2 in (r, (w1, w2')).

Definition left_writer {W1 W2 S} (wr : writer W1 S) : writer (W1 * W2) S := fun s d => on_left (wr s d).
Definition left_reader {W1 W2 St} (rd : reader W1 St) : reader (W1 * W2) St := fun s n => on_left (rd s n).
Definition right_key {W1 W2} (a : act_key W2) : act_key (W1 * W2) :=
  match a with
  | AKLazy al => AKLazy (ActLazy (fun i => on_right (al_data al i)) (fun v => on_right (al_sbox al v)))
  | AKUser f => AKUser (fun v i => on_right (f v i))
  end.

(** ** Records of the calls

    One line per call of KeyData::key or Key::transform (with the index), Sbox::transform,
    Sink::write (with the number of bytes) and Source::read (with the size asked for). *)
Inductive call : Type :=
| CallKey (index : Z)
| CallSbox
| CallWrite (n : nat)
| CallRead (n : N).

Definition noted {W A} (c : call) (x : M W A) : M (W * list call) A := fun w =>
  let (w, l) := w in let (r, w') := x w in (r, (w', l ++ [c])).

Definition noted_writer {W S} (wr : writer W S) : writer (W * list call) S := fun s d =>
  noted (CallWrite (List.length d)) (wr s d).
Definition noted_reader {W St} (rd : reader W St) : reader (W * list call) St := fun s n =>
  noted (CallRead n) (rd s n).
Definition noted_key {W} (a : act_key W) : act_key (W * list call) :=
  match a with
  | AKLazy al => AKLazy (ActLazy (fun i => noted (CallKey i) (al_data al i)) (fun v => noted CallSbox (al_sbox al v)))
  | AKUser f => AKUser (fun v i => noted (CallKey i) (f v i))
  end.

(** The calls of one round with key word [i], and of a block. *)
Definition round_calls {W} (a : act_key W) (i : Z) : list call :=
  match a with AKLazy _ => [CallKey i; CallSbox] | AKUser _ => [CallKey i] end.

Definition up : list Z := [0; 1; 2; 3; 4; 5; 6; 7]%Z.
Definition down : list Z := [7; 6; 5; 4; 3; 2; 1; 0]%Z.
Definition encrypt_order : list Z := up ++ up ++ up ++ down.
Definition decrypt_order : list Z := up ++ down ++ down ++ down.
Definition block_calls {W} (a : act_key W) (order : list Z) : list call := flat_map (round_calls a) order.

(** [l] is the record of something that makes the calls [full] if all goes well: it is a
    beginning of [full], all of it if the outcome [r] is a value. *)
Definition recorded {A} (l full : list call) (r : res A) : Prop :=
  exists rest, full = l ++ rest /\ (forall a, r = Ok a -> rest = []).
