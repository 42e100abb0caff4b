(** Vocabulary for objects shared by threads. *)
From Verif Require Import Base IntCodec BitStringIO Stream MinMax Marshal FieldSpec Lazy LazySpec LazyFacts Threads.
From Coq Require Import ZArith List Bool String.
Import ListNotations.
Open Scope Z_scope.

(** Threads about to run these statements on the object. *)
Definition start (o : lobj) (programs : list (list op)) : shared := mkShared o (map (fun l => mkThread l Idle []) programs).
(** All threads are done. *)
Definition over (w : shared) : Prop := forall t, In t (sh_threads w) -> th_todo t = [] /\ th_pc t = Idle.
(** Thread number [i] got these results. *)
Definition got (w : shared) (i : nat) : list (op * res value) := match nth_error (sh_threads w) i with Some t => th_got t | None => [] end.
(** Only reading: fields, and the whole object as bytes. *)
Definition only_reads (programs : list (list op)) : Prop := forall l u, In l programs -> In u l -> (exists n, u = OGet n) \/ u = OBytes.
(** Reading and assigning fields. *)
Definition only_fields (programs : list (list op)) : Prop := forall l, In l programs -> ~ In OBytes l.
(** The statement has to do with a lazy container. *)
Definition touches (items : list item) (u : op) : Prop :=
  match u with
  | OGet n | OSet n _ => In n (flat_map group_names items)
  | OBytes => exists fs, In (ILazy fs) items
  end.

(** A statement and its result as a use of an object and its answer, as in LazySpec. *)
Definition use_of (u : op) : use := match u with OGet n => Get n | OSet n v => Set_ n v | OBytes => ToBytes end.
Definition answer_of (e : op * res value) : answer :=
  match fst e with
  | OGet _ => AValue (snd e)
  | OSet _ _ => ADone (match snd e with Ok _ => Ok tt | Err x => Err x end)
  | OBytes => ABytes (match snd e with Ok (VBytes b) => Ok b | Ok _ => Err NotModelled | Err x => Err x end)
  end.
(** How many steps of thread [i] are in the schedule. *)
Definition turns (i : nat) (l : list nat) : nat := count_occ Nat.eq_dec l i.

(** A log of statements in the order in which they took effect, with the number of the thread and the result. *)
Definition log : Type := list (nat * (op * res value)).
Definition of_thread (i : nat) (g : log) : list (op * res value) := map snd (filter (fun e => Nat.eqb (fst e) i) g).
Definition log_uses (g : log) : list use := map (fun e => use_of (fst (snd e))) g.
Definition log_answers (g : log) : list answer := map (fun e => answer_of (snd e)) g.
