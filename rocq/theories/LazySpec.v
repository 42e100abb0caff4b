(** Specification vocabulary for lazy containers: the same class without laziness, histories of
    uses of an object, and the fields for which laziness is invisible. *)
From Verif Require Import Base IntCodec BitStringIO Stream MinMax Marshal FieldSpec Lazy.
From Coq Require Import ZArith List Bool String.
Import ListNotations.
Open Scope Z_scope.

(** The same class with [FieldListContainer] in place of [LazyFieldListContainer]. *)
Definition eager (i : item) : field := match i with IField f => f | ILazy fs => FGroup fs end.

(** What a program does with an object, and what it gets. *)
Inductive use : Type := Get (n : name) | Set_ (n : name) (v : value) | ToBytes.
Inductive answer : Type := AValue (r : res value) | ADone (r : res unit) | ABytes (r : res (list Z)).

(** With laziness. *)
Definition use_lazy (h : host) (cls : name) (cctx : option ctx) (items : list item) (u : use) (o : lobj) : answer * lobj :=
  match u with
  | Get n => let '(r, o') := lazy_get h cls cctx items n o in (AValue r, o')
  | Set_ n v => let '(r, o') := lazy_set h cls cctx items n v o in (ADone r, o')
  | ToBytes => let '(r, o') := lazy_to_bytes h cls cctx items o in (ABytes r, o')
  end.
Fixpoint history_lazy (h : host) (cls : name) (cctx : option ctx) (items : list item) (us : list use) (o : lobj) : list answer :=
  match us with
  | [] => []
  | u :: r => let '(x, o') := use_lazy h cls cctx items u o in x :: history_lazy h cls cctx items r o'
  end.

(** Without. *)
Definition use_eager (h : host) (cls : name) (cctx : option ctx) (fs : list field) (u : use) (a : attrs) : answer * attrs :=
  match u with
  | Get n => (AValue (py_getattr (VObj cls a) n), a)
  | Set_ n v => match assign_attr fs a n v with Ok a' => (ADone (Ok tt), a') | Err e => (ADone (Err e), a) end
  | ToBytes => (ABytes (write_to_string h (MStruct cls cctx fs) (VObj cls a)), a)
  end.
Fixpoint history_eager (h : host) (cls : name) (cctx : option ctx) (fs : list field) (us : list use) (a : attrs) : list answer :=
  match us with
  | [] => []
  | u :: r => let '(x, a') := use_eager h cls cctx fs u a in x :: history_eager h cls cctx fs r a'
  end.

(** Marshals that always take the same number of bytes and look at nothing else: numbers, constants,
    padded strings, padding, arrays of a fixed count, mappings, structs and bit fields made of
    such. *)
Fixpoint self_contained (m : marshal) : Prop :=
  match m with
  | MInt _ | MFloat _ | MConst _ => True
  | MPadStr size _ _ | MBytePad size _ => 0 <= size <= maxsize
  | MFixArr n el => 0 <= n /\ self_contained el
  | MMap _ m' => self_contained m'
  | MStruct _ _ fs =>
      (fix go (fs : list field) : Prop := match fs with [] => True | f :: r => self_contained_field f /\ go r end) fs
  | _ => False
  end
with self_contained_field (f : field) : Prop :=
  match f with
  | FField _ m _ | FAnon m | FConst _ m _ => self_contained m
  | FOpt _ _ _ _ => False
  | FGroup fs =>
      (fix go (fs : list field) : Prop := match fs with [] => True | f :: r => self_contained_field f /\ go r end) fs
  | FBits bs => 0 <= bits_size bs <= maxsize
  | FPosBits size _ => 0 <= size <= maxsize
  end.

(** Fields that do not look at the object or the context while they are read. *)
Fixpoint blind (h : host) (f : field) : Prop :=
  match f with
  | FField _ m _ | FAnon m | FConst _ m _ => forall c c' s, read h m c s = read h m c' s
  | FOpt _ _ _ _ => False
  | FGroup fs =>
      (fix go (fs : list field) : Prop := match fs with [] => True | f :: r => blind h f /\ go r end) fs
  | FBits _ | FPosBits _ _ => True
  end.

(** The lazy containers for which laziness is invisible: they hold ordinary and anonymous fields. *)
Definition lazy_field_ok (f : field) : Prop :=
  match f with FField _ m _ | FAnon m => self_contained m | _ => False end.
Definition item_ok (h : host) (i : item) : Prop :=
  match i with
  | IField f => blind h f
  | ILazy fs => Forall lazy_field_ok fs /\ exists size, lazy_size fs = Ok size /\ size <= maxsize
  end.

(** All names of an item: those under which something is stored, and constants. *)
Definition item_names (i : item) : list name := stored_names (eager i) ++ map fst (class_attrs_f (eager i)).

(** The field [f] declares the name [n]: as an ordinary field, a constant or an optional one. *)
Definition declares (n : name) (f : field) : Prop :=
  match f with FField n' _ _ | FConst n' _ _ | FOpt n' _ _ _ => n' = n | _ => False end.
