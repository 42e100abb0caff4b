(** Model of struct/lazy.py, continued: fields behind a lazy container that look at the object while they are read, and
    so decode the containers whose fields they look at.  These are optional fields (struct/optional.py:14-16), whose
    predicate gets the object, and strings and arrays whose length is a ReadPointer (struct/pointer.py:8-10), which takes an
    attribute of [context.struct].  Simplifications: the class has no [_context_] and the object is read by itself
    ([create_from_string(data)]), so that [context.struct] is this object; predicates do not read from the stream. *)
From Verif Require Import Base IntCodec BitStringIO Stream MinMax Marshal Lazy LazySpec.
From Coq Require Import ZArith List Bool String.
Import ListNotations.
Open Scope Z_scope.

(** A program that looks at attributes of an object, one after the other, and ends with a result. *)
Inductive look (A : Type) : Type :=
| Look (n : name) (k : value -> look A)
| Found (r : res A).
Arguments Look {A} n k.
Arguments Found {A} r.

(** The program run on an object without laziness: [getattr] each time. *)
Fixpoint look_at {A} (p : look A) (obj : value) : res A :=
  match p with
  | Look n k => let* v := py_getattr obj n in look_at (k v) obj
  | Found r => r
  end.

(** Strings and arrays with a size reader: string.py:33-48, array.py:13-29, 44-65. *)
Inductive counted : Type := CArray (el : marshal) | CSum (el : marshal) | CString (padding : value) (d : paddir).
Definition counted_marshal (k : counted) (sz : marshal) : marshal :=
  match k with CArray el => MVarArr sz el | CSum el => MSumArr sz el | CString padding d => MVarStr sz padding d end.

(** An entry of [_fields_]. *)
Inductive look_item : Type :=
| LItem (i : item)                                                      (* as in Lazy.v *)
| LOptional (n : name) (m : marshal) (p : look bool) (default : value)  (* OptionalField, struct/optional.py:4-7 *)
| LCounted (n : name) (q : name) (k : counted) (default : value).       (* size given by ReadPointer(q) *)

(** The same entry as a field of Marshal.v: this is what it is without laziness, and it is all that construction,
    access, assignment and writing depend on. *)
Definition plain (i : look_item) : item :=
  match i with
  | LItem i => i
  | LOptional n m p d => IField (FOpt n m (fun obj _ => RRet (look_at p obj)) d)
  | LCounted n q k d => IField (FField n (counted_marshal k (MPtr q)) d)
  end.

Section Class.
Variables (h : host) (cls : name) (fields : list look_item).

(** The program run on an object with lazy containers: every access goes through LazyField.__get__ (lazy.py:29-31). *)
Fixpoint run_look {A} (p : look A) : stM lobj A :=
  match p with
  | Look n k => v <- lazy_get h cls None (map plain fields) n ;; run_look (k v)
  | Found r => slift r
  end.

(** struct/__init__.py:32-33, 75-76: the value is read and stored under the name. *)
Definition read_value (n : name) (m : marshal) : stM lstate unit := fun st =>
  match read h m (get_updated_context None (VObj cls (lo_attrs (snd st))) []) (fst st) with
  | (Ok v, s') => (Ok tt, (s', mkLobj (set_attr (lo_attrs (snd st)) n v) (lo_data (snd st))))
  | (Err e, s') => (Err e, (s', snd st))
  end.
(** optional.py:14-16; pointer.py:8-10 with string.py:43-48, array.py:24-29 and 54-65. *)
Definition read_look_item (j : nat) (i : look_item) : stM lstate unit := fun st =>
  match i with
  | LItem i => read_item h cls None [] j i st
  | LOptional n m p _ =>
      match run_look p (snd st) with
      | (Ok true, o) => read_value n m (fst st, o)
      | (Ok false, o) => (Ok tt, (fst st, o))
      | (Err e, o) => (Err e, (fst st, o))
      end
  | LCounted n q k _ =>
      match lazy_get h cls None (map plain fields) q (snd st) with
      | (Ok v, o) => read_value n (counted_marshal k (MConst v)) (fst st, o)
      | (Err e, o) => (Err e, (fst st, o))
      end
  end.
Fixpoint read_look_items (j : nat) (l : list look_item) : stM lstate unit :=
  match l with
  | [] => sret tt
  | i :: r => do read_look_item j i ;; read_look_items (S j) r
  end.
(** struct/__init__.py:176-181 *)
Definition look_read : stM stream lobj := fun s =>
  match read_look_items 0 fields (s, lazy_new (map plain fields) []) with
  | (Ok _, (s', o)) => (Ok o, s')
  | (Err e, (s', _)) => (Err e, s')
  end.
End Class.

(** lazy.py:68-69, [container.is_instantiated(obj)] for the container that is entry [k]. *)
Definition is_instantiated (k : nat) (o : lobj) : bool := match pending k (lo_data o) with Some _ => false | None => true end.

(** ** Specification *)

(** The program never looks at any of these names. *)
Inductive looks_past {A} (ns : list name) : look A -> Prop :=
| past_found r : looks_past ns (Found r)
| past_look n k : ~ In n ns -> (forall v, looks_past ns (k v)) -> looks_past ns (Look n k).

(** Values whose reading depends on the input only. *)
Definition input_only (h : host) (m : marshal) : Prop := forall c c' s, read h m c s = read h m c' s.

(** An entry is all right in front of lazy containers with the names [later]: it does not look at those, and apart from
    the looking, reading it depends on the input only. *)
Definition look_ok (h : host) (later : list name) (i : look_item) : Prop :=
  match i with
  | LItem i => item_ok h i
  | LOptional _ m p _ => input_only h m /\ looks_past later p
  | LCounted _ q k _ => ~ In q later /\ match k with CArray el | CSum el => input_only h el | CString _ _ => True end
  end.
(** The names of the fields of lazy containers. *)
Definition container_names (i : look_item) : list name :=
  match i with LItem (ILazy fs) => flat_map (fun f => match f with FField n _ _ => [n] | _ => [] end) fs | _ => [] end.

(** Reading the entry looks at none of these names. *)
Definition item_looks_past (ns : list name) (i : look_item) : Prop :=
  match i with LItem _ => True | LOptional _ _ p _ => looks_past ns p | LCounted _ q _ _ => ~ In q ns end.
