(** Specification vocabulary for bit fields and field lists inside of lazy containers: what a program
    that uses the object sees, told with the object of the class without laziness and the list of the
    containers that are still closed. *)
From Verif Require Import Base IntCodec BitStringIO Stream MinMax Marshal FieldSpec Lazy LazySpec.
From Coq Require Import ZArith List Bool String.
Import ListNotations.
Open Scope Z_scope.

(** Members of a lazy container: ordinary and anonymous fields, bit fields, positional bit fields and
    field lists; of fixed size, and looking at nothing but their bytes. *)
Definition member_ok (f : field) : Prop :=
  match f with FConst _ _ _ | FOpt _ _ _ _ => False | _ => self_contained_field f end.
Definition member_item_ok (h : host) (i : item) : Prop :=
  match i with
  | IField f => blind h f
  | ILazy fs => Forall member_ok fs /\ exists size, lazy_size fs = Ok size /\ size <= maxsize
  end.

(** The names that open the container, and the names that do not: those of bit fields and of fields
    in field lists. *)
Definition opening (f : field) : list name := match f with FField n _ _ => [n] | _ => [] end.
Definition silent (f : field) : list name := match f with FField _ _ _ => [] | _ => stored_names f end.
Definition mem (n : name) (l : list name) : bool := existsb (String.eqb n) l.
Definition opens (items : list item) (n : name) (k : nat) : bool :=
  match nth_error items k with Some (ILazy fs) => mem n (flat_map opening fs) | _ => false end.
Definition is_silent (items : list item) (n : name) (k : nat) : bool :=
  match nth_error items k with Some (ILazy fs) => mem n (flat_map silent fs) | _ => false end.

(** The object without laziness, the attributes that stand in front of the closed containers, and the
    numbers of the containers that are closed. *)
Record view : Type := mkView { v_eager : attrs; v_front : attrs; v_closed : list nat }.

(** All lazy containers of a class. *)
Definition is_lazy (i : item) : bool := match i with ILazy _ => true | IField _ => false end.
Definition containers (items : list item) : list nat :=
  filter (fun k => match nth_error items k with Some i => is_lazy i | None => false end) (seq 0 (List.length items)).

(** An object that was just read: nothing is open, and in front are the defaults. *)
Definition just_read (items : list item) (E : attrs) : view := mkView E (new_attrs (map eager items) []) (containers items).

(** Writing gets to item [k]. *)
Definition gets_to (h : host) (cls : name) (cctx : option ctx) (items : list item) (E : attrs) (k : nat) : bool :=
  match write_to_string h (MStruct cls cctx (map eager (firstn k items))) (VObj cls E) with Ok _ => true | Err _ => false end.

Definition use_view (h : host) (cls : name) (cctx : option ctx) (items : list item) (u : use) (v : view) : answer * view :=
  match u with
  | Get n =>
      if existsb (is_silent items n) (v_closed v) then (AValue (py_getattr (VObj cls (v_front v)) n), v)
      else (AValue (py_getattr (VObj cls (v_eager v)) n),
            mkView (v_eager v) (v_front v) (filter (fun k => negb (opens items n k)) (v_closed v)))
  | Set_ n x =>
      if existsb (is_silent items n) (v_closed v) then (ADone (Ok tt), mkView (v_eager v) (set_attr (v_front v) n x) (v_closed v))
      else match assign_attr (map eager items) (v_eager v) n x with
           | Ok E' => (ADone (Ok tt), mkView E' (v_front v) (filter (fun k => negb (opens items n k)) (v_closed v)))
           | Err e => (ADone (Err e), v)
           end
  | ToBytes =>
      (ABytes (write_to_string h (MStruct cls cctx (map eager items)) (VObj cls (v_eager v))),
       mkView (v_eager v) (v_front v) (filter (fun k => negb (gets_to h cls cctx items (v_eager v) k)) (v_closed v)))
  end.
Fixpoint history_view (h : host) (cls : name) (cctx : option ctx) (items : list item) (us : list use) (v : view) : list answer :=
  match us with
  | [] => []
  | u :: r => let '(x, v') := use_view h cls cctx items u v in x :: history_view h cls cctx items r v'
  end.
