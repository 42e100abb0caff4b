(** Model of struct/lazy.py: groups of fixed-size fields that are decoded on first access.

    A Struct class with lazy containers is a list of [item]s; an object is its instance dictionary
    together with the data kept under the lazy keys.
    [to_repr] is in LazyShow.v.  Extra arguments of [create_from_stream] are in LazyArgs.v.  Lazy containers inside other
    ones are in LazyNest.v.  Simplification: fields that are read behind a lazy container do not look at its
    fields (that access would decode the container: LazyLook.v). *)
From Verif Require Import Base IntCodec BitStringIO Stream MinMax Marshal.
From Coq Require Import ZArith List Bool String.
Import ListNotations.
Open Scope Z_scope.

(** An entry of [_fields_]: an ordinary field or [Lazy(...)] (struct_macros.py:71-72). *)
Inductive item : Type :=
| IField (f : field)
| ILazy (fs : list field).

(** lazy.py:45-58, the checks of LazyFieldListContainer.__init__ and [self.size]. *)
Fixpoint lazy_size (fs : list field) : res Z :=
  match fs with
  | [] => Ok 0
  | f :: r =>
      let* mm := min_max_field f in
      if negb (mm_is_fixed mm) then Err ValueError
      else let* n := lazy_size r in Ok (mm_min mm + n)
  end.

(** lazy.py:51-54: instances of Field (also constant and optional ones) are wrapped in a LazyField,
    a data descriptor; everything else stays as it is. *)
Definition lazy_name (f : field) : option name :=
  match f with FField n _ _ | FConst n _ _ | FOpt n _ _ _ => Some n | _ => None end.

(** The number of the container that has a LazyField of this name.  Simplification: names are
    distinct. *)
Fixpoint owner (k : nat) (items : list item) (n : name) : option (nat * list field) :=
  match items with
  | [] => None
  | IField _ :: r => owner (S k) r n
  | ILazy fs :: r =>
      if existsb (fun f => match lazy_name f with Some n' => String.eqb n' n | None => false end) fs
      then Some (k, fs) else owner (S k) r n
  end.

(** The instance dictionary, and for each container that has been read but not decoded the data and
    the context (lazy.py:64-66).  The container's number stands for its lazy key. *)
Record lobj : Type := mkLobj { lo_attrs : attrs; lo_data : list (nat * (list Z * ctx)) }.

Fixpoint pending (k : nat) (l : list (nat * (list Z * ctx))) : option (list Z * ctx) :=
  match l with
  | [] => None
  | (k', d) :: r => if Nat.eqb k' k then Some d else pending k r
  end.
Definition forget (k : nat) (l : list (nat * (list Z * ctx))) : list (nat * (list Z * ctx)) :=
  filter (fun p => negb (Nat.eqb (fst p) k)) l.

(** Construction, struct/__init__.py:90-92 and lazy.py:15-17: a LazyField takes its value from the
    keyword arguments or stays unset, whatever its default is. *)
Definition prepare_lazy (kwargs : attrs) (a : attrs) (f : field) : attrs :=
  match lazy_name f with
  | Some n => match lookup kwargs n with Some v => set_attr a n v | None => a end
  | None => prepare_instance kwargs a f
  end.
Definition prepare_item (kwargs : attrs) (a : attrs) (i : item) : attrs :=
  match i with
  | IField f => prepare_instance kwargs a f
  | ILazy fs => fold_left (prepare_lazy kwargs) fs a
  end.
(** Attributes visible through the class: a constant directly inside of a lazy container is replaced
    by its LazyField (lazy.py:12-13). *)
Definition item_class_attrs (i : item) : attrs :=
  match i with
  | IField f => class_attrs_f f
  | ILazy fs => flat_map (fun f => match lazy_name f with Some _ => [] | None => class_attrs_f f end) fs
  end.
Definition lazy_new (items : list item) (kwargs : attrs) : lobj :=
  mkLobj (fold_left (prepare_item kwargs) items (flat_map item_class_attrs items)) [].

Section WithHost.
Variable h : host.

Section Class.
Variables (cls : name) (cctx : option ctx) (items : list item).

(** lazy.py:71-82, [instantiate_if_needed]: the data is forgotten first, then the fields are read
    from it; the context holds the object as it is now. *)
Definition instantiate (k : nat) (fs : list field) : stM lobj unit := fun o =>
  match pending k (lo_data o) with
  | None => (Ok tt, o)
  | Some (data, c) =>
      match read_fields h cls cctx fs c (stream_of data, lo_attrs o) with
      | (r, (_, a')) => (r, mkLobj a' (forget k (lo_data o)))
      end
  end.

(** State while an object is read. *)
Definition lstate : Type := (stream * lobj)%type.

(** lazy.py:64-66: the number of bytes is not checked. *)
Definition read_item (c : ctx) (k : nat) (i : item) : stM lstate unit := fun st =>
  match i with
  | IField f =>
      match read_field h cls cctx f c (fst st, lo_attrs (snd st)) with
      | (r, (s', a')) => (r, (s', mkLobj a' (lo_data (snd st))))
      end
  | ILazy fs =>
      match lazy_size fs with
      | Err e => (Err e, st)
      | Ok size =>
          match sread size (fst st) with
          | (Ok data, s') => (Ok tt, (s', mkLobj (lo_attrs (snd st)) ((k, (data, c)) :: forget k (lo_data (snd st)))))
          | (Err e, s') => (Err e, (s', snd st))
          end
      end
  end.
Fixpoint read_items (c : ctx) (k : nat) (l : list item) : stM lstate unit :=
  match l with
  | [] => sret tt
  | i :: r => do read_item c k i ;; read_items c (S k) r
  end.
(** struct/__init__.py:176-181 *)
Definition lazy_read (c : ctx) : stM stream lobj := fun s =>
  match read_items c 0 items (s, lazy_new items []) with
  | (Ok _, (s', o)) => (Ok o, s')
  | (Err e, (s', _)) => (Err e, s')
  end.

(** [obj.n]: lazy.py:29-31 for a LazyField, otherwise the instance dictionary or a constant. *)
Definition lazy_get (n : name) : stM lobj value :=
  match owner 0 items n with
  | Some (k, fs) =>
      do instantiate k fs ;;
      o <- sget ;;
      slift (match lookup (lo_attrs o) n with Some v => Ok v | None => Err KeyError end)
  | None =>
      o <- sget ;;
      slift (match lookup (lo_attrs o) n with Some v => Ok v | None => Err AttributeError end)
  end.

(** [obj.n = v]: lazy.py:25-27 for a LazyField, otherwise as in [assign_attr]. *)
Definition lazy_set (n : name) (v : value) : stM lobj unit :=
  match owner 0 items n with
  | Some (k, fs) =>
      do instantiate k fs ;;
      o <- sget ;;
      sput (mkLobj (set_attr (lo_attrs o) n v) (lo_data o))
  | None =>
      o <- sget ;;
      match lookup (flat_map item_class_attrs items) n with
      | Some k => if py_eq v k then sret tt else sraise InstructError
      | None => sput (mkLobj (set_attr (lo_attrs o) n v) (lo_data o))
      end
  end.

(** Writing: the object and the bytes written so far. *)
Definition wstate : Type := (lobj * list Z)%type.

(** A field of a lazy container whose data has been decoded: lazy.py:19-20, then
    struct/__init__.py:29-30 with [get_value] through the descriptor: an unset attribute is a
    KeyError, which [getattr] with a default does not catch.  A constant does not look at the object. *)
Definition write_lazy_field (f : field) (a : attrs) : stM (list Z) unit :=
  match f with
  | FField n _ _ | FOpt n _ _ _ => match lookup a n with Some _ => write_field h f a | None => sraise KeyError end
  | _ => write_field h f a
  end.
Fixpoint write_lazy_fields (fs : list field) (a : attrs) : stM (list Z) unit :=
  match fs with
  | [] => sret tt
  | f :: r => do write_lazy_field f a ;; write_lazy_fields r a
  end.
(** lazy.py:60-62 *)
Definition write_item (k : nat) (i : item) : stM wstate unit := fun st =>
  match i with
  | IField f => match write_field h f (lo_attrs (fst st)) (snd st) with (r, out) => (r, (fst st, out)) end
  | ILazy fs =>
      match instantiate k fs (fst st) with
      | (Err e, o) => (Err e, (o, snd st))
      | (Ok _, o) => match write_lazy_fields fs (lo_attrs o) (snd st) with (r, out) => (r, (o, out)) end
      end
  end.
Fixpoint write_items (k : nat) (l : list item) : stM wstate unit :=
  match l with
  | [] => sret tt
  | i :: r => do write_item k i ;; write_items (S k) r
  end.
(** [obj.to_bytes()], struct/__init__.py:191-197, 227-228. *)
Definition lazy_to_bytes : stM lobj (list Z) := fun o =>
  match write_items 0 items (o, []) with
  | (Ok _, (o', out)) => (Ok out, o')
  | (Err e, (o', _)) => (Err e, o')
  end.

(** [cls.sizeof(obj)]: base.py:145-146 for the lazy containers, which do not look at the object. *)
Fixpoint items_sizeof (l : list item) (a : attrs) : res Z :=
  match l with
  | [] => Ok 0
  | IField f :: r => let* x := sizeof_field f a in let* xs := items_sizeof r a in Ok (x + xs)
  | ILazy fs :: r => let* x := lazy_size fs in let* xs := items_sizeof r a in Ok (x + xs)
  end.
Definition lazy_sizeof : stM lobj Z := fun o => (items_sizeof items (lo_attrs o), o).

End Class.
End WithHost.
