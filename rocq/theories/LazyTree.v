(** Model of struct/__init__.py:81-109 and 134-137 around struct/lazy.py: lazy containers that are put into field
    lists, which may be in field lists again, and classes whose [_fields_] is not a list but one container.

    Simplifications: those of Lazy.v, and a field list that holds no lazy container may also be written as a
    field ([FGroup]) of a leaf. *)
From Verif Require Import Base IntCodec BitStringIO Stream MinMax Marshal Repr Lazy LazyShow.
From Coq Require Import ZArith List Bool String.
Import ListNotations.
Open Scope Z_scope.

(** The container of a class (struct/__init__.py:132-137): an ordinary field, [Lazy(...)], or a FieldListContainer,
    which a list or tuple is turned into. *)
Inductive tree : Type :=
| TItem (i : item)
| TList (l : list tree).

(** The containers are numbered in the order in which they are declared, the numbers stand for the lazy keys
    (lazy.py:58); this is how many numbers a container takes. *)
Fixpoint width (t : tree) : nat :=
  match t with
  | TItem _ => 1
  | TList l => fold_right (fun t n => width t + n)%nat 0%nat l
  end.

(** The descriptors that [prepare_class] puts on the class: struct/__init__.py:86-88, lazy.py:12-13.  Simplification:
    names are distinct. *)
Fixpoint tree_owner (t : tree) (k : nat) (n : name) : option (nat * list field) :=
  match t with
  | TItem (IField _) => None
  | TItem (ILazy fs) =>
      if existsb (fun f => match lazy_name f with Some n' => String.eqb n' n | None => false end) fs
      then Some (k, fs) else None
  | TList l =>
      (fix go (l : list tree) (k : nat) : option (nat * list field) :=
         match l with
         | [] => None
         | x :: r => match tree_owner x k n with Some o => Some o | None => go r (k + width x)%nat end
         end) l k
  end.
Fixpoint tree_class_attrs (t : tree) : attrs :=
  match t with
  | TItem i => item_class_attrs i
  | TList l => flat_map tree_class_attrs l
  end.

(** struct/__init__.py:90-92 and 150 *)
Fixpoint prepare_tree (kwargs : attrs) (a : attrs) (t : tree) : attrs :=
  match t with
  | TItem i => prepare_item kwargs a i
  | TList l => fold_left (prepare_tree kwargs) l a
  end.
Definition tree_new (t : tree) (kwargs : attrs) : lobj := mkLobj (prepare_tree kwargs (tree_class_attrs t) t) [].

Section WithHost.
Variable h : host.

Section Class.
Variables (cls : name) (cctx : option ctx) (t : tree).

(** struct/__init__.py:94-96 *)
Fixpoint read_tree (c : ctx) (t : tree) (k : nat) : stM lstate unit :=
  match t with
  | TItem i => read_item h cls cctx c k i
  | TList l =>
      (fix go (l : list tree) (k : nat) : stM lstate unit :=
         match l with
         | [] => sret tt
         | x :: r => do read_tree c x k ;; go r (k + width x)%nat
         end) l k
  end.
(** struct/__init__.py:176-181 *)
Definition tree_read (c : ctx) : stM stream lobj := fun s =>
  match read_tree c t 0 (s, tree_new t []) with
  | (Ok _, (s', o)) => (Ok o, s')
  | (Err e, (s', _)) => (Err e, s')
  end.

(** [obj.n]: lazy.py:29-31 for a LazyField, otherwise the instance dictionary or a constant. *)
Definition tree_get (n : name) : stM lobj value :=
  match tree_owner t 0 n with
  | Some (k, fs) =>
      do instantiate h cls cctx k fs ;;
      o <- sget ;;
      slift (match lookup (lo_attrs o) n with Some v => Ok v | None => Err KeyError end)
  | None =>
      o <- sget ;;
      slift (match lookup (lo_attrs o) n with Some v => Ok v | None => Err AttributeError end)
  end.

(** [obj.n = v]: lazy.py:25-27 for a LazyField, otherwise as in [assign_attr]. *)
Definition tree_set (n : name) (v : value) : stM lobj unit :=
  match tree_owner t 0 n with
  | Some (k, fs) =>
      do instantiate h cls cctx k fs ;;
      o <- sget ;;
      sput (mkLobj (set_attr (lo_attrs o) n v) (lo_data o))
  | None =>
      o <- sget ;;
      match lookup (tree_class_attrs t) n with
      | Some k => if py_eq v k then sret tt else sraise InstructError
      | None => sput (mkLobj (set_attr (lo_attrs o) n v) (lo_data o))
      end
  end.

(** struct/__init__.py:98-100 *)
Fixpoint write_tree (t : tree) (k : nat) : stM wstate unit :=
  match t with
  | TItem i => write_item h cls cctx k i
  | TList l =>
      (fix go (l : list tree) (k : nat) : stM wstate unit :=
         match l with
         | [] => sret tt
         | x :: r => do write_tree x k ;; go r (k + width x)%nat
         end) l k
  end.
(** [obj.to_bytes()], struct/__init__.py:191-197, 227-228. *)
Definition tree_to_bytes : stM lobj (list Z) := fun o =>
  match write_tree t 0 (o, []) with
  | (Ok _, (o', out)) => (Ok out, o')
  | (Err e, (o', _)) => (Err e, o')
  end.

(** struct/__init__.py:105-106; base.py:145-146 for the lazy containers. *)
Fixpoint sizeof_tree (t : tree) (a : attrs) : res Z :=
  match t with
  | TItem (IField f) => sizeof_field f a
  | TItem (ILazy fs) => lazy_size fs
  | TList l =>
      let* xs := (fix go (l : list tree) : res (list Z) :=
                    match l with
                    | [] => Ok []
                    | x :: r => let* y := sizeof_tree x a in let* ys := go r in Ok (y :: ys)
                    end) l in
      Ok (fold_left Z.add xs 0)
  end.
Definition tree_sizeof : stM lobj Z := fun o => (sizeof_tree t (lo_attrs o), o).

End Class.
End WithHost.

(** ** [repr(obj)] *)
Section Show.
Variables (percent_d percent_f : Z -> string) (py_repr : value -> res string).

(** struct/__init__.py:102-103 *)
Fixpoint text_tree (o : lobj) (t : tree) (k : nat) : res string :=
  match t with
  | TItem i => item_repr percent_d percent_f py_repr o k i
  | TList l =>
      let* ts := (fix go (l : list tree) (k : nat) : res (list string) :=
                    match l with
                    | [] => Ok []
                    | x :: r => let* y := text_tree o x k in let* ys := go r (k + width x)%nat in Ok (y :: ys)
                    end) l k in
      Ok (join ", " ts)
  end.
(** struct/__init__.py:209-215, 236-237 *)
Definition tree_repr (cls : name) (t : tree) (o : lobj) : res string :=
  let* x := text_tree o t 0 in Ok (cls ++ "(" ++ x ++ ")")%string.
End Show.
