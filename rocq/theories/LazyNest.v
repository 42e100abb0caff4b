(** Model of struct/lazy.py, continued: lazy containers inside of lazy containers.

    A class is a list of [node]s.  A lazy container that is inside of another one is read - its data is kept under its lazy key - when the
    outer one is decoded; until then it has no lazy key and passes for decoded (lazy.py:68-69).
    Simplifications: as in Lazy.v; field list containers stand as fields of their own ([NOther]) and hold no lazy containers;
    constant and optional fields directly in a lazy container are left out. *)
From Verif Require Import Base IntCodec BitStringIO Stream MinMax Marshal Lazy.
From Coq Require Import ZArith List Bool String.
Import ListNotations.
Open Scope Z_scope.

Inductive node : Type :=
| NNamed (n : name) (m : marshal) (d : value)   (* a Field; directly in a lazy container it becomes a LazyField (lazy.py:51-52) *)
| NOther (f : field)                            (* everything else: bit fields, anonymous fields, field lists *)
| NLazy (k : nat) (ns : list node).             (* a LazyFieldListContainer; the number stands for its lazy key *)

(** The field without laziness. *)
Fixpoint plain_node (x : node) : field :=
  match x with
  | NNamed n m d => FField n m d
  | NOther f => f
  | NLazy _ ns => FGroup (map plain_node ns)
  end.

(** A container: its number and its members. *)
Definition box : Type := (nat * list node)%type.
(** All lazy containers, an outer one in front of those inside of it. *)
Fixpoint boxes_in (x : node) : list box := match x with NLazy k ns => (k, ns) :: flat_map boxes_in ns | _ => [] end.
(** The names of the LazyFields of a container (lazy.py:12-13). *)
Definition named (ns : list node) : list name := flat_map (fun x => match x with NNamed n _ _ => [n] | _ => [] end) ns.
Definition has (n : name) (l : list name) : bool := existsb (String.eqb n) l.

(** The container whose LazyField has this name.  Simplification: names are distinct. *)
Definition node_owner (class : list node) (n : name) : option box := find (fun b => has n (named (snd b))) (flat_map boxes_in class).

(** Construction, struct/__init__.py:90-92, lazy.py:15-17. *)
Fixpoint prepare_inside (kwargs : attrs) (a : attrs) (x : node) : attrs :=
  match x with
  | NNamed n _ _ => match lookup kwargs n with Some v => set_attr a n v | None => a end
  | NOther f => prepare_instance kwargs a f
  | NLazy _ ns => fold_left (prepare_inside kwargs) ns a
  end.
Definition prepare_node (kwargs : attrs) (a : attrs) (x : node) : attrs :=
  match x with NLazy _ ns => fold_left (prepare_inside kwargs) ns a | _ => prepare_instance kwargs a (plain_node x) end.
(** Constants: those inside of [NOther]. *)
Definition node_class_attrs (class : list node) : attrs := class_attrs (map plain_node class).
Definition nest_new (class : list node) (kwargs : attrs) : lobj := mkLobj (fold_left (prepare_node kwargs) class (node_class_attrs class)) [].

Section WithHost.
Variable h : host.
Section Class.
Variables (cls : name) (cctx : option ctx) (class : list node).

(** lazy.py:64-66; a field in a lazy container is read like any other (lazy.py:22-23). *)
Definition read_node (c : ctx) (x : node) : stM lstate unit := fun st =>
  match x with
  | NNamed _ _ _ | NOther _ =>
      match read_field h cls cctx (plain_node x) c (fst st, lo_attrs (snd st)) with
      | (r, (s', a')) => (r, (s', mkLobj a' (lo_data (snd st))))
      end
  | NLazy k ns =>
      match lazy_size (map plain_node ns) with
      | Err e => (Err e, st)
      | Ok size =>
          match sread size (fst st) with
          | (Ok data, s') => (Ok tt, (s', mkLobj (lo_attrs (snd st)) ((k, (data, c)) :: forget k (lo_data (snd st)))))
          | (Err e, s') => (Err e, (s', snd st))
          end
      end
  end.
Fixpoint read_nodes (c : ctx) (l : list node) : stM lstate unit :=
  match l with
  | [] => sret tt
  | x :: r => do read_node c x ;; read_nodes c r
  end.
(** struct/__init__.py:176-181 *)
Definition nest_read (c : ctx) : stM stream lobj := fun s =>
  match read_nodes c class (s, nest_new class []) with
  | (Ok _, (s', o)) => (Ok o, s')
  | (Err e, (s', _)) => (Err e, s')
  end.

(** lazy.py:71-82: inner containers are read, not decoded. *)
Definition open_node (k : nat) (ns : list node) : stM lobj unit := fun o =>
  match pending k (lo_data o) with
  | None => (Ok tt, o)
  | Some (data, c) =>
      match read_nodes c ns (stream_of data, mkLobj (lo_attrs o) (forget k (lo_data o))) with
      | (r, (_, o')) => (r, o')
      end
  end.

(** lazy.py:25-31 *)
Definition nest_get (n : name) : stM lobj value :=
  match node_owner class n with
  | Some (k, ns) =>
      do open_node k ns ;;
      o <- sget ;;
      slift (match lookup (lo_attrs o) n with Some v => Ok v | None => Err KeyError end)
  | None =>
      o <- sget ;;
      slift (match lookup (lo_attrs o) n with Some v => Ok v | None => Err AttributeError end)
  end.
Definition nest_set (n : name) (v : value) : stM lobj unit :=
  match node_owner class n with
  | Some (k, ns) =>
      do open_node k ns ;;
      o <- sget ;;
      sput (mkLobj (set_attr (lo_attrs o) n v) (lo_data o))
  | None =>
      o <- sget ;;
      match lookup (node_class_attrs class) n with
      | Some k => if py_eq v k then sret tt else sraise InstructError
      | None => sput (mkLobj (set_attr (lo_attrs o) n v) (lo_data o))
      end
  end.

(** lazy.py:60-62: the container is decoded, then its members are written, inner containers in the same way; [inside] tells whether a named field is
    a LazyField, for which a missing attribute is a KeyError. *)
Fixpoint write_node (inside : bool) (x : node) {struct x} : stM wstate unit := fun st =>
  match x with
  | NNamed n _ _ =>
      match (if inside then match lookup (lo_attrs (fst st)) n with Some _ => write_field h (plain_node x) (lo_attrs (fst st)) | None => sraise KeyError end
             else write_field h (plain_node x) (lo_attrs (fst st))) (snd st) with (r, out) => (r, (fst st, out)) end
  | NOther f => match write_field h f (lo_attrs (fst st)) (snd st) with (r, out) => (r, (fst st, out)) end
  | NLazy k ns =>
      match open_node k ns (fst st) with
      | (Err e, o) => (Err e, (o, snd st))
      | (Ok _, o) => (fix go (l : list node) : stM wstate unit := match l with [] => sret tt | y :: r => do write_node true y ;; go r end) ns (o, snd st)
      end
  end.
Fixpoint write_nodes (inside : bool) (l : list node) : stM wstate unit :=
  match l with [] => sret tt | y :: r => do write_node inside y ;; write_nodes inside r end.
(** [obj.to_bytes()], struct/__init__.py:191-197, 227-228. *)
Definition nest_to_bytes : stM lobj (list Z) := fun o =>
  match write_nodes false class (o, []) with
  | (Ok _, (o', out)) => (Ok out, o')
  | (Err e, (o', _)) => (Err e, o')
  end.
End Class.
End WithHost.
