(** Model of the objects behind attribute values: which of them are shared.

    The other parts of the model treat attribute values as values.  Here lists, byte arrays, dicts
    and instances are objects in a heap, attributes hold immutable values or references, and what is
    modelled is how constructors give defaults to fields:
    struct/__init__.py:8-9, 63-67, 90-92 (Struct) and buffer/buffer.py:88-100 (Buffer).
    Not modelled: removal of attributes, reading objects from data (which always makes new ones). *)
From Verif Require Import Base Marshal.
From Coq Require Import ZArith List Bool String.
Import ListNotations.

Inductive cell : Type := CVal (v : value) | CRef (l : nat).
Inductive hobj : Type :=
| HList (cs : list cell)
| HBytes (bs : list Z)                      (* bytearray *)
| HDict (kvs : list (value * cell))
| HInst (kvs : list (name * cell)).         (* an object of a class without [copy], such as a Struct *)
Definition heap : Type := list hobj.

Definition cells_of (o : hobj) : list cell :=
  match o with HList cs => cs | HBytes _ => [] | HDict kvs => map snd kvs | HInst kvs => map snd kvs end.

(** A new object; nothing is ever removed. *)
Definition alloc (h : heap) (o : hobj) : heap * cell := (h ++ [o], CRef (List.length h)).

(** [hasattr(obj, 'copy')]: Python 3 lists, dicts and byte arrays have it. *)
Definition has_copy (o : hobj) : bool := match o with HInst _ => false | _ => true end.
(** struct/__init__.py:8-9; [copy] makes a new object with the same members. *)
Definition copy_if_supported (h : heap) (c : cell) : heap * cell :=
  match c with
  | CVal _ => (h, c)
  | CRef l => match nth_error h l with Some o => if has_copy o then alloc h o else (h, c) | None => (h, c) end
  end.

(** Instance dictionaries. *)
Definition dict : Type := list (name * cell).
Fixpoint dget (d : dict) (n : name) : option cell :=
  match d with [] => None | (m, c) :: r => if String.eqb m n then Some c else dget r n end.
Fixpoint dset (d : dict) (n : name) (c : cell) : dict :=
  match d with [] => [(n, c)] | (m, x) :: r => if String.eqb m n then (m, c) :: r else (m, x) :: dset r n c end.

(** Field names with their defaults. *)
Definition fields_of_class : Type := list (name * cell).

(** struct/__init__.py:63-67 for every field, lines 90-92. *)
Fixpoint new_struct (fs : fields_of_class) (kw : dict) (h : heap) (d : dict) : heap * dict :=
  match fs with
  | [] => (h, d)
  | (n, def) :: r =>
      match dget kw n with
      | Some c => new_struct r kw h (dset d n c)
      | None =>
          match dget d n with
          | Some _ => new_struct r kw h d
          | None => let (h', c) := copy_if_supported h def in new_struct r kw h' (dset d n c)
          end
      end
  end.
(** buffer/buffer.py:92-100. *)
Definition new_buffer (fs : fields_of_class) (kw : dict) (h : heap) (d : dict) : heap * dict :=
  (h, fold_left (fun d f => match dget d (fst f) with Some _ => d | None => dset d (fst f) (snd f) end) fs
        (fold_left (fun d f => dset d (fst f) (snd f)) kw d)).

(** ** Programs that use the class *)
Record state : Type := mkState { hp : heap; insts : list dict }.

(** An attribute of the [i]-th instance, and further members of what it holds. *)
Record path : Type := mkPath { p_inst : nat; p_attr : name; p_steps : list nat }.
Fixpoint walk (h : heap) (c : cell) (steps : list nat) : option cell :=
  match steps with
  | [] => Some c
  | k :: r =>
      match c with
      | CVal _ => None
      | CRef l =>
          match nth_error h l with
          | Some o => match nth_error (cells_of o) k with Some c' => walk h c' r | None => None end
          | None => None
          end
      end
  end.
Definition attr (s : state) (i : nat) (n : name) : option cell :=
  match nth_error (insts s) i with Some d => dget d n | None => None end.
Definition eval_path (s : state) (p : path) : option cell :=
  match attr s (p_inst p) (p_attr p) with Some c => walk (hp s) c (p_steps p) | None => None end.

(** A new object with immutable members, written in the program. *)
Inductive lit : Type := LList (vs : list value) | LBytes (bs : list Z) | LDict (kvs : list (value * value)) | LInst (kvs : list (name * value)).
Definition build (t : lit) : hobj :=
  match t with
  | LList vs => HList (map CVal vs)
  | LBytes bs => HBytes bs
  | LDict kvs => HDict (map (fun kv => (fst kv, CVal (snd kv))) kvs)
  | LInst kvs => HInst (map (fun kv => (fst kv, CVal (snd kv))) kvs)
  end.
(** What can be stored: a value, a new object, something that is there already. *)
Inductive src : Type := SVal (v : value) | SNew (t : lit) | SPath (p : path).
Definition eval_src (s : state) (x : src) : heap * option cell :=
  match x with
  | SVal v => (hp s, Some (CVal v))
  | SNew t => let (h, c) := alloc (hp s) (build t) in (h, Some c)
  | SPath p => (hp s, eval_path s p)
  end.
Fixpoint eval_srcs (s : state) (xs : list src) : heap * option (list cell) :=
  match xs with
  | [] => (hp s, Some [])
  | x :: r =>
      match eval_src s x with
      | (h, Some c) => match eval_srcs (mkState h (insts s)) r with (h', Some cs) => (h', Some (c :: cs)) | (h', None) => (h', None) end
      | (h, None) => (h, None)
      end
  end.
(** A change in place: the new members of the object, in terms of what there was.  This covers
    append, insert, pop, item assignment, sort, clear and so on. *)
Inductive change : Type := ChList (xs : list src) | ChBytes (bs : list Z) | ChDict (kxs : list (value * src)) | ChInst (kxs : list (name * src)).
Definition change_srcs (ch : change) : list src :=
  match ch with ChList xs => xs | ChBytes _ => [] | ChDict kxs => map snd kxs | ChInst kxs => map snd kxs end.
Definition apply_change (ch : change) (cs : list cell) (o : hobj) : option hobj :=
  match ch, o with
  | ChList _, HList _ => Some (HList cs)
  | ChBytes bs, HBytes _ => Some (HBytes bs)
  | ChDict kxs, HDict _ => Some (HDict (combine (map fst kxs) cs))
  | ChInst kxs, HInst _ => Some (HInst (combine (map fst kxs) cs))
  | _, _ => None
  end.
Fixpoint set_nth {A} (l : list A) (k : nat) (x : A) : list A :=
  match l, k with
  | [], _ => []
  | _ :: r, O => x :: r
  | y :: r, S k' => y :: set_nth r k' x
  end.

Inductive op : Type :=
| ONew (kw : list (name * src))             (* a new instance with keyword arguments *)
| OSet (i : nat) (n : name) (x : src)       (* obj.n = x *)
| OChange (p : path) (ch : change).         (* obj.n... changed in place *)

Section Class.
(** The constructor: [new_struct] or [new_buffer] of the class. *)
Variable new : dict -> heap -> dict -> heap * dict.

(** What fails leaves at most new objects behind that nothing refers to. *)
Definition step (s : state) (o : op) : state :=
  match o with
  | ONew kw =>
      match eval_srcs s (map snd kw) with
      | (h, Some cs) => let (h', d) := new (combine (map fst kw) cs) h [] in mkState h' (insts s ++ [d])
      | (h, None) => mkState h (insts s)
      end
  | OSet i n x =>
      match nth_error (insts s) i, eval_src s x with
      | Some d, (h, Some c) => mkState h (set_nth (insts s) i (dset d n c))
      | _, (h, _) => mkState h (insts s)
      end
  | OChange p ch =>
      match eval_path s p with
      | Some (CRef l) =>
          match eval_srcs s (change_srcs ch) with
          | (h, Some cs) =>
              match nth_error h l with
              | Some o => match apply_change ch cs o with Some o' => mkState (set_nth h l o') (insts s) | None => mkState h (insts s) end
              | None => mkState h (insts s)
              end
          | (h, None) => mkState h (insts s)
          end
      | _ => s
      end
  end.
Definition run (ops : list op) (s : state) : state := fold_left step ops s.
End Class.

(** Before any instance exists; the heap holds the defaults. *)
Definition start (h : heap) : state := mkState h [].
