(** Model of struct/lazy.py, continued: an object with lazy containers that is shared by threads.

    Every look at or change of the instance dictionary is one step, atomic as under the interpreter's lock; a thread may be
    interrupted between any two steps.  Reading a value from the data of a container, and turning a value to bytes, touches nothing
    that is shared.
    Simplifications: as in Lazy.v; members of lazy containers are ordinary and anonymous fields; a [setattr] of a field while its container is
    decoded is one step: the check at lazy.py:26 finds the lazy key gone, and nothing brings it back; likewise
    the [getattr] of a field when its container is written (struct/__init__.py:72-73, lazy.py:30-31); to_bytes writes a field that is
    in no lazy container in one step. *)
From Verif Require Import Base IntCodec BitStringIO Stream MinMax Marshal Lazy.
From Coq Require Import ZArith List Bool String.
Import ListNotations.
Open Scope Z_scope.

(** What a thread does with the object: [obj.n], [obj.n = v] and [obj.to_bytes()]. *)
Inductive op : Type := OGet (n : name) | OSet (n : name) (v : value) | OBytes.

(** What a thread does after [instantiate_if_needed] of a container, or next while it writes. *)
Inductive after : Type :=
| Access (u : op)                                                                          (* lazy.py:27, 31 *)
| Items (k : nat) (l : list item) (out : list Z)                                           (* struct/__init__.py:98-100: the items from number k on *)
| Fields (k : nat) (fs : list field) (l : list item) (out : list Z).                       (* lazy.py:62: what is left of container k, then the items behind it *)
(** The statement it is part of. *)
Definition op_of (a : after) : op := match a with Access u => u | _ => OBytes end.

(** Where a thread is. *)
Inductive pc : Type :=
| Idle                                                                          (* between two statements *)
| Check (a : after) (k : nat) (fs : list field)                                 (* lazy.py:68-69, 72: hasattr(obj, lazy_key) *)
| Params (a : after) (k : nat) (fs : list field)                                (* lazy.py:75: getattr(obj, lazy_key) *)
| Delete (a : after) (k : nat) (fs : list field) (data : list Z) (c : ctx)      (* lazy.py:79: delattr(obj, lazy_key) *)
| Decode (a : after) (s : stream) (c : ctx) (fs : list field)                   (* lazy.py:81, struct/__init__.py:94-96: the next field is read *)
| Store (a : after) (n : name) (v : value) (s : stream) (c : ctx) (fs : list field)  (* struct/__init__.py:75-76, lazy.py:27 *)
| Finish (a : after).

(** A thread: the statements it still has to run, where it is in the current one, and what it got so far; the result of an assignment
    is None. *)
Record thread : Type := mkThread { th_todo : list op; th_pc : pc; th_got : list (op * res value) }.
Definition goto (p : pc) (t : thread) : thread := mkThread (th_todo t) p (th_got t).
Definition finish (u : op) (r : res value) (t : thread) : thread := mkThread (th_todo t) Idle (th_got t ++ [(u, r)]).

Section WithHost.
Variable h : host.
Section Class.
Variables (cls : name) (cctx : option ctx) (items : list item).

(** The last step of a statement about a LazyField (lazy.py:25-31). *)
Definition access (u : op) (o : lobj) : res value * lobj :=
  match u with
  | OGet n => (match lookup (lo_attrs o) n with Some v => Ok v | None => Err KeyError end, o)
  | OSet n v => (Ok VNone, mkLobj (set_attr (lo_attrs o) n v) (lo_data o))
  | OBytes => (Err NotModelled, o)   (* unreachable *)
  end.
(** A statement about anything else: as in Lazy.v. *)
Definition plain_access (u : op) (o : lobj) : res value * lobj :=
  match u with
  | OGet n => (match lookup (lo_attrs o) n with Some v => Ok v | None => Err AttributeError end, o)
  | OSet n v =>
      match lookup (flat_map item_class_attrs items) n with
      | Some k => (if py_eq v k then Ok VNone else Err InstructError, o)
      | None => (Ok VNone, mkLobj (set_attr (lo_attrs o) n v) (lo_data o))
      end
  | OBytes => (Err NotModelled, o)   (* unreachable *)
  end.
(** The container of the LazyField that a statement is about. *)
Definition target (u : op) : option (nat * list field) := match u with OGet n | OSet n _ => owner 0 items n | OBytes => None end.

(** The next step of a thread that need not decode anything first. *)
Definition go (a : after) (o : lobj) (t : thread) : lobj * thread :=
  match a with
  | Access u => let '(x, o') := access u o in (o', finish u x t)
  | Items k l out =>
      match l with
      | [] => (o, finish OBytes (Ok (VBytes out)) t)
      | IField f :: r =>
          match write_field h f (lo_attrs o) out with
          | (Ok _, out') => (o, goto (Finish (Items (S k) r out')) t)
          | (Err e, _) => (o, finish OBytes (Err e) t)
          end
      | ILazy fs :: r => (o, goto (Check (Fields k fs r out) k fs) t)     (* lazy.py:61 *)
      end
  | Fields k fs r out =>
      match fs with
      | [] => (o, goto (Finish (Items (S k) r out)) t)
      | f :: fs' =>
          match write_lazy_field h f (lo_attrs o) out with
          | (Ok _, out') => (o, goto (Finish (Fields k fs' r out')) t)
          | (Err e, _) => (o, finish OBytes (Err e) t)
          end
      end
  end.
(** One step of a thread. *)
Definition tstep (o : lobj) (t : thread) : lobj * thread :=
  match th_pc t with
  | Idle =>
      match th_todo t with
      | [] => (o, t)
      | OBytes :: r => (o, mkThread r (Finish (Items 0 items [])) (th_got t))
      | u :: r =>
          match target u with
          | Some (k, fs) => (o, mkThread r (Check (Access u) k fs) (th_got t))
          | None => let '(x, o') := plain_access u o in (o', finish u x (mkThread r Idle (th_got t)))
          end
      end
  | Check a k fs =>
      match pending k (lo_data o) with
      | None => (o, goto (Finish a) t)
      | Some _ => (o, goto (Params a k fs) t)
      end
  | Params a k fs =>
      match pending k (lo_data o) with
      | Some (data, c) => (o, goto (Delete a k fs data c) t)
      | None => (o, finish (op_of a) (Err AttributeError) t)
      end
  | Delete a k fs data c =>
      match pending k (lo_data o) with
      | Some _ => (mkLobj (lo_attrs o) (forget k (lo_data o)), goto (Decode a (stream_of data) c fs) t)
      | None => (o, finish (op_of a) (Err AttributeError) t)
      end
  | Decode a s c fs =>
      let c' := get_updated_context cctx (VObj cls (lo_attrs o)) c in
      match fs with
      | [] => (o, goto (Finish a) t)
      | FField n m _ :: r =>
          match read h m c' s with
          | (Ok v, s') => (o, goto (Store a n v s' c r) t)
          | (Err e, _) => (o, finish (op_of a) (Err e) t)
          end
      | FAnon m :: r =>
          match read h m c' s with
          | (Ok _, s') => (o, goto (Decode a s' c r) t)
          | (Err e, _) => (o, finish (op_of a) (Err e) t)
          end
      | _ :: _ => (o, finish (op_of a) (Err NotModelled) t)   (* not modelled: other members *)
      end
  | Store a n v s c fs => (mkLobj (set_attr (lo_attrs o) n v) (lo_data o), goto (Decode a s c fs) t)
  | Finish a => go a o t
  end.

(** The object and its threads; a schedule says which thread makes the next step. *)
Record shared : Type := mkShared { sh_obj : lobj; sh_threads : list thread }.
Fixpoint put (i : nat) (t : thread) (l : list thread) : list thread :=
  match l, i with
  | [], _ => []
  | _ :: r, O => t :: r
  | x :: r, S i' => x :: put i' t r
  end.
Definition sstep (i : nat) (w : shared) : shared :=
  match nth_error (sh_threads w) i with
  | None => w
  | Some t => let '(o', t') := tstep (sh_obj w) t in mkShared o' (put i t' (sh_threads w))
  end.
Fixpoint schedule (l : list nat) (w : shared) : shared :=
  match l with [] => w | i :: r => schedule r (sstep i w) end.
End Class.
End WithHost.
