(** Model of the contexts of base.py:5-49 and struct/__init__.py:217-225.  Contexts hold a dict by
    reference, so the model has a heap of dicts; a program is a history of operations by user code
    (predicates, callables, callers of create_from_stream) on contexts and dicts it knows. *)
From Verif Require Import Base Marshal.
From Coq Require Import ZArith List Bool String.
Import ListNotations.
Open Scope list_scope.

(** A dict with strings as keys. *)
Definition dict : Type := list (name * value).
(** [d.update(e)] *)
Definition dict_update (d e : dict) : dict := fold_left (fun d p => set_attr d (fst p) (snd p)) e d.
(** [del d[k]]: KeyError if there is no such key. *)
Fixpoint dict_del (d : dict) (k : name) : res dict :=
  match d with
  | [] => Err KeyError
  | (k', v) :: r => if String.eqb k' k then Ok r else let* r' := dict_del r k in Ok ((k', v) :: r')
  end.

(** The heap: the dict at each address.  Address 0 is the default argument [d={}] of
    ReadOnlyContext.__init__ (base.py:11), made once. *)
Definition heap : Type := list dict.
Definition at_ (h : heap) (l : nat) : dict := nth l h [].
Fixpoint put_at (h : heap) (l : nat) (d : dict) : heap :=
  match h, l with
  | [], _ => []
  | _ :: r, O => d :: r
  | x :: r, S l' => x :: put_at r l' d
  end.
Definition alloc (h : heap) (d : dict) : heap * nat := (h ++ [d], List.length h).

(** A context object: writable or not, and its attribute [d]. *)
Record cobj : Type := mkC { writable : bool; c_d : nat }.
(** What the program knows: its dicts and its contexts, numbered as they were made.  Context 0 is
    EMPTY_CONTEXT, base.py:49. *)
Record cstate : Type := mkSt { heap_of : heap; dicts : list nat; ctxs : list cobj }.
Definition initial : cstate := mkSt [[]] [] [mkC false 0].

Inductive cop : Type :=
| NewDict (d : dict)                                    (* a dict display, dict(...) *)
| DictSet (i : nat) (k : name) (v : value)              (* dicts[i][k] = v *)
| DictGet (i : nat) (k : name) (default : value)        (* dicts[i].get(k, default) *)
| NewRO (i : option nat)                                (* ReadOnlyContext(dicts[i]), ReadOnlyContext() *)
| NewW (i : option nat)                                 (* WritableContext(dicts[i]), WritableContext() *)
| CtxGet (c : nat) (k : name) (default : value)         (* ctxs[c].get(k, default) *)
| GetDict (c : nat)                                     (* ctxs[c].get_dict() *)
| WritableCopy (c : nat) (i : option nat)               (* ctxs[c].writable_copy(dicts[i]) *)
| Put (c : nat) (k : name) (v : value)
| Update (c : nat) (i : nat)                            (* ctxs[c].update(dicts[i]) *)
| Remove (c : nat) (k : name)
| Updated (i : option nat) (obj : value) (c : nat).     (* cls.get_updated_context(obj, ctxs[c]); _context_ is dicts[i] *)

(** The answer: a value, a new dict or context, nothing, an exception. *)
Inductive answer : Type := AValue (v : value) | ANewDict | ANewCtx | ANone | AErr (e : exn).

Definition get_default (d : dict) (k : name) (default : value) : value :=
  match Marshal.lookup d k with Some v => v | None => default end.

(** A new dict known to the program, a new context with a new dict. *)
Definition new_dict (s : cstate) (d : dict) : answer * cstate :=
  let (h, l) := alloc (heap_of s) d in (ANewDict, mkSt h (dicts s ++ [l]) (ctxs s)).
Definition new_ctx (s : cstate) (w : bool) (d : dict) : answer * cstate :=
  let (h, l) := alloc (heap_of s) d in (ANewCtx, mkSt h (dicts s) (ctxs s ++ [mkC w l])).
(** A method that only WritableContext has, base.py:39-46. *)
Definition mutate (s : cstate) (c : nat) (f : dict -> res dict) : answer * cstate :=
  match nth_error (ctxs s) c with
  | None => (AErr NotModelled, s)
  | Some x =>
      if writable x then
        match f (at_ (heap_of s) (c_d x)) with
        | Ok d => (ANone, mkSt (put_at (heap_of s) (c_d x) d) (dicts s) (ctxs s))
        | Err e => (AErr e, s)
        end
      else (AErr AttributeError, s)
  end.
(** The dict of an optional argument; [NotModelled] if the program knows no such dict. *)
Definition dict_arg (s : cstate) (i : option nat) : res (option nat) :=
  match i with
  | None => Ok None
  | Some i => match nth_error (dicts s) i with Some l => Ok (Some l) | None => Err NotModelled end
  end.

Definition cstep (o : cop) (s : cstate) : answer * cstate :=
  match o with
  | NewDict d => new_dict s (dict_update [] d)
  | DictSet i k v =>
      match nth_error (dicts s) i with
      | Some l => (ANone, mkSt (put_at (heap_of s) l (set_attr (at_ (heap_of s) l) k v)) (dicts s) (ctxs s))
      | None => (AErr NotModelled, s)
      end
  | DictGet i k default =>
      match nth_error (dicts s) i with
      | Some l => (AValue (get_default (at_ (heap_of s) l) k default), s)
      | None => (AErr NotModelled, s)
      end
  | NewRO i =>                                          (* base.py:11-12 *)
      match dict_arg s i with
      | Ok l => (ANewCtx, mkSt (heap_of s) (dicts s) (ctxs s ++ [mkC false (match l with Some l => l | None => O end)]))
      | Err e => (AErr e, s)
      end
  | NewW i =>                                           (* base.py:36-37: [d or {}] *)
      match dict_arg s i with
      | Ok (Some l) => match at_ (heap_of s) l with
                       | [] => new_ctx s true []
                       | _ => (ANewCtx, mkSt (heap_of s) (dicts s) (ctxs s ++ [mkC true l]))
                       end
      | Ok None => new_ctx s true []
      | Err e => (AErr e, s)
      end
  | CtxGet c k default =>                               (* base.py:14-15 *)
      match nth_error (ctxs s) c with
      | Some x => (AValue (get_default (at_ (heap_of s) (c_d x)) k default), s)
      | None => (AErr NotModelled, s)
      end
  | GetDict c =>                                        (* base.py:17-18 *)
      match nth_error (ctxs s) c with
      | Some x => new_dict s (at_ (heap_of s) (c_d x))
      | None => (AErr NotModelled, s)
      end
  | WritableCopy c i =>                                 (* base.py:20-23; [WritableContext(c)] makes yet another dict of an empty one *)
      match nth_error (ctxs s) c, dict_arg s i with
      | Some x, Ok l =>
          new_ctx s true (dict_update (at_ (heap_of s) (c_d x)) (match l with Some l => at_ (heap_of s) l | None => [] end))
      | None, _ => (AErr NotModelled, s)
      | _, Err e => (AErr e, s)
      end
  | Put c k v => mutate s c (fun d => Ok (set_attr d k v))              (* base.py:39-40 *)
  | Update c i =>                                       (* base.py:42-43 *)
      match nth_error (dicts s) i with
      | Some l => mutate s c (fun d => Ok (dict_update d (at_ (heap_of s) l)))
      | None => (AErr NotModelled, s)
      end
  | Remove c k => mutate s c (fun d => dict_del d k)                    (* base.py:45-46 *)
  | Updated i obj c =>                                  (* struct/__init__.py:217-225 *)
      match nth_error (ctxs s) c, dict_arg s i with
      | Some x, Ok l =>
          new_ctx s true (dict_update (match l with Some l => at_ (heap_of s) l | None => [("struct"%string, obj)] end)
                            (at_ (heap_of s) (c_d x)))
      | None, _ => (AErr NotModelled, s)
      | _, Err e => (AErr e, s)
      end
  end.

(** A history, with the answers. *)
Fixpoint crun (ops : list cop) (s : cstate) : list answer * cstate :=
  match ops with
  | [] => ([], s)
  | o :: r => let (a, s1) := cstep o s in let (l, s2) := crun r s1 in (a :: l, s2)
  end.
