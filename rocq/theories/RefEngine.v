(** Model of buffer/reference/reference.py: the evaluation engine of references.

    [R] identifies reference objects (reference.py:246-247 hashes by identity, so two references
    are the same key only if they are the same object), [V] is the type of their values and [St]
    is everything outside the engine: the object being packed or unpacked, the mode and the input
    buffer.  What a reference's [evaluate] method does is a [prog]: it may evaluate other
    references, use the state, raise or return.  No [evaluate] method of /repo catches an
    exception, so there is no handler.  A value returned by a user function is an arbitrary
    function of the state and of the values read so far. *)
From Verif Require Import Base.
From Coq Require Import ZArith List Bool.
Import ListNotations.

Section Engine.
Context {R V St : Type}.
Variable eqb : R -> R -> bool.

(** One [evaluate] method: reference.py:259, 280, 301, 316; func_call.py:17-22 and so on. *)
Inductive prog : Type :=
| PRet (v : V)
| PRaise (e : exn)
| PRef (r : R) (k : V -> prog)                      (* r.deref(ctx), then go on *)
| PCtx (f : St -> res V * St) (k : V -> prog).      (* use an attribute of ctx, then go on *)

(** The references of a class: reference object -> its [evaluate]. *)
Variable nodes : R -> prog.

Inductive outcome : Type :=
| OOk (v : V)
| ORaise (e : exn)          (* raised by an [evaluate] method or by something it called *)
| OCyclic (r : R).          (* CyclicReferenceError(ctx, r), reference.py:78 *)

(** Ghost: what happened so far, newest first. *)
Inductive event : Type :=
| EStart (r : R)            (* [r.evaluate] was called *)
| EDone (r : R) (v : V)     (* it returned [v] *)
| EFail (r : R).            (* it raised *)

(** reference.py:44-51 Context.  [c_stack] has the newest reference first (the code appends);
    [c_log] is not in the code. *)
Record ctx : Type := mkCtx {
  c_cache : list (R * V);          (* cached_results *)
  c_nodes : list R;                (* call_nodes *)
  c_stack : list R;                (* call_stack *)
  c_exc : option (list R);         (* exception_call_stack, newest first *)
  c_log : list event }.

(** reference.py:47-51 *)
Definition new_ctx : ctx := mkCtx [] [] [] None [].

Definition mem (r : R) (l : list R) : bool := existsb (eqb r) l.

Fixpoint lookup (r : R) (l : list (R * V)) : option V :=
  match l with
  | [] => None
  | (x, v) :: rest => if eqb r x then Some v else lookup r rest
  end.

(** set.remove *)
Fixpoint remove1 (r : R) (l : list R) : list R :=
  match l with
  | [] => []
  | x :: rest => if eqb r x then rest else x :: remove1 r rest
  end.

(** reference.py:84-85 *)
Definition push (r : R) (c : ctx) : ctx :=
  mkCtx (c_cache c) (r :: c_nodes c) (r :: c_stack c) (c_exc c) (EStart r :: c_log c).

(** reference.py:88 *)
Definition store (r : R) (v : V) (c : ctx) : ctx :=
  mkCtx ((r, v) :: c_cache c) (c_nodes c) (c_stack c) (c_exc c) (EDone r v :: c_log c).

(** reference.py:91-92 *)
Definition note_exc (r : R) (c : ctx) : ctx :=
  mkCtx (c_cache c) (c_nodes c) (c_stack c)
        (match c_exc c with None => Some (c_stack c) | Some l => Some l end) (EFail r :: c_log c).

(** reference.py:95-96 *)
Definition pop (r : R) (c : ctx) : ctx :=
  mkCtx (c_cache c) (remove1 r (c_nodes c)) (tl (c_stack c)) (c_exc c) (c_log c).

(** One [evaluate] call, given the evaluation [d] of references. *)
Fixpoint run (d : R -> ctx -> St -> option (outcome * ctx * St)) (p : prog) (c : ctx) (s : St)
  : option (outcome * ctx * St) :=
  match p with
  | PRet v => Some (OOk v, c, s)
  | PRaise e => Some (ORaise e, c, s)
  | PRef r k =>
      match d r c s with
      | Some (OOk v, c', s') => run d (k v) c' s'
      | x => x
      end
  | PCtx f k =>
      match f s with
      | (Ok v, s') => run d (k v) c s'
      | (Err e, s') => Some (ORaise e, c, s')
      end
  end.

(** reference.py:70-96 Reference.deref.  [None]: the fuel (recursion depth) did not suffice. *)
Fixpoint deref (fuel : nat) (r : R) (c : ctx) (s : St) : option (outcome * ctx * St) :=
  match fuel with
  | O => None
  | S n =>
      if mem r (c_nodes c) then Some (OCyclic r, c, s)
      else
        match lookup r (c_cache c) with
        | Some v => Some (OOk v, c, s)
        | None =>
            match run (deref n) (nodes r) (push r c) s with
            | None => None
            | Some (OOk v, c', s') => Some (OOk v, pop r (store r v c'), s')
            | Some (x, c', s') => Some (x, pop r (note_exc r c'), s')
            end
        end
  end.

(** A sequence of evaluations with one context (Buffer.pack, Buffer.unpack), up to the first one
    that raises. *)
Fixpoint deref_all (fuel : nat) (l : list R) (c : ctx) (s : St)
  : option (option outcome * ctx * St) :=
  match l with
  | [] => Some (None, c, s)
  | r :: rest =>
      match deref fuel r c s with
      | None => None
      | Some (OOk _, c', s') => deref_all fuel rest c' s'
      | Some (x, c', s') => Some (Some x, c', s')
      end
  end.

End Engine.

Arguments prog : clear implicits.
Arguments outcome : clear implicits.
Arguments event : clear implicits.
Arguments ctx : clear implicits.

(** reference.py:129-145 is_static: evaluation with a context none of whose attributes may be
    read.  [None] in the first component: an exception other than NotStaticObjectError escapes. *)
Section Static.
Context {R V St : Type}.
Variable eqb : R -> R -> bool.
Variable nodes : R -> prog R V St.

(** [StaticContext.__getattr__] raises for every attribute a bare Context does not have. *)
Fixpoint no_ctx (p : prog R V St) : prog R V St :=
  match p with
  | PRet v => PRet v
  | PRaise e => PRaise e
  | PRef r k => PRef r (fun v => no_ctx (k v))
  | PCtx _ _ => PRaise NotStaticObjectError
  end.

Definition is_static (fuel : nat) (s : St) (r : R) : option (res bool) :=
  match deref eqb (fun x => no_ctx (nodes x)) fuel r new_ctx s with
  | None => None
  | Some (OOk _, _, _) => Some (Ok true)
  | Some (ORaise NotStaticObjectError, _, _) => Some (Ok false)
  | Some (ORaise e, _, _) => Some (Err e)
  | Some (OCyclic _, _, _) => Some (Err CyclicReferenceError)
  end.

End Static.
