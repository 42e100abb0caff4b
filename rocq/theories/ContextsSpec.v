(** Specification for contexts: what a history of operations answers if every dict and every context
    is a value of its own, shared with nothing. *)
From Verif Require Import Base Marshal Contexts.
From Coq Require Import ZArith List Bool String.
Import ListNotations.
Open Scope list_scope.

(** The contents of a dict: what it has for each key. *)
Definition contents : Type := name -> option value.
Definition nothing : contents := fun _ => None.
Definition with_key (m : contents) (k : name) (v : value) : contents := fun k' => if String.eqb k k' then Some v else m k'.
Definition without_key (m : contents) (k : name) : contents := fun k' => if String.eqb k k' then None else m k'.
(** The entries of [m'] win. *)
Definition overridden (m m' : contents) : contents := fun k => match m' k with Some v => Some v | None => m k end.
Definition entry (m : contents) (k : name) (default : value) : value := match m k with Some v => v | None => default end.
(** A dict display; the last of several entries for a key counts. *)
Definition display (d : dict) : contents := fold_left (fun m p => with_key m (fst p) (snd p)) d nothing.

(** Contents of the dicts and of the contexts, numbered as they were made. *)
Record vstate : Type := mkV { v_dicts : list contents; v_ctxs : list (bool * contents) }.
Definition v_initial : vstate := mkV [] [(false, nothing)].

Fixpoint replace {A} (l : list A) (i : nat) (x : A) : list A :=
  match l, i with
  | [], _ => []
  | _ :: r, O => x :: r
  | y :: r, S j => y :: replace r j x
  end.
Definition v_dict (s : vstate) (m : contents) : answer * vstate := (ANewDict, mkV (v_dicts s ++ [m]) (v_ctxs s)).
Definition v_ctx (s : vstate) (w : bool) (m : contents) : answer * vstate := (ANewCtx, mkV (v_dicts s) (v_ctxs s ++ [(w, m)])).
(** Only writable contexts can be changed. *)
Definition v_change (s : vstate) (c : nat) (f : contents -> res contents) : answer * vstate :=
  match nth_error (v_ctxs s) c with
  | None => (AErr NotModelled, s)
  | Some (false, _) => (AErr AttributeError, s)
  | Some (true, m) =>
      match f m with
      | Ok m' => (ANone, mkV (v_dicts s) (replace (v_ctxs s) c (true, m')))
      | Err e => (AErr e, s)
      end
  end.
Definition v_arg (s : vstate) (i : option nat) (default : contents) : res contents :=
  match i with
  | None => Ok default
  | Some i => match nth_error (v_dicts s) i with Some m => Ok m | None => Err NotModelled end
  end.

Definition vstep (o : cop) (s : vstate) : answer * vstate :=
  match o with
  | NewDict d => v_dict s (display d)
  | DictSet i k v =>
      match nth_error (v_dicts s) i with
      | Some m => (ANone, mkV (replace (v_dicts s) i (with_key m k v)) (v_ctxs s))
      | None => (AErr NotModelled, s)
      end
  | DictGet i k default =>
      match nth_error (v_dicts s) i with
      | Some m => (AValue (entry m k default), s)
      | None => (AErr NotModelled, s)
      end
  | NewRO i => match v_arg s i nothing with Ok m => v_ctx s false m | Err e => (AErr e, s) end
  | NewW i => match v_arg s i nothing with Ok m => v_ctx s true m | Err e => (AErr e, s) end
  | CtxGet c k default =>
      match nth_error (v_ctxs s) c with
      | Some (_, m) => (AValue (entry m k default), s)
      | None => (AErr NotModelled, s)
      end
  | GetDict c =>
      match nth_error (v_ctxs s) c with
      | Some (_, m) => v_dict s m
      | None => (AErr NotModelled, s)
      end
  | WritableCopy c i =>
      match nth_error (v_ctxs s) c, v_arg s i nothing with
      | Some (_, m), Ok e => v_ctx s true (overridden m e)
      | None, _ => (AErr NotModelled, s)
      | _, Err e => (AErr e, s)
      end
  | Put c k v => v_change s c (fun m => Ok (with_key m k v))
  | Update c i =>
      match nth_error (v_dicts s) i with
      | Some e => v_change s c (fun m => Ok (overridden m e))
      | None => (AErr NotModelled, s)
      end
  | Remove c k => v_change s c (fun m => match m k with Some _ => Ok (without_key m k) | None => Err KeyError end)
  | Updated i obj c =>
      match nth_error (v_ctxs s) c, v_arg s i (with_key nothing "struct"%string obj) with
      | Some (_, m), Ok e => v_ctx s true (overridden e m)
      | None, _ => (AErr NotModelled, s)
      | _, Err e => (AErr e, s)
      end
  end.
Fixpoint vrun (ops : list cop) (s : vstate) : list answer * vstate :=
  match ops with
  | [] => ([], s)
  | o :: r => let (a, s1) := vstep o s in let (l, s2) := vrun r s1 in (a :: l, s2)
  end.

(** Histories in which no dict is given to a context's constructor. *)
Definition separate (o : cop) : Prop :=
  match o with NewRO (Some _) | NewW (Some _) => False | _ => True end.

(** Operations that do not change context [c]: all but put, update and remove applied to it. *)
Definition leaves (c : nat) (o : cop) : Prop :=
  match o with Put c' _ _ | Update c' _ | Remove c' _ => c' <> c | _ => True end.
(** The answer to the last operation. *)
Definition last_answer (ops : list cop) : answer := last (fst (crun ops initial)) ANone.
