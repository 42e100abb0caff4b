(** Model of the construction of Struct objects, struct/__init__.py:111-170: the [__init__] that the
    metaclass puts into every class, user-written [__init__] functions and inheritance.

    A class is given by its fields and by its ancestry: for the class itself and each of its bases up
    to (not including) Struct, the user's [__init__], if there is one.  Single inheritance.
    Not modelled: positional-only parameters, a keyword argument called [self], default parameter
    values that are mutated, lazy containers (see Lazy.v). *)
From Verif Require Import Base IntCodec Stream MinMax Marshal MarshalInd.
From Coq Require Import ZArith List Bool String.
Import ListNotations.
Open Scope Z_scope.

Definition kwds := list (name * value).
Definition has {A} (l : list (name * A)) (n : name) : bool := match lookup l n with Some _ => true | None => false end.
(** [kwargs.pop(n)] *)
Definition without (n : name) (kw : kwds) : kwds := filter (fun p => negb (String.eqb (fst p) n)) kw.
(** [kwargs[n] = v] *)
Definition put (kw : kwds) (n : name) (v : value) : kwds := set_attr kw n v.

(** [Field.prepare_instance], lines 63-67: a keyword argument is popped. *)
Definition take_field (st : attrs * kwds) (n : name) (default : value) : attrs * kwds :=
  match lookup (snd st) n with
  | Some v => (set_attr (fst st) n v, without n (snd st))
  | None => match lookup (fst st) n with
            | Some _ => st
            | None => (set_attr (fst st) n default, snd st)
            end
  end.
(** [prepare_instance] of every kind of field: lines 15-16, 63-67, 90-92, struct/const.py:13-16. *)
Fixpoint take_fields (st : attrs * kwds) (f : field) {struct f} : attrs * kwds :=
  match f with
  | FField n _ d | FOpt n _ _ d => take_field st n d
  | FAnon _ | FConst _ _ _ => st
  | FGroup fs => fold_left take_fields fs st
  | FBits bs | FPosBits _ bs =>
      fold_left (fun st b => match b with BField n _ d => take_field st n d | _ => st end) bs st
  end.

(** ** User functions *)
(** Parameters of a Python function after [self]; [None] is a parameter without a default. *)
Record params : Type := mkParams {
  p_pos : list (name * option value);       (* positional or keyword: co_varnames[1:co_argcount] *)
  p_kwonly : list (name * option value);    (* behind a star *)
  p_varargs : bool;                         (* a parameter of the form *args *)
  p_varkw : bool                            (* has **kwargs *)
}.
Record bound : Type := mkBound { b_vars : list (name * value); b_args : list value; b_kwargs : kwds }.

(** Calling a Python function: binding of the arguments. *)
Fixpoint bind_pos (ps : list (name * option value)) (args : list value) (kw : kwds)
  : res (list (name * value) * list value * kwds) :=
  match ps, args with
  | [], _ => Ok ([], args, kw)
  | (n, _) :: r, v :: args' =>
      if has kw n then Err TypeError                          (* multiple values for argument *)
      else let* x := bind_pos r args' kw in Ok ((n, v) :: fst (fst x), snd (fst x), snd x)
  | (n, d) :: r, [] =>
      let* v := match lookup kw n with Some v => Ok v | None => match d with Some v => Ok v | None => Err TypeError end end in
      let* x := bind_pos r [] (without n kw) in Ok ((n, v) :: fst (fst x), snd (fst x), snd x)
  end.
Definition bind_call (p : params) (args : list value) (kw : kwds) : res bound :=
  let* x := bind_pos (p_pos p) args kw in
  let* y := bind_pos (p_kwonly p) [] (snd x) in
  if negb (p_varargs p) && negb (match snd (fst x) with [] => true | _ => false end) then Err TypeError
  else if negb (p_varkw p) && negb (match snd y with [] => true | _ => false end) then Err TypeError
  else Ok (mkBound (fst (fst x) ++ fst (fst y)) (snd (fst x)) (snd y)).

(** What a user-written [__init__] does: read and assign attributes of [self], call the [__init__]
    of the base class, raise. *)
Inductive iprog : Type :=
| IDone (r : res unit)
| IGet (n : name) (k : option value -> iprog)              (* getattr(self, n, ...) *)
| ISet (n : name) (v : value) (k : res unit -> iprog)      (* self.n = v *)
| ISuper (args : list value) (kw : kwds) (k : res unit -> iprog).   (* super().__init__ *)
Record user_init : Type := mkInit { ui_params : params; ui_body : bound -> iprog }.

Section Init.
Variable fs : list field.                                    (* type(self)._fields_ *)

Fixpoint run_init (super : list value -> kwds -> attrs -> res unit * attrs) (p : iprog) (a : attrs) : res unit * attrs :=
  match p with
  | IDone r => (r, a)
  | IGet n k => run_init super (k (lookup a n)) a
  | ISet n v k => match assign_attr fs a n v with
                  | Ok a' => run_init super (k (Ok tt)) a'
                  | Err e => run_init super (k (Err e)) a
                  end
  | ISuper args kw k => match super args kw a with (r, a') => run_init super (k r) a' end
  end.

(** Lines 153-161: arguments that are parameters of the user's function are put back. *)
Definition put_back (p : params) (orig kw : kwds) : kwds :=
  fold_left (fun kw n => match lookup orig n with Some v => put kw n v | None => kw end) (map fst (p_pos p)) kw.

(** [__instance_init__], lines 146-162, and Struct.__init__, lines 167-169. *)
Fixpoint instance_init (bottom : bool) (levels : list (option user_init)) (args : list value) (kw : kwds) (a : attrs) {struct levels}
  : res unit * attrs :=
  match levels with
  | [] => (Ok tt, fst (fold_left take_fields fs (a, kw)))
  | l :: up =>
      let st := if bottom then fold_left take_fields fs (a, kw) else (a, kw) in
      match l with
      | None => instance_init false up args (snd st) (fst st)
      | Some ui =>
          match bind_call (ui_params ui) args (put_back (ui_params ui) kw (snd st)) with
          | Ok b => run_init (instance_init false up) (ui_body ui b) (fst st)
          | Err e => (Err e, fst st)
          end
      end
  end.

(** [cls( *args, **kwargs)]; the attributes are returned even if the constructor raises. *)
Definition construct (levels : list (option user_init)) (args : list value) (kw : kwds) : res unit * attrs :=
  instance_init true levels args kw (class_attrs fs).

(** [cls.create_from_stream(stream, context)], lines 176-181, for a class with user code; the classes
    of nested structs are as in Marshal.v.  Without extra arguments: they would be handed on to the
    constructors of nested structs as well. *)
Definition create (h : host) (cls : name) (cctx : option ctx) (levels : list (option user_init)) (c : ctx) : stM stream value := fun s =>
  match construct levels [] [] with
  | (Err e, _) => (Err e, s)
  | (Ok _, a) =>
      match read_fields h cls cctx fs c (s, a) with
      | (Ok _, (s', a')) => (Ok (VObj cls a'), s')
      | (Err e, (s', _)) => (Err e, s')
      end
  end.
End Init.
