(** Specification vocabulary for lazy containers inside of lazy containers: the object without laziness and the containers
    that are closed, where opening one puts those inside of it in its place. *)
From Verif Require Import Base IntCodec BitStringIO Stream MinMax Marshal FieldSpec Lazy LazySpec LazyBitsSpec LazyNest.
From Coq Require Import ZArith List Bool String.
Import ListNotations.
Open Scope Z_scope.

(** Members of lazy containers: of fixed size, and looking at nothing but their bytes. *)
Fixpoint inner_ok (x : node) : Prop :=
  match x with
  | NNamed _ m _ => self_contained m
  | NOther f => match f with FField _ _ _ | FConst _ _ _ | FOpt _ _ _ _ => False | _ => self_contained_field f end
  | NLazy _ ns => (exists size, lazy_size (map plain_node ns) = Ok size /\ size <= maxsize)
      /\ (fix go (l : list node) : Prop := match l with [] => True | y :: r => inner_ok y /\ go r end) ns
  end.
(** Entries of a class: lazy containers of such members, and fields that do not look at the object while they are read. *)
Definition outer_ok (h : host) (x : node) : Prop :=
  match x with NLazy _ _ => inner_ok x | _ => blind h (plain_node x) end.
(** All names of an entry. *)
Definition node_names (x : node) : list name := stored_names (plain_node x) ++ map fst (class_attrs_f (plain_node x)).

(** What a program does with an object. *)
Definition use_nest (h : host) (cls : name) (cctx : option ctx) (class : list node) (u : use) (o : lobj) : answer * lobj :=
  match u with
  | Get n => let '(r, o') := nest_get h cls cctx class n o in (AValue r, o')
  | Set_ n v => let '(r, o') := nest_set h cls cctx class n v o in (ADone r, o')
  | ToBytes => let '(r, o') := nest_to_bytes h cls cctx class o in (ABytes r, o')
  end.
Fixpoint history_nest (h : host) (cls : name) (cctx : option ctx) (class : list node) (us : list use) (o : lobj) : list answer :=
  match us with
  | [] => []
  | u :: r => let '(x, o') := use_nest h cls cctx class u o in x :: history_nest h cls cctx class r o'
  end.

(** The lazy containers directly in a list of nodes; all names of a container, also of those inside of it. *)
Definition direct (ns : list node) : list box := flat_map (fun x => match x with NLazy k l => [(k, l)] | _ => [] end) ns.
Definition all_names (ns : list node) : list name := flat_map (fun x => stored_names (plain_node x)) ns.
(** Some lazy container of the class has [n] as one of its own fields. *)
Definition is_named (class : list node) (n : name) : bool := existsb (fun b => mem n (named (snd b))) (flat_map boxes_in class).

(** The closed containers; opening the one that has [n] as its own field. *)
Definition closed_has (n : name) (L : list box) : bool := existsb (fun b => mem n (all_names (snd b))) L.
Definition can_open (n : name) (L : list box) : bool := existsb (fun b => mem n (named (snd b))) L.
Definition open_with (n : name) (L : list box) : list box := flat_map (fun b => if mem n (named (snd b)) then direct (snd b) else [b]) L.

(** The containers that a conversion comes to, in this order: up to the first field that cannot be written. *)
Fixpoint reached (h : host) (E : attrs) (x : node) (out : list Z) : list nat :=
  match x with
  | NLazy k ns => k :: (fix go (l : list node) (out : list Z) : list nat :=
                          match l with
                          | [] => []
                          | y :: r => reached h E y out ++ match write_field h (plain_node y) E out with (Ok _, out') => go r out' | (Err _, _) => [] end
                          end) ns out
  | _ => []
  end.
Fixpoint reached_all (h : host) (E : attrs) (l : list node) (out : list Z) : list nat :=
  match l with
  | [] => []
  | y :: r => reached h E y out ++ match write_field h (plain_node y) E out with (Ok _, out') => reached_all h E r out' | (Err _, _) => [] end
  end.
(** Opening these containers, one after the other. *)
Definition open_box (L : list box) (k : nat) : list box := flat_map (fun b => if Nat.eqb (fst b) k then direct (snd b) else [b]) L.
Definition opened (ks : list nat) (L : list box) : list box := fold_left open_box ks L.

Record nview : Type := mkNView { n_eager : attrs; n_front : attrs; n_closed : list box }.
(** An attribute in front of a closed container. *)
Definition front_get (class : list node) (F : attrs) (n : name) : res value :=
  match lookup F n with Some v => Ok v | None => Err (if is_named class n then KeyError else AttributeError) end.

Definition use_nview (h : host) (cls : name) (cctx : option ctx) (class : list node) (u : use) (v : nview) : answer * nview :=
  match u with
  | Get n =>
      if closed_has n (n_closed v) && negb (can_open n (n_closed v)) then (AValue (front_get class (n_front v) n), v)
      else (AValue (py_getattr (VObj cls (n_eager v)) n), mkNView (n_eager v) (n_front v) (open_with n (n_closed v)))
  | Set_ n x =>
      if closed_has n (n_closed v) && negb (can_open n (n_closed v)) then (ADone (Ok tt), mkNView (n_eager v) (set_attr (n_front v) n x) (n_closed v))
      else match assign_attr (map plain_node class) (n_eager v) n x with
           | Ok E' => (ADone (Ok tt), mkNView E' (n_front v) (open_with n (n_closed v)))
           | Err e => (ADone (Err e), v)
           end
  | ToBytes =>
      let r := write_to_string h (MStruct cls cctx (map plain_node class)) (VObj cls (n_eager v)) in
      (ABytes r, mkNView (n_eager v) (n_front v)
                   match r with Ok _ => [] | Err _ => opened (reached_all h (n_eager v) class []) (n_closed v) end)
  end.
Fixpoint history_nview (h : host) (cls : name) (cctx : option ctx) (class : list node) (us : list use) (v : nview) : list answer :=
  match us with
  | [] => []
  | u :: r => let '(x, v') := use_nview h cls cctx class u v in x :: history_nview h cls cctx class r v'
  end.

(** An object that was just read: the outer containers are closed; in front are the defaults of what is no field of a lazy container. *)
Definition nest_read_view (class : list node) (E : attrs) : nview :=
  mkNView E (filter (fun p => negb (is_named class (fst p))) (new_attrs (map plain_node class) [])) (direct class).
