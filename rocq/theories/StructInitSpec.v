(** Vocabulary for the properties of constructors. *)
From Verif Require Import Base IntCodec Stream MinMax Marshal FieldSpec StructInit.
From Coq Require Import ZArith List Bool String.
Import ListNotations.
Open Scope Z_scope.

(** The fields that objects store, with their defaults. *)
Fixpoint stored_defaults (f : field) : list (name * value) :=
  match f with
  | FField n _ d | FOpt n _ _ d => [(n, d)]
  | FAnon _ | FConst _ _ _ => []
  | FGroup fs => flat_map stored_defaults fs
  | FBits bs | FPosBits _ bs => flat_map (fun b => match b with BField n _ d => [(n, d)] | _ => [] end) bs
  end.
Definition field_name (fs : list field) (n : name) : Prop := In n (flat_map stored_names fs).

(** User code that does not touch the attribute [n]: it neither assigns it nor hands it to the
    constructor of the base class. *)
Inductive leaves (n : name) : iprog -> Prop :=
| lv_done r : leaves n (IDone r)
| lv_get n' k : (forall o, leaves n (k o)) -> leaves n (IGet n' k)
| lv_set n' v k : n' <> n -> (forall r, leaves n (k r)) -> leaves n (ISet n' v k)
| lv_super args kw k : ~ In n (map fst kw) -> (forall r, leaves n (k r)) -> leaves n (ISuper args kw k).
Definition level_leaves (n : name) (l : option user_init) : Prop :=
  match l with None => True | Some ui => forall b, leaves n (ui_body ui b) end.

(** A call with keyword arguments only, to a function that does not take arbitrary ones. *)
Definition call_fits (fs : list field) (p : params) (kw : kwds) : Prop :=
  (forall n, In n (map fst kw) -> field_name fs n \/ In n (map fst (p_pos p)) \/ In n (map fst (p_kwonly p)))
  /\ (forall n, In (n, None) (p_pos p) -> In n (map fst kw))
  /\ (forall n, In (n, None) (p_kwonly p) -> In n (map fst kw) /\ ~ field_name fs n).
(** A call with positional arguments as well, again to a function that does not take arbitrary keyword
    arguments: the first parameters get them, in order, and must not be given by keyword too. *)
Definition args_fit (fs : list field) (p : params) (args : list value) (kw : kwds) : Prop :=
  (List.length args <= List.length (p_pos p) \/ p_varargs p = true)%nat
  /\ (forall n, In n (firstn (List.length args) (map fst (p_pos p))) -> ~ In n (map fst kw))
  /\ (forall n, In n (map fst kw) -> field_name fs n \/ In n (map fst (p_pos p)) \/ In n (map fst (p_kwonly p)))
  /\ (forall n, In (n, None) (skipn (List.length args) (p_pos p)) -> In n (map fst kw))
  /\ (forall n, In (n, None) (p_kwonly p) -> In n (map fst kw) /\ ~ field_name fs n).

(** User code that neither assigns the attribute [n] nor calls the constructor of the base class. *)
Inductive quiet (n : name) : iprog -> Prop :=
| qu_done r : quiet n (IDone r)
| qu_get n' k : (forall o, quiet n (k o)) -> quiet n (IGet n' k)
| qu_set n' v k : n' <> n -> (forall r, quiet n (k r)) -> quiet n (ISet n' v k).
(** User code that certainly assigns [v] to the attribute [n], by itself or by calling the constructor
    of the base class, and is quiet about [n] from then on; [up] are the constructors of the bases. *)
Inductive sets (n : name) (v : value) : list (option user_init) -> iprog -> Prop :=
| se_get up n' k : (forall o, sets n v up (k o)) -> sets n v up (IGet n' k)
| se_other up n' w k : (forall r, sets n v up (k r)) -> sets n v up (ISet n' w k)
| se_here up k : (forall r, quiet n (k r)) -> sets n v up (ISet n v k)
| se_later up args kw k : (forall r, sets n v up (k r)) -> sets n v up (ISuper args kw k)
| se_super up args kw k : base_sets n v up args kw -> (forall r, quiet n (k r)) -> sets n v up (ISuper args kw k)
with base_sets (n : name) (v : value) : list (option user_init) -> list value -> kwds -> Prop :=
| bs_inherit up args kw : base_sets n v up args kw -> base_sets n v (None :: up) args kw
| bs_user ui up args kw b : bind_call (ui_params ui) args kw = Ok b -> sets n v up (ui_body ui b) ->
    base_sets n v (Some ui :: up) args kw.
