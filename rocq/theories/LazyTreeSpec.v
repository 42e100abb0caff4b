(** Specification vocabulary for lazy containers in field lists. *)
From Verif Require Import Base IntCodec BitStringIO Stream MinMax Marshal Lazy LazySpec LazyTree.
From Coq Require Import ZArith List Bool String.
Import ListNotations.
Open Scope Z_scope.

(** The declaration without the field lists: what is in them, in the order in which it is declared. *)
Fixpoint leaves (t : tree) : list item :=
  match t with
  | TItem i => [i]
  | TList l => flat_map leaves l
  end.

(** The declaration with a field list in the place of each lazy container. *)
Fixpoint plain_tree (t : tree) : field :=
  match t with
  | TItem i => eager i
  | TList l => FGroup (map plain_tree l)
  end.
(** ... as the [_fields_] of a class. *)
Definition plain_fields (t : tree) : list field :=
  match t with
  | TItem i => [eager i]
  | TList l => map plain_tree l
  end.

(** What a program does with an object, and what it gets. *)
Definition use_tree (h : host) (cls : name) (cctx : option ctx) (t : tree) (u : use) (o : lobj) : answer * lobj :=
  match u with
  | Get n => let '(r, o') := tree_get h cls cctx t n o in (AValue r, o')
  | Set_ n v => let '(r, o') := tree_set h cls cctx t n v o in (ADone r, o')
  | ToBytes => let '(r, o') := tree_to_bytes h cls cctx t o in (ABytes r, o')
  end.
Fixpoint history_tree (h : host) (cls : name) (cctx : option ctx) (t : tree) (us : list use) (o : lobj) : list answer :=
  match us with
  | [] => []
  | u :: r => let '(x, o') := use_tree h cls cctx t u o in x :: history_tree h cls cctx t r o'
  end.

(** No field list is empty. *)
Fixpoint no_empty_list (t : tree) : Prop :=
  match t with
  | TItem _ => True
  | TList l => l <> [] /\ fold_right (fun t P => no_empty_list t /\ P) True l
  end.
