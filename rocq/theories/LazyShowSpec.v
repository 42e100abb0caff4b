(** Vocabulary for printing objects with lazy containers. *)
From Verif Require Import Base IntCodec Stream MinMax Marshal FieldSpec Repr Lazy LazySpec.
From Coq Require Import ZArith List Bool String.
Import ListNotations.
Open Scope string_scope.
Open Scope Z_scope.

(** The object after some uses: with laziness, and without. *)
Fixpoint after_lazy (h : host) (cls : name) (cctx : option ctx) (items : list item) (us : list use) (o : lobj) : lobj :=
  match us with [] => o | u :: r => after_lazy h cls cctx items r (snd (use_lazy h cls cctx items u o)) end.
Fixpoint after_eager (h : host) (cls : name) (cctx : option ctx) (fs : list field) (us : list use) (a : attrs) : attrs :=
  match us with [] => a | u :: r => after_eager h cls cctx fs r (snd (use_eager h cls cctx fs u a)) end.

(** The use needs the values of the container: it looks at or assigns one of its fields, or converts the object to bytes. *)
Definition needs (u : use) (fs : list field) : bool :=
  match u with
  | Get n | Set_ n _ => existsb (fun f => match lazy_name f with Some n' => String.eqb n' n | None => false end) fs
  | ToBytes => true
  end.

(** The text of one entry of [_fields_] for an object with the values [a]; [touched] says that the values were needed. *)
Definition entry_text pd pf pr (touched : bool) (a : attrs) (i : item) : res string :=
  match i with
  | IField f => field_repr pd pf pr f a
  | ILazy fs =>
      if touched then field_repr pd pf pr (FGroup fs) a
      else let* ts := rmap_list (fun f => match lazy_name f with Some _ => Ok "<lazy>" | None => field_repr pd pf pr f a end) fs in
           Ok (join ", " ts)
  end.
(** The text of an object after the uses [us]. *)
Definition text_after pd pf pr (cls : name) (items : list item) (us : list use) (a : attrs) : res string :=
  let* ts := rmap_list (fun i => entry_text pd pf pr (match i with ILazy fs => existsb (fun u => needs u fs) us | IField _ => true end) a i) items in
  Ok (cls ++ "(" ++ join ", " ts ++ ")")%string.
