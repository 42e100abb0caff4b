(** Vocabulary for showing objects with contexts. *)
From Verif Require Import Base IntCodec Stream MinMax Marshal Repr Show PolySpec.
From Coq Require Import ZArith List Bool String.
Import ListNotations.
Open Scope Z_scope.
Open Scope string_scope.

(** [m.to_repr(v, c)] is [t]. *)
Definition shows pd pf pr op (W : classes) (m : marshal) (c : ctx) (v : value) (t : string) : Prop :=
  exists N, forall n, (N <= n)%nat -> show pd pf pr op W n m c v = Ok t.

(** The Struct classes that occur in [m] are classes of the program, and the default of a selector is such a class. *)
Fixpoint known (W : classes) (m : marshal) : Prop :=
  match m with
  | MInt _ | MFloat _ | MConst _ | MCall _ | MPtr _ | MPadStr _ _ _ | MBytePad _ _ | MVarStr _ _ _ | MMap _ _ => True
  | MVarArr _ el | MSumArr _ el | MFixArr _ el => known W el
  | MStruct cls cctx fs => W cls = Some (cctx, fs) /\
      (fix go (fs : list field) : Prop := match fs with [] => True | f :: r => known_field W f /\ go r end) fs
  | MSel _ mapping default =>
      (fix go (l : list (value * marshal)) : Prop := match l with [] => True | (_, m') :: r => known W m' /\ go r end) mapping
      /\ match default with None => True | Some d => (exists cls cctx fs, d = MStruct cls cctx fs) /\ known W d end
  | MFunSel choices _ _ =>
      (fix go (l : list marshal) : Prop := match l with [] => True | m' :: r => known W m' /\ go r end) choices
  end
with known_field (W : classes) (f : field) : Prop :=
  match f with
  | FField _ m _ | FAnon m | FConst _ m _ | FOpt _ m _ _ => known W m
  | FGroup fs => (fix go (fs : list field) : Prop := match fs with [] => True | f :: r => known_field W f /\ go r end) fs
  | FBits _ | FPosBits _ _ => True
  end.

(** A context, or the contexts of all classes, without formats for numbers. *)
Definition no_format (c : ctx) : Prop := lookup c "int_repr_format" = None /\ lookup c "float_repr_format" = None.
Definition no_class_format (W : classes) : Prop := forall cls d fs, W cls = Some (Some d, fs) -> no_format d.
(** The same classes, up to their contexts. *)
Definition same_fields (W W' : classes) : Prop := forall cls, option_map snd (W cls) = option_map snd (W' cls).
(** The format for ints that counts for the fields of a class: the caller's, or that of the class, or ['%d']. *)
Definition int_format_of (cctx : option ctx) (c : ctx) : value :=
  match lookup c "int_repr_format" with
  | Some f => f
  | None => match cctx with
            | Some d => match lookup d "int_repr_format" with Some f => f | None => fmt_d end
            | None => fmt_d
            end
  end.
