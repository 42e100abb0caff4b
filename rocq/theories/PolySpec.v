(** Vocabulary for objects written by their own class. *)
From Verif Require Import Base IntCodec Stream Marshal MarshalInd Poly.
From Coq Require Import ZArith List Bool String.
Import ListNotations.
Open Scope Z_scope.

(** [m.write_to_stream(v, stream)] succeeds and appends [enc], whatever was written before; [m.sizeof(v)] is [z]. *)
Definition writes (h : host) (W : world) (m : marshal) (v : value) (enc : list Z) : Prop :=
  exists N, forall n, (N <= n)%nat -> forall out, pwrite h W n m v out = (Ok tt, out ++ enc).
Definition sizes (W : world) (m : marshal) (v : value) (z : Z) : Prop :=
  exists N, forall n, (N <= n)%nat -> psize W n m v = Ok z.

(** The Struct classes that occur in [m] are classes of the program, and the default of a selector is such a class. *)
Fixpoint defined (W : world) (m : marshal) : Prop :=
  match m with
  | MInt _ | MFloat _ | MConst _ | MCall _ | MPtr _ | MPadStr _ _ _ | MBytePad _ _ => True
  | MVarStr sz _ _ => defined W sz
  | MVarArr sz el | MSumArr sz el => defined W sz /\ defined W el
  | MFixArr _ el => defined W el
  | MMap _ m' => defined W m'
  | MStruct cls _ fs => W cls = Some fs /\
      (fix go (fs : list field) : Prop := match fs with [] => True | f :: r => defined_field W f /\ go r end) fs
  | MSel key mapping default =>
      defined W key
      /\ (fix go (l : list (value * marshal)) : Prop := match l with [] => True | (_, m') :: r => defined W m' /\ go r end) mapping
      /\ match default with None => True | Some d => (exists cls cctx fs, d = MStruct cls cctx fs) /\ defined W d end
  | MFunSel choices _ _ =>
      (fix go (l : list marshal) : Prop := match l with [] => True | m' :: r => defined W m' /\ go r end) choices
  end
with defined_field (W : world) (f : field) : Prop :=
  match f with
  | FField _ m _ | FAnon m | FConst _ m _ | FOpt _ m _ _ => defined W m
  | FGroup fs => (fix go (fs : list field) : Prop := match fs with [] => True | f :: r => defined_field W f /\ go r end) fs
  | FBits _ | FPosBits _ _ => True
  end.

(** A marshal that is a Struct class or a selector: what may be declared for an object. *)
Definition for_objects (m : marshal) : Prop := match m with MStruct _ _ _ | MSel _ _ _ | MFunSel _ _ _ => True | _ => False end.

(** The names of the attributes that the fields are about. *)
Definition bit_names (bs : list bitfield) : list name := flat_map (fun b => match b with BField n _ _ => [n] | _ => [] end) bs.
Fixpoint attr_names (f : field) : list name :=
  match f with
  | FField n _ _ | FOpt n _ _ _ => [n]
  | FAnon _ | FConst _ _ _ => []
  | FGroup fs => flat_map attr_names fs
  | FBits bs | FPosBits _ bs => bit_names bs
  end.
Definition same_attrs (fs : list field) (a a' : attrs) : Prop := forall n, In n (flat_map attr_names fs) -> lookup a n = lookup a' n.
