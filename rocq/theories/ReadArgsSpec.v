(** Vocabulary for extra arguments of create_from_stream. *)
From Verif Require Import Base IntCodec BitStringIO Stream MinMax Marshal FieldSpec.
From Coq Require Import ZArith List Bool String.
Import ListNotations.
Open Scope Z_scope.

(** The same definition with other defaults: [kw] where it has the name of the field.  The lengths of strings, the sizes of
    arrays counted in bytes and the keys of selectors are left alone. *)
Definition default_of (kw : attrs) (n : name) (d : value) : value := match lookup kw n with Some v => v | None => d end.
Definition bit_default (kw : attrs) (b : bitfield) : bitfield :=
  match b with BField n m d => BField n m (default_of kw n d) | _ => b end.
Fixpoint with_defaults (kw : attrs) (m : marshal) : marshal :=
  match m with
  | MVarArr sz el => MVarArr (with_defaults kw sz) (with_defaults kw el)
  | MFixArr n el => MFixArr n (with_defaults kw el)
  | MSumArr sz el => MSumArr sz (with_defaults kw el)
  | MMap tbl m' => MMap tbl (with_defaults kw m')
  | MStruct cls cctx fs => MStruct cls cctx (map (field_with_default kw) fs)
  | MSel key mapping d => MSel key (map (fun p => (fst p, with_defaults kw (snd p))) mapping) (option_map (with_defaults kw) d)
  | MFunSel choices func mm => MFunSel (map (with_defaults kw) choices) func mm
  | _ => m
  end
with field_with_default (kw : attrs) (f : field) : field :=
  match f with
  | FField n m d => FField n (with_defaults kw m) (default_of kw n d)
  | FAnon m => FAnon (with_defaults kw m)
  | FConst n m k => FConst n (with_defaults kw m) k
  | FOpt n m pr d => FOpt n (with_defaults kw m) pr (default_of kw n d)
  | FGroup fs => FGroup (map (field_with_default kw) fs)
  | FBits bs => FBits (map (bit_default kw) bs)
  | FPosBits size bs => FPosBits size (map (bit_default kw) bs)
  end.

(** In every struct in the definition the names of fields and constants are distinct. *)
Fixpoint distinct_names (m : marshal) : Prop :=
  match m with
  | MVarStr sz _ _ => distinct_names sz
  | MVarArr sz el | MSumArr sz el => distinct_names sz /\ distinct_names el
  | MFixArr _ el => distinct_names el
  | MMap _ m' => distinct_names m'
  | MStruct _ _ fs =>
      NoDup (flat_map stored_names fs ++ map fst (class_attrs fs))
      /\ (fix go (fs : list field) : Prop := match fs with [] => True | f :: r => distinct_in f /\ go r end) fs
  | MSel key mapping d =>
      distinct_names key
      /\ (fix go (l : list (value * marshal)) : Prop := match l with [] => True | (_, m') :: r => distinct_names m' /\ go r end) mapping
      /\ match d with Some m' => distinct_names m' | None => True end
  | MFunSel choices _ _ =>
      (fix go (l : list marshal) : Prop := match l with [] => True | m' :: r => distinct_names m' /\ go r end) choices
  | _ => True
  end
with distinct_in (f : field) : Prop :=
  match f with
  | FField _ m _ | FAnon m | FConst _ m _ | FOpt _ m _ _ => distinct_names m
  | FGroup fs => (fix go (fs : list field) : Prop := match fs with [] => True | f :: r => distinct_in f /\ go r end) fs
  | FBits _ | FPosBits _ _ => True
  end.

(** Definitions that look neither at the context nor at the object they are part of, and leave no field out. *)
Fixpoint unconditional (m : marshal) : Prop :=
  match m with
  | MCall _ | MPtr _ | MFunSel _ _ _ => False
  | MVarStr sz _ _ => unconditional sz
  | MVarArr sz el | MSumArr sz el => unconditional sz /\ unconditional el
  | MFixArr _ el => unconditional el
  | MMap _ m' => unconditional m'
  | MStruct _ _ fs => (fix go (fs : list field) : Prop := match fs with [] => True | f :: r => unconditional_field f /\ go r end) fs
  | MSel key mapping d =>
      unconditional key
      /\ (fix go (l : list (value * marshal)) : Prop := match l with [] => True | (_, m') :: r => unconditional m' /\ go r end) mapping
      /\ match d with Some m' => unconditional m' | None => True end
  | _ => True
  end
with unconditional_field (f : field) : Prop :=
  match f with
  | FField _ m _ | FAnon m | FConst _ m _ => unconditional m
  | FOpt _ _ _ _ => False
  | FGroup fs => (fix go (fs : list field) : Prop := match fs with [] => True | f :: r => unconditional_field f /\ go r end) fs
  | FBits _ | FPosBits _ _ => True
  end.

(** The names of all fields of all structs in the definition that extra arguments reach. *)
Fixpoint all_names (m : marshal) : list name :=
  match m with
  | MVarArr sz el => all_names sz ++ all_names el
  | MFixArr _ el | MSumArr _ el => all_names el
  | MMap _ m' => all_names m'
  | MStruct _ _ fs => flat_map names_in fs
  | MSel _ mapping d => flat_map (fun p => all_names (snd p)) mapping ++ match d with Some m' => all_names m' | None => [] end
  | MFunSel choices _ _ => flat_map all_names choices
  | _ => []
  end
with names_in (f : field) : list name :=
  match f with
  | FField n m _ | FOpt n m _ _ => n :: all_names m
  | FAnon m | FConst _ m _ => all_names m
  | FGroup fs => flat_map names_in fs
  | FBits bs | FPosBits _ bs => flat_map (fun b => match b with BField n _ _ => [n] | _ => [] end) bs
  end.

(** No number gets the extra arguments. *)
Fixpoint no_numbers (m : marshal) : Prop :=
  match m with
  | MInt _ | MFloat _ => False
  | MVarArr sz el => no_numbers sz /\ no_numbers el
  | MFixArr _ el | MSumArr _ el => no_numbers el
  | MMap _ m' => no_numbers m'
  | MStruct _ _ fs => (fix go (fs : list field) : Prop := match fs with [] => True | f :: r => no_numbers_in f /\ go r end) fs
  | MSel _ mapping d =>
      (fix go (l : list (value * marshal)) : Prop := match l with [] => True | (_, m') :: r => no_numbers m' /\ go r end) mapping
      /\ match d with Some m' => no_numbers m' | None => True end
  | MFunSel choices _ _ =>
      (fix go (l : list marshal) : Prop := match l with [] => True | m' :: r => no_numbers m' /\ go r end) choices
  | _ => True
  end
with no_numbers_in (f : field) : Prop :=
  match f with
  | FField _ m _ | FAnon m | FConst _ m _ | FOpt _ m _ _ => no_numbers m
  | FGroup fs => (fix go (fs : list field) : Prop := match fs with [] => True | f :: r => no_numbers_in f /\ go r end) fs
  | FBits _ | FPosBits _ _ => True
  end.

(** Whatever the input, a number gets them. *)
Fixpoint has_number (m : marshal) : Prop :=
  match m with
  | MInt _ | MFloat _ => True
  | MVarArr sz _ => has_number sz
  | MFixArr n el => 0 < n /\ has_number el
  | MMap _ m' => has_number m'
  | MStruct _ _ fs => (fix go (fs : list field) : Prop := match fs with [] => False | f :: r => has_number_in f \/ go r end) fs
  | _ => False
  end
with has_number_in (f : field) : Prop :=
  match f with
  | FField _ m _ | FAnon m | FConst _ m _ => has_number m
  | FGroup fs => (fix go (fs : list field) : Prop := match fs with [] => False | f :: r => has_number_in f \/ go r end) fs
  | FOpt _ _ _ _ | FBits _ | FPosBits _ _ => False
  end.
