(** Which definitions have the property that every object read through them can be printed. *)
From Verif Require Import Base IntCodec Stream MinMax Marshal FieldSpec.
From Coq Require Import ZArith List Bool String.
Import ListNotations.
Open Scope Z_scope.

(** A value this type can print without having read it: what an optional field shows when it was
    left out, and what an anonymous field (whose value is None) shows. *)
Definition prints_unread (m : marshal) (v : value) : Prop :=
  match m with
  | MInt _ => exists z, v = VInt z
  | MFloat _ => exists p, v = VFloat p
  | MVarArr _ _ | MFixArr _ _ | MSumArr _ _ => v = VList []
  | MStruct _ _ _ => v = VNone
  | MSel _ _ _ | MFunSel _ _ _ => False
  | MConst _ | MCall _ | MPtr _ | MVarStr _ _ _ | MPadStr _ _ _ | MBytePad _ _ | MMap _ _ => True
  end.
Definition bits_print_unread (b : bitfield) : Prop :=
  match b with
  | BAnon (BMPad _) | BAnon (BMMap _ _) => True
  | BAnon _ => False
  | _ => True
  end.
Definition class_name (m : marshal) : option name := match m with MStruct cls _ _ => Some cls | _ => None end.

Fixpoint printable (m : marshal) : Prop :=
  match m with
  | MVarArr _ el | MFixArr _ el | MSumArr _ el => printable el
  | MStruct _ _ fs =>
      NoDup (map fst (class_attrs fs) ++ flat_map stored_names fs)        (* every name once *)
      /\ (fix all (fs : list field) : Prop := match fs with [] => True | f :: r => printable_field f /\ all r end) fs
  | MSel _ mapping default =>           (* the default is the only struct a selector can read *)
      match default with
      | None => True
      | Some d => printable d /\ class_name d <> None /\ ~ In (class_name d) (map (fun p => class_name (snd p)) mapping)
      end
  | MFunSel choices _ _ =>
      NoDup (map class_name choices) /\ ~ In None (map class_name choices)
      /\ (fix all (l : list marshal) : Prop := match l with [] => True | m' :: r => printable m' /\ all r end) choices
  | _ => True
  end
with printable_field (f : field) : Prop :=
  match f with
  | FField _ m _ | FConst _ m _ => printable m
  | FAnon m => prints_unread m VNone
  | FOpt _ m _ d => printable m /\ prints_unread m d
  | FGroup fs => (fix all (fs : list field) : Prop := match fs with [] => True | f :: r => printable_field f /\ all r end) fs
  | FBits bs | FPosBits _ bs => Forall bits_print_unread bs
  end.
