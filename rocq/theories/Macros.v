(** Model of the functions that definitions are written with: struct_macros.py, string_macros.py,
    array_macros.py.  (The numeric ones are in Formats.v, Lazy in Lazy.v, selectors in Marshal.v.) *)
From Verif Require Import Base IntCodec Stream MinMax Marshal.
From Coq Require Import ZArith List Bool String.
Import ListNotations.
Open Scope Z_scope.

(** ** Bits *)
(** The second argument of BitField; [Bits[a:b, c:d]] is the list of the slices
    (struct_macros.py:62-67).  Simplification: slices have both bounds. *)
Inductive bitsize : Type := WInt (n : Z) | WSlice (s : Z * Z) | WList (l : list (Z * Z)).
(** struct_macros.py:48-51 *)
Definition BitField (n : name) (w : bitsize) (default : value) : bitfield :=
  match w with
  | WInt k => BField n (BMBits k) default
  | WSlice s => BField n (BMPos [s]) default
  | WList l => BField n (BMPos l) default
  end.
(** struct_macros.py:53-54 *)
Definition BitFlag (n : name) (default : value) : bitfield := BField n (BMBits 1) default.
(** struct_macros.py:56-57 *)
Definition BitPadding (k : Z) : bitfield := BAnon (BMPad k).

Definition is_positional (f : bitfield) : bool := match bf_marshal f with BMPos _ => true | _ => false end.
(** struct_macros.py:41-46 *)
Definition BitFields (fs : list bitfield) : res field :=
  if existsb is_positional fs then
    let* _ := passert (forallb is_positional fs) in
    let* size := posbits_container_size None fs in Ok (FPosBits size fs)
  else
    let* _ := bits_container_check fs in Ok (FBits fs).

(** ** Fields with a default that is checked when they are defined *)
Definition check_default (default : value) (ok : Z -> bool) : res unit :=
  match default with
  | VNone => Ok tt
  | v => let* n := py_len v in passert (ok n)
  end.
(** string_macros.py:4-7, 12 (FixedSizeString); the size is an integer *)
Definition PaddedString (n : name) (size : Z) (padding : value) (d : paddir) (default : value) : res field :=
  let* _ := check_default default (fun l => l <=? size) in Ok (FField n (MPadStr size padding d) default).
(** string_macros.py:15-18, string.py:80-82 *)
Definition FixedSizeBuffer (n : name) (size : Z) (default : value) : res field :=
  let* _ := check_default default (fun l => l =? size) in Ok (FField n (MPadStr size (VBytes []) PNone) default).
(** string_macros.py:9-10, 20-21, string.py:76-78: not checked *)
Definition VarSizeString (n : name) (sz : marshal) (padding : value) (d : paddir) (default : value) : res field :=
  Ok (FField n (MVarStr sz padding d) default).
Definition VarSizeBuffer (n : name) (sz : marshal) (default : value) : res field :=
  Ok (FField n (MVarStr sz (VBytes []) PNone) default).
(** array_macros.py:4-13 *)
Definition FixedSizeArray (n : name) (k : Z) (el : marshal) (default : value) : res field :=
  let* _ := check_default default (fun l => l =? k) in Ok (FField n (MFixArr k el) default).
Definition SumSizeArray (n : name) (sz el : marshal) (default : value) : res field := Ok (FField n (MSumArr sz el) default).
Definition VarSizeArray (n : name) (sz el : marshal) (default : value) : res field := Ok (FField n (MVarArr sz el) default).
(** struct_macros.py:59-60, padding.py:4-8 *)
Definition BytePadding (size : Z) (char : list Z) : res field :=
  match char with [c] => Ok (FAnon (MBytePad size c)) | _ => Err AssertionError end.

(** ** Constants: struct_macros.py:14-39 *)
(** The arguments of ConstField: a marshal, a Struct object of a given class, or something else
    (a number, a Struct class, one of the functions that define fields). *)
Inductive constarg : Type :=
| CMarshal (m : marshal) (v : value)                  (* a marshal object; [v] is it as a value *)
| CObject (cls : marshal) (v : value)                 (* an instance of a Struct class *)
| COther (v : value).
Definition arg_value (a : constarg) : value := match a with CMarshal _ v | CObject _ v | COther v => v end.
Definition ConstField (n : name) (value : constarg) (marshal : option constarg) : res field :=
  match (match marshal with None => value | Some m => m end) with
  | CObject cls _ => Ok (FConst n cls (arg_value value))
  | CMarshal m _ => Ok (FConst n m (arg_value value))
  | COther _ => Err InstructError
  end.
