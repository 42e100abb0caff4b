(** Model of the texts of references: __repr__ and __safe_repr__ of buffer/reference/*.py and
    field_reference_builder.py, utils/safe_repr.py, in Python 3.

    A reference is given by its shape.  Parameters: [broken] is the text "(type<id> repr error)" of a
    reference (reference.py:113), [quote] the repr of a str, [generator] the repr of a generator
    object, [function] that of a function.  Simplification: the shapes are trees. *)
From Verif Require Import Base.
From Coq Require Import ZArith List Bool String Ascii.
Import ListNotations.
Open Scope string_scope.
Open Scope list_scope.

Inductive rop : Type := OAdd | OSub | OMul | OTrueDiv | OFloorDiv | OLe | OLt | OGe | OGt | OEq | ONe.

Inductive rshape : Type :=
| TConst (t : res string)                      (* ObjectReference; the repr of the object *)
| TStr (s : string)                            (* ObjectReference of a str *)
| TFunc                                        (* ObjectReference of a function or method of Python *)
| TRefTo (r : rshape)                          (* ObjectReference of a reference *)
| TField (n : string)                          (* FieldReference *)
| TSelf (n : string)                           (* FieldOrAttrReference *)
| TNeg (r : rshape)                            (* NumericUnaryExpression *)
| TBin (o : rop) (a b : rshape)                (* NumericBinaryExpression *)
| TNum (r : rshape)                            (* NumericCastReference *)
| TCall (f : rshape) (args : list rshape) (kwargs : list (string * rshape))   (* FuncCallReference *)
| TLen (r : rshape) | TMin (l : list rshape) | TMax (l : list rshape)
| TGet (o n : rshape) | TSet (o n v : rshape) | TAssign (o n v : rshape)
| TSlice (a b : rshape) | TByte (a : rshape) | TRanges (l : list rshape)
| TBit (p a : rshape) | TBits (p a b : rshape)
| TCtx | TInputLen | TTotal
| TAfter (n : string)                          (* AfterFieldReference *)
| TPackPos (f p : rshape) | TUnpackPos (f p : rshape) | TPart (p : rshape)
| TUnpack (u : rshape)                         (* FieldUnpackerReference; [u] is a [TUnpacker] *)
| TUnpacker (f : rshape) (args : list rshape) (kwargs : list (string * rshape))   (* UnpackerReference *)
| TByteLen (l : list rshape) | TPackByteLen (l : list rshape).

(** reference.py:8-18 OPERATOR_TO_SYMBOL, or else the repr of the function of module operator. *)
Definition op_symbol (o : rop) : string :=
  match o with
  | OAdd => "+" | OSub => "-" | OLe => "<=" | OLt => "<" | OGe => ">=" | OGt => ">" | OEq => "==" | ONe => "!="
  | OMul => "<built-in function mul>" | OTrueDiv => "<built-in function truediv>" | OFloorDiv => "<built-in function floordiv>"
  end.

Fixpoint chars (s : string) : list string :=
  match s with EmptyString => [] | String c r => String c EmptyString :: chars r end.

Section Text.
Variable broken : rshape -> string.
Variable quote : string -> string.
Variable generator function : string.

(** func_call.py:39-43 *)
Definition args_text (l : list string) : string := String.concat ", " l.
Definition kwargs_text (l : list (string * string)) : string := String.concat ", " (map (fun p => fst p ++ "=" ++ snd p)%string l).
(** func_call.py:27-37, without the name of the function; there is one ")" too many. *)
Definition call_text (f args kwargs : string) : string := (f ++ "(" ++ String.concat ", " [args; kwargs] ++ "))")%string.

(** reference.py:109-113: what __safe_repr__ gives, or else [broken]. *)
Fixpoint ref_text (r : rshape) : string :=
  match r with
  | TConst t => match t with Ok s => s | Err _ => broken r end                     (* reference.py:304-308 *)
  | TStr s => quote s
  | TFunc => function
  | TRefTo a => "ref(" ++ ref_text a ++ ")"
  | TField n => "field_ref(" ++ quote n ++ ")"                                      (* field.py:38-39 *)
  | TSelf n => "field_or_attr_ref(" ++ quote n ++ ")"                               (* field_or_attr.py:20-21 *)
  | TNeg a => "-" ++ "(" ++ ref_text a ++ ")"                                       (* reference.py:262-264 *)
  | TBin o a b => "(" ++ ref_text a ++ " " ++ op_symbol o ++ " " ++ ref_text b ++ ")"   (* reference.py:283-285 *)
  | TNum a => "numeric(" ++ ref_text a ++ ")"                                       (* reference.py:319-320 *)
  | TCall f args kwargs =>                                                          (* func_call.py:24-37; no [func_name] in Python 3 *)
      match f with
      | TFunc => broken r
      | _ => "func_ref(" ++ call_text (ref_text f) (args_text (map ref_text args)) (kwargs_text (map (fun p => (fst p, ref_text (snd p))) kwargs)) ++ ")"
      end
  | TLen a => "len_ref(" ++ ref_text a ++ ")"                                       (* builtins.py:11-12 *)
  | TMin l => "min_ref(" ++ args_text (map ref_text l) ++ ")"                       (* builtins.py:56-57 *)
  | TMax l => "max_ref(" ++ args_text (map ref_text l) ++ ")"                       (* builtins.py:65-66 *)
  | TGet o n => ref_text o ++ "." ++ (match n with TStr s => s | _ => ref_text n end)   (* builtins.py:21-24, reference.py:21-26 *)
  | TSet o n v => "(void) " ++ ref_text o ++ "." ++ (match n with TStr s => s | _ => ref_text n end) ++ " = " ++ ref_text v   (* builtins.py:33-36 *)
  | TAssign o n v => ref_text o ++ "." ++ (match n with TStr s => s | _ => ref_text n end) ++ " = " ++ ref_text v   (* builtins.py:46-48 *)
  | TSlice a b => "[" ++ ref_text a ++ ":" ++ ref_text b ++ "]"                     (* reference/range.py:73-74 *)
  | TByte a => ref_text a                                                           (* reference/range.py:88-89 *)
  | TRanges l => "[" ++ String.concat ", " (chars generator) ++ "]"                 (* reference/range.py:39-40: the characters of the repr of a generator *)
  | TBit p a => ref_text p ++ ".bits[" ++ ref_text a ++ "]"                         (* reference/range.py:128-129 *)
  | TBits p a b => ref_text p ++ ".bits[" ++ ref_text a ++ ":" ++ ref_text b ++ "]" (* reference/range.py:179-180 *)
  | TCtx => "ctx"                                                                   (* contexts.py:52-53 *)
  | TInputLen => "len(input_buffer)"                                                (* contexts.py:70-71 *)
  | TTotal => "total_size"                                                          (* total_size.py:39-40 *)
  | TAfter _ => broken r                                                            (* after_field.py:29-30: Context is not imported *)
  | TPackPos _ _ => broken r                                                        (* field_reference_builder.py:39-40: no attribute position_list *)
  | TUnpackPos f p => "unpack_abs_position(field=" ++ ref_text f ++ ", " ++ ref_text p ++ ")"   (* field_reference_builder.py:65-66 *)
  | TPart p => "input_buffer[" ++ ref_text p ++ "]"                                 (* field_reference_builder.py:77-78 *)
  | TUnpack u =>                                                                    (* field_reference_builder.py:98-99 *)
      match u with
      | TUnpacker TFunc _ _ => broken r
      | TUnpacker f args kwargs => "field_unpack(" ++ call_text (ref_text f) (args_text ("buffer" :: "position" :: skipn 2 (map ref_text args)))
                                     (kwargs_text (map (fun p => (fst p, ref_text (snd p))) kwargs)) ++ ")"
      | _ => broken r
      end
  | TUnpacker f args kwargs =>                                                      (* field_reference_builder.py:86-87 *)
      match f with
      | TFunc => broken r
      | _ => "func_ref(" ++ call_text (ref_text f) (args_text ("buffer" :: "position" :: skipn 2 (map ref_text args)))
               (kwargs_text (map (fun p => (fst p, ref_text (snd p))) kwargs)) ++ ")"
      end
  | TByteLen l => "byte_length_ref(" ++ args_text (map ref_text l) ++ ")"           (* field_reference_builder.py:106-107 *)
  | TPackByteLen l => "pack_byte_length_ref(" ++ args_text (map ref_text l) ++ ")"  (* field_reference_builder.py:121-122 *)
  end%string.
End Text.
