(** Model of [to_repr] and [repr] of Struct objects: base.py, numeric.py, string.py, padding.py,
    array.py, struct/*.py.

    How Python prints numbers and its own objects is a parameter: [percent_d] is ['%d' % n],
    [percent_f] is ['%f' % x], [py_repr] is [repr] of an object as a whole (of an instance inside
    of it, too).  Not modelled: the contexts' own formats ([int_repr_format], [float_repr_format]);
    instances of classes the definition does not mention. *)
From Verif Require Import Base IntCodec Stream MinMax Marshal.
From Coq Require Import ZArith List Bool String.
Import ListNotations.
Open Scope Z_scope.
Open Scope string_scope.

Section Repr.
Variables (percent_d : Z -> string) (percent_f : Z -> string) (py_repr : value -> res string).

(** [", ".join(l)] *)
Fixpoint join (sep : string) (l : list string) : string :=
  match l with
  | [] => ""
  | [x] => x
  | x :: r => x ++ sep ++ join sep r
  end.
(** [format % obj] with the default formats, numeric.py:35-39, struct/bit.py:17-18, 77-78.  ['%d']
    cuts off the fraction of a float, ['%f'] makes a float of an int. *)
Definition show_int (v : value) : res string :=
  match v with
  | VInt z => Ok (percent_d z)
  | VFloat p => if float_finite p then Ok (percent_d (Z.quot (float_units p) (2 ^ 1074)))
                else Err (if float_is_nan p then ValueError else OverflowError)
  | _ => Err TypeError
  end.
Definition show_float (v : value) : res string :=
  match v with
  | VFloat p => Ok (percent_f p)
  | VInt z => let* p := double_of_int z in Ok (percent_f p)
  | _ => Err TypeError
  end.
(** struct/bit.py:17-18, 27-28, 77-78; a mapping shows its value (base.py:101-102). *)
Definition bm_repr (m : bitmarshal) (v : value) : res string :=
  match m with
  | BMBits _ | BMPos _ => show_int v
  | BMPad n => Ok ("<" ++ percent_d n ++ " bits padding>")
  | BMMap _ _ => py_repr v
  end.
(** struct/__init__.py:35-36, 69-70, struct/const.py:25-26 *)
Definition bf_repr (a : attrs) (f : bitfield) : res string :=
  let* s := bm_repr (bf_marshal f) (bf_value f a) in
  Ok (match f with
      | BField n _ _ => n ++ "=" ++ s
      | BAnon _ => s
      | BConst n _ _ => n ++ "=" ++ s ++ " (const)"
      end).

(** [marshal.to_repr(obj)] *)
Fixpoint to_repr (m : marshal) (v : value) {struct m} : res string :=
  match m with
  | MInt _ => show_int v                                  (* numeric.py:36-37 *)
  | MFloat _ => show_float v                              (* numeric.py:38-39 *)
  | MConst _ | MCall _ | MPtr _ | MMap _ _ => py_repr v   (* base.py:101-102 *)
  | MVarStr _ _ _ | MPadStr _ _ _ => py_repr v            (* string.py:55-56 *)
  | MBytePad n _ => Ok ("<" ++ percent_d n ++ " bytes padding>")   (* padding.py:16-17 *)
  | MVarArr _ el | MFixArr _ el | MSumArr _ el =>         (* array.py:5-6 *)
      let* l := py_iter v in
      let* texts := rmap_list (to_repr el) l in
      Ok ("[ " ++ join ", " texts ++ " ]")
  | MStruct cls _ fs =>                                   (* struct/__init__.py:209-215 *)
      match v with
      | VNone => Ok "<none>"
      | VObj cls' a =>
          if String.eqb cls' cls then
            let* texts := (fix go (fs : list field) : res (list string) :=
                             match fs with
                             | [] => Ok []
                             | f :: r => let* x := field_repr f a in let* xs := go r in Ok (x :: xs)
                             end) fs in
            Ok (cls ++ "(" ++ join ", " texts ++ ")")
          else Err NotModelled
      | _ => Err AttributeError
      end
  | MSel _ mapping default =>                             (* struct/selector.py:47-48 *)
      match v with
      | VObj cls' _ =>
          (fix pick (l : list (value * marshal)) : res string :=
             match l with
             | [] => match default with Some d => to_repr d v | None => Err NotModelled end
             | (_, MStruct n _ _ as m') :: r => if String.eqb n cls' then to_repr m' v else pick r
             | _ :: r => pick r
             end) mapping
      | _ => Err AttributeError
      end
  | MFunSel choices _ _ =>                                (* struct/selector.py:80-81 *)
      match v with
      | VObj cls' _ =>
          (fix pick (l : list marshal) : res string :=
             match l with
             | [] => Err NotModelled
             | (MStruct n _ _ as m') :: r => if String.eqb n cls' then to_repr m' v else pick r
             | _ :: r => pick r
             end) choices
      | _ => Err AttributeError
      end
  end
(** [field.to_repr(obj)]; an optional field is no exception (struct/optional.py). *)
with field_repr (f : field) (a : attrs) {struct f} : res string :=
  match f with
  | FField n m d | FOpt n m _ d =>                        (* struct/__init__.py:69-70 *)
      let* s := to_repr m (field_value n d a) in Ok (n ++ "=" ++ s)
  | FAnon m => to_repr m VNone                            (* struct/__init__.py:35-36, 47-48 *)
  | FConst n m k =>                                       (* struct/const.py:25-26 *)
      let* s := to_repr m k in Ok (n ++ "=" ++ s ++ " (const)")
  | FGroup fs =>                                          (* struct/__init__.py:102-103 *)
      let* texts := (fix go (fs : list field) : res (list string) :=
                       match fs with
                       | [] => Ok []
                       | f :: r => let* x := field_repr f a in let* xs := go r in Ok (x :: xs)
                       end) fs in
      Ok (join ", " texts)
  | FBits bs | FPosBits _ bs =>
      let* texts := rmap_list (bf_repr a) bs in Ok (join ", " texts)
  end.
End Repr.
