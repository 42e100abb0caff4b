(** Model of [to_repr] with contexts: the formats for numbers that a context may hold, and objects shown by their own
    class.  [Repr.to_repr] is the case of the default formats and of objects of the declared class.

    [other_percent f v] is [f % v] for formats [f] other than ['%d'] and ['%f'] (any Python value); the other parameters
    are as in Repr.v.  The classes of the program are given by [W]: the _context_ of a Struct class and its fields. *)
From Verif Require Import Base IntCodec Stream MinMax Marshal Repr.
From Coq Require Import ZArith List Bool String.
Import ListNotations.
Open Scope Z_scope.
Open Scope string_scope.

Definition classes : Type := name -> option (option ctx * list field).

Section Show.
Variables (percent_d : Z -> string) (percent_f : Z -> string) (py_repr : value -> res string) (other_percent : value -> value -> res string).
Variable W : classes.

(** ['%d'], ['%f'] as values, and the operator [%] *)
Definition fmt_d : value := VStr [37; 100].
Definition fmt_f : value := VStr [37; 102].
Definition percent (f v : value) : res string :=
  match f with
  | VStr [37; 100] => show_int percent_d v
  | VStr [37; 102] => show_float percent_f v
  | _ => other_percent f v
  end.
(** [context.get('int_repr_format', '%d') % obj], numeric.py:36-39, struct/bit.py:17-18, 77-78 *)
Definition ctx_default (c : ctx) (k : name) (d : value) : value := match lookup c k with Some v => v | None => d end.
Definition int_text (c : ctx) (v : value) : res string := percent (ctx_default c "int_repr_format" fmt_d) v.
Definition float_text (c : ctx) (v : value) : res string := percent (ctx_default c "float_repr_format" fmt_f) v.

(** struct/bit.py:17-18, 27-28, 77-78; base.py:101-102 *)
Definition bm_text (c : ctx) (m : bitmarshal) (v : value) : res string :=
  match m with
  | BMBits _ | BMPos _ => int_text c v
  | BMPad n => Ok ("<" ++ percent_d n ++ " bits padding>")
  | BMMap _ _ => py_repr v
  end.
(** struct/__init__.py:35-36, 69-70, struct/const.py:25-26 *)
Definition bf_text (c : ctx) (a : attrs) (f : bitfield) : res string :=
  let* s := bm_text c (bf_marshal f) (bf_value f a) in
  Ok (match f with
      | BField n _ _ => n ++ "=" ++ s
      | BAnon _ => s
      | BConst n _ _ => n ++ "=" ++ s ++ " (const)"
      end).

(** [marshal.to_repr(obj, context)], given [ro], which shows an object by its own class. *)
Section By.
Variable ro : name -> attrs -> ctx -> res string.
Fixpoint text (m : marshal) (c : ctx) (v : value) {struct m} : res string :=
  match m with
  | MInt _ => int_text c v                                (* numeric.py:36-37 *)
  | MFloat _ => float_text c v                            (* numeric.py:38-39 *)
  | MConst _ | MCall _ | MPtr _ | MMap _ _ => py_repr v   (* base.py:101-102 *)
  | MVarStr _ _ _ | MPadStr _ _ _ => py_repr v            (* string.py:55-56 *)
  | MBytePad n _ => Ok ("<" ++ percent_d n ++ " bytes padding>")   (* padding.py:16-17 *)
  | MVarArr _ el | MFixArr _ el | MSumArr _ el =>         (* array.py:5-6 *)
      let* l := py_iter v in
      let* texts := rmap_list (text el c) l in
      Ok ("[ " ++ join ", " texts ++ " ]")
  | MStruct _ _ _ =>                                      (* struct/__init__.py:209-215: [cls = type(obj)] *)
      match v with VNone => Ok "<none>" | VObj cls a => ro cls a c | _ => Err AttributeError end
  | MSel _ _ _ | MFunSel _ _ _ =>                         (* struct/selector.py:47-48, 80-81 *)
      match v with VObj cls a => ro cls a c | _ => Err AttributeError end
  end.
(** [field.to_repr(obj, context)] *)
Fixpoint field_text (f : field) (c : ctx) (a : attrs) {struct f} : res string :=
  match f with
  | FField n m d | FOpt n m _ d =>                        (* struct/__init__.py:69-70 *)
      let* s := text m c (field_value n d a) in Ok (n ++ "=" ++ s)
  | FAnon m => text m c VNone                             (* struct/__init__.py:35-36, 47-48 *)
  | FConst n m k =>                                       (* struct/const.py:25-26 *)
      let* s := text m c k in Ok (n ++ "=" ++ s ++ " (const)")
  | FGroup fs =>                                          (* struct/__init__.py:102-103 *)
      let* texts := (fix go (fs : list field) : res (list string) :=
                       match fs with
                       | [] => Ok []
                       | f :: r => let* x := field_text f c a in let* xs := go r in Ok (x :: xs)
                       end) fs in
      Ok (join ", " texts)
  | FBits bs | FPosBits _ bs =>
      let* texts := rmap_list (bf_text c a) bs in Ok (join ", " texts)
  end.
Fixpoint fields_text (fs : list field) (c : ctx) (a : attrs) : res (list string) :=
  match fs with
  | [] => Ok []
  | f :: r => let* x := field_text f c a in let* xs := fields_text r c a in Ok (x :: xs)
  end.
End By.

(** [type(obj).to_repr(obj, context)], struct/__init__.py:209-215, 217-225; the number bounds the depth of objects. *)
Fixpoint obj_text (n : nat) (cls : name) (a : attrs) (c : ctx) : res string :=
  match n with
  | O => Err Diverges
  | S k => match W cls with
           | Some (cctx, fs) =>
               let* texts := fields_text (obj_text k) fs (get_updated_context cctx (VObj cls a) c) a in
               Ok (cls ++ "(" ++ join ", " texts ++ ")")
           | None => Err AttributeError
           end
  end.
Definition show (n : nat) (m : marshal) (c : ctx) (v : value) : res string := text (obj_text n) m c v.
End Show.
