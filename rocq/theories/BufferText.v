(** Model of Buffer.__repr__, buffer.py:166-169, on the classes and objects of BufferTypes.v.

    Parameters: [modname] is [type(self).__module__], [show] the repr of a value, which may raise, and
    [show_field] the repr of a field object (it is the attribute only if __init__ was not run). *)
From Verif Require Import Base Marshal BufferTypes.
From Coq Require Import ZArith List Bool String.
Import ListNotations.
Open Scope string_scope.
Open Scope list_scope.

Section Text.
Variable modname : string.
Variable show : value -> res string.
Variable show_field : fid -> string.

(** buffer.py:168, for one field: ["{0}={1!r}".format(field.attr_name(), getattr(self, field.attr_name()))] *)
Definition field_text (w : world) (c : pyclass) (o : attrs) (f : fid) : res string :=
  match obj_attr w c o (field_name w f) with
  | None => Err AttributeError
  | Some (COther v) => let* t := show v in Ok (field_name w f ++ "=" ++ t)%string
  | Some (CField g) => Ok (field_name w f ++ "=" ++ show_field g)%string
  end.
Fixpoint field_texts (w : world) (c : pyclass) (o : attrs) (l : list fid) : res (list string) :=
  match l with
  | [] => Ok []
  | f :: r => let* t := field_text w c o f in let* ts := field_texts w c o r in Ok (t :: ts)
  end.
(** buffer.py:166-169; [type(self).__fields__] is looked up along the mro, and Buffer has none. *)
Definition buffer_repr (w : world) (c : pyclass) (o : attrs) : res string :=
  match first_some y_fields (mro_of w c) with
  | None => Err AttributeError
  | Some fs => let* ts := field_texts w c o fs in Ok (modname ++ "." ++ y_name c ++ "(" ++ String.concat ", " ts ++ ")")%string
  end.
End Text.
