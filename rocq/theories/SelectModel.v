(** Model of fields with an unpack_selector (buffer/macros.py:238-322, buffer/serialize.py:250-302), for
    objects of several classes: what is packed depends on the class of the object, what is unpacked on
    what the selector returns.  [BufferMacros.buffer_field] and [BufferMacros.list_field] are the special
    case of one class and of selectors that look at less (PropertiesSelect.C88_simple_selectors). *)
From Verif Require Import Base IntCodec CodecSpec Stream Marshal Range IoBuffer Serialize RefEngine BufferModel BufferMacros.
From Coq Require Import ZArith List Bool String.
Import ListNotations.
Open Scope list_scope.
Open Scope Z_scope.

(** The class of an object, by the name the object carries (type(value)). *)
Definition classes : Type := name -> option cls.

(** serialize.py:250-251: [value.pack()], the method of the object's own class.  Classes that are not
    in the table are not modelled. *)
Definition pack_object (tbl : classes) (v : value) : res buf :=
  match v with
  | VObj nm a => match tbl nm with
                 | Some C => let* l := fst (buffer_pack C a) in Ok (BArr l)
                 | None => Err NotModelled
                 end
  | _ => Err AttributeError
  end.

(** macros.py:238-252.  A selector gets the object being unpacked, the buffer and the byte_size (in bits).
    Selectors that change the object are not modelled. *)
Definition selector : Type := attrs -> buf -> option Z -> res selection.
(** macros.py:255-283 with unpack_selector. *)
Definition selector_field (tbl : classes) (sel : selector) (byte_size : option Z) (k : keywords) : field :=
  build k (size_keyword byte_size) [] []
    (fun _ v _ => pack_object tbl v)
    (fun _ a b n => let* s := sel a b n in selected s b).

(** serialize.py:288-302 with a selector: it gets the elements so far (container), the index, n and the rest
    of the buffer too.  The loop is run [fuel] times at most; [None] means that it has not ended by then. *)
Definition list_selector : Type := attrs -> list value -> Z -> option Z -> buf -> option Z -> res selection.
Fixpoint select_loop (unpack : list value -> Z -> buf -> res (value * option Z)) (b : buf) (n last : option Z)
    (fuel : nat) (offset index : Z) (acc : list value) : option (res (list value * Z)) :=
  if (offset <? blength b) && match n with None => true | Some k => index <? k end then
    match fuel with
    | O => None
    | S fuel' =>
        match (let* s := buf_slice b (Some offset) last in unpack acc index s) with
        | Err e => Some (Err e)
        | Ok (item, None) => Some (Err TypeError)
        | Ok (item, Some len) => select_loop unpack b n last fuel' (offset + len) (index + 1) (acc ++ [item])
        end
    end
  else Some (Ok (acc, offset)).
(** serialize.py:289-302 *)
Definition select_list_n (sel : list_selector) (a : attrs) (n size : option Z) (fuel : nat) (b : buf) : option (res (value * option Z)) :=
  match fractional_size size with
  | Err e => Some (Err e)
  | Ok last =>
      match select_loop (fun acc i b => let* s := sel a acc i n b size in selected s b) b n last fuel 0 0 [] with
      | None => None
      | Some (Err e) => Some (Err e)
      | Some (Ok (l, offset)) => Some (Ok (VList l, Some offset))
      end
  end.
(** [Diverges]: not ended after [list_fuel] rounds.  Without [n] that is as many rounds as there are bits,
    so some element used none; whether the loop ends later depends on the selector. *)
Definition select_list (sel : list_selector) (a : attrs) (n size : option Z) (b : buf) : res (value * option Z) :=
  match select_list_n sel a n size (list_fuel n b) b with Some r => r | None => Err Diverges end.
(** macros.py:286-322 with a Buffer type and unpack_selector. *)
Definition selector_list (tbl : classes) (n : arg) (sel : list_selector) (k : keywords) : field :=
  build k None [] [n]
    (fun _ v _ => pack_list (pack_object tbl) v)
    (fun args a b size => let* c := count_of args in select_list sel a c size b).
