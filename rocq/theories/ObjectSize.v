(** buffer.py:148-154: [obj.calc_byte_size()], called by the user (unpack calls it with its own context,
    see [buffer_unpack]).  The context is PackContext(self, type(self).__fields__): its fields are those
    that the class of the object adds itself, not the inherited ones. *)
From Verif Require Import Base Marshal Range RefEngine BufferModel.
From Coq Require Import ZArith List Bool String.
Import ListNotations.
Open Scope list_scope.
Open Scope Z_scope.

Section Size.
Variable C : cls.
(** The class has fields of its own, the first [own] ones, and inherited fields behind them
    (buffer.py:156-161). *)
Variable own : nat.

(** total_size.py:12-22 in such a context: byte_size of the class, or the end of the last of its own
    fields; [map ...] are the positions of these. *)
Definition last_end (vs : list rv) : res rv := let* ls := rmap_list as_ranges vs in opt_num (list_max_stop (List.concat ls)).
Definition own_total : uref :=
  match k_size C with
  | Some n => UConst (rnum n)
  | None => UFunc last_end (map (fun i => ARef (mkRid KPackPos i)) (seq 0 own))
  end.
(** A reference of the class in such a context: total_size is the one above; field_or_attr.py:16-21: a
    name that is not one of [ctx.fields] is taken for an attribute. *)
Definition in_own_context (u : uref) : uref :=
  match u with
  | UTotal => own_total
  | UAttr n => match find_field n (firstn own (numbered C)) with
               | Some _ => u
               | None => UMember (fun _ o => (match Marshal.lookup o n with Some v => Ok (RVal v) | None => Err AttributeError end, o)) []
               end
  | _ => u
  end.
(** The references in the context of calc_byte_size(): those of the class, and TotalSizeReference() as one more.
    If the class inherits no fields the context has all fields and its references are what they are for pack. *)
Definition context_of_size : cls :=
  mkCls (k_fields C)
        ((if Nat.eqb own (List.length (k_fields C)) then k_users C else map in_own_context (k_users C)) ++ [own_total])
        (k_size C).
(** The size (in bits), and the object afterwards. *)
Definition calc_byte_size (o : attrs) : res Z * attrs :=
  match dref context_of_size (mkRid KUser (List.length (k_users C))) (start_pack o) with
  | (Err e, w) => (Err e, s_obj (w_st w))
  | (Ok v, w) => (num_bits v, s_obj (w_st w))
  end.
End Size.
