(** Specification for field declarations: what the caller wrote. *)
From Verif Require Import Base Marshal RefEngine BufferModel Declare.
From Coq Require Import ZArith List Bool String.
Import ListNotations.
Open Scope string_scope.
Open Scope list_scope.

(** The argument for the parameter [n]: by position, by keyword, or the default. *)
Definition argument (sig : signature) (args : list pyarg) (kw : kwargs) (n : name) : pyarg :=
  match Marshal.lookup (combine (map fst sig) args) n with
  | Some a => a
  | None => match Marshal.lookup kw n with
            | Some a => a
            | None => match Marshal.lookup sig n with Some (Some a) => a | _ => PNone end
            end
  end.

(** The call is well-formed: not too many positional arguments, every keyword is a parameter that has
    not been given by position, every parameter without default is given. *)
Definition well_called (sig : signature) (args : list pyarg) (kw : kwargs) : Prop :=
  (List.length args <= List.length sig)%nat
  /\ Forall (fun p => In (fst p) (map fst sig) /\ ~ In (fst p) (firstn (List.length args) (map fst sig))) kw
  /\ forall n, Marshal.lookup sig n = Some None -> In n (firstn (List.length args) (map fst sig)) \/ In n (map fst kw).

(** The argument is the reference [r]. *)
Definition refers (a : pyarg) (r : rid) : Prop :=
  a = PRef r \/ exists i, a = PField i /\ r = mkRid KField i.

(** The position arguments: [where] alone, or both of the others; [rp] and [ru] are what they refer to. *)
Definition positions (w wp wu : pyarg) (rp ru : rid) : Prop :=
  (refers w rp /\ rp = ru /\ wp = PNone /\ wu = PNone)
  \/ (w = PNone /\ refers wp rp /\ refers wu ru).

(** The fields an [unpack_after] argument names. *)
Definition named_fields (a : pyarg) (l : list nat) : Prop :=
  match a with
  | PNone => l = []
  | PField i => l = [i]
  | PFields k => l = k
  | PVal (VList []) => l = []
  | _ => False
  end.

(** A condition that is not given is true. *)
Definition condition (a : pyarg) : pyarg := match a with PNone => PVal (VInt 1) | _ => a end.

(** The field [d] is what the arguments say. *)
Definition says (d : decl) (arg : name -> pyarg) : Prop :=
  positions (arg "where") (arg "where_when_pack") (arg "where_when_unpack") (d_where_pack d) (d_where_unpack d)
  /\ d_default d = arg "default"
  /\ d_pack_if d = condition (arg "pack_if") /\ d_unpack_if d = condition (arg "unpack_if")
  /\ d_before d = arg "set_before_pack" /\ d_after d = arg "set_after_unpack"
  /\ (forall r, ~ refers (d_after d) r)
  /\ named_fields (arg "unpack_after") (d_unpack_after d).

(** The builders with their parameters and what else a call must satisfy: the builders that fix an
    argument do not take it by position, and the elements of a list are a class or a pair of marshals. *)
Definition any_call (args : list pyarg) (kw : kwargs) : Prop := True.
Definition names_only (args : list pyarg) (kw : kwargs) : Prop := args = [].
Definition endian_only (args : list pyarg) (kw : kwargs) : Prop := (List.length args <= 1)%nat.
Definition typed (args : list pyarg) (kw : kwargs) : Prop :=
  exists n, argument list_sig args kw "type" = PType n \/ argument list_sig args kw "type" = PMarshal n.
Definition builders : list (((rid -> res (option Z)) -> list pyarg -> kwargs -> res decl) * signature * (list pyarg -> kwargs -> Prop)) :=
  [(int_field, int_sig, any_call); (uint_field, int_sig, endian_only);
   (be_int_field, int_sig, names_only); (be_uint_field, int_sig, names_only); (le_int_field, int_sig, names_only); (le_uint_field, int_sig, names_only);
   (float_field, float_sig, any_call); (bytearray_field, bytearray_sig, any_call); (str_field, str_sig, any_call);
   (json_field, bytearray_sig, any_call); (buffer_field, buffer_sig, any_call); (list_field, list_sig, typed)].

(** The size a field of [size] bits has at a position of [n] bits: its own unless it is 0 or not given. *)
Definition size_at (size n : option Z) : option Z :=
  match size with Some s => if (s =? 0)%Z then n else Some s | None => n end.

(** The keyword [k] that a packer gets at a position of [n] bits; None if it gets none. *)
Definition passed (n : option Z) (kw : list (name * kwv)) (k : name) : pyarg := kget (kwargs_at n kw) k PNone.
