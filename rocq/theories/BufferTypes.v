(** Model of how Buffer classes come into being: BufferType.__new__ (buffer.py:50-67), _all_fields
    (buffer.py:156-164), FieldReference.init (field.py:19-30) and Buffer.__init__ (buffer.py:88-100)
    with inheritance, mixins and attributes of classes.

    Simplifications: the method resolution order is an argument of the class statement (Python
    computes it); descriptors and assignments to attributes of classes after their definition are
    left out; a failed class statement leaves no class behind. *)
From Verif Require Import Base Marshal.
From Coq Require Import ZArith List Bool String.
Import ListNotations.
Open Scope string_scope.
Open Scope list_scope.
Open Scope Z_scope.

(** A FieldReference object. *)
Definition fid : Type := nat.
(** An attribute of a class: a field, or anything else. *)
Inductive cattr : Type := CField (f : fid) | COther (v : value).

(** A class: its name, its dict without __fields__ and byte_size, the classes of its mro behind
    itself, [__fields__] and [byte_size] if the class has them itself. *)
Record pyclass : Type := mkPyClass {
  y_name : name;
  y_dict : list (name * cattr);
  y_bases : list nat;
  y_fields : option (list fid);
  y_size : option (option Z) }.
(** The classes by number, and the names of the fields that have one (attr_name_ref.obj). *)
Record world : Type := mkWorld { w_names : list (fid * name); w_classes : list pyclass }.

Fixpoint name_of (l : list (fid * name)) (f : fid) : option name :=
  match l with [] => None | (g, n) :: r => if Nat.eqb g f then Some n else name_of r f end.

(** [getattr(cls, n)]: the first class of the mro that has it. *)
Fixpoint first_some {A B} (g : A -> option B) (l : list A) : option B :=
  match l with [] => None | a :: r => match g a with Some b => Some b | None => first_some g r end end.
Definition class_attr (mro : list pyclass) (n : name) : option cattr := first_some (fun c => Marshal.lookup (y_dict c) n) mro.

(** [dir(cls)]: the sorted names. *)
Fixpoint insert_name (n : name) (l : list name) : list name :=
  match l with
  | [] => [n]
  | m :: r => if String.eqb n m then l else if String.ltb n m then n :: l else m :: insert_name n r
  end.
Definition dir (mro : list pyclass) : list name := fold_right insert_name [] (flat_map (fun c => map fst (y_dict c)) mro).

(** buffer.py:57-63: fields that have no name yet get one and belong to the class. *)
Fixpoint claim (look : name -> option cattr) (names : list name) (named : list (fid * name)) : list fid * list (fid * name) :=
  match names with
  | [] => ([], named)
  | n :: r =>
      match look n with
      | Some (CField f) =>
          match name_of named f with
          | Some _ => claim look r named
          | None => let p := claim look r ((f, n) :: named) in (f :: fst p, snd p)
          end
      | _ => claim look r named
      end
  end.

(** [byte_size] in the body of the class, if it is there. *)
Record statement : Type := mkStatement {
  t_name : name;
  t_body : list (name * cattr);
  t_size : option (option Z);
  t_mro : list nat;
  t_buffer : bool }.                      (* whether the metaclass is BufferType *)

Definition classes_at (w : world) (l : list nat) : list pyclass :=
  flat_map (fun i => match nth_error (w_classes w) i with Some c => [c] | None => [] end) l.

Section Definitions.
(** BufferType.calc_byte_size of fields (buffer.py:69-82; [static_size] of BufferModel.v). *)
Variable calc : world -> list fid -> res (option Z).

(** buffer.py:50-67 *)
Definition define (t : statement) (w : world) : res nat * world :=
  let fresh := mkPyClass (t_name t) (t_body t) (t_mro t) None None in
  let n := List.length (w_classes w) in
  if negb (t_buffer t) || String.eqb (t_name t) "Buffer" then (Ok n, mkWorld (w_names w) (w_classes w ++ [fresh]))
  else
    let mro := fresh :: classes_at w (t_mro t) in
    let p := claim (class_attr mro) (dir mro) (w_names w) in
    let w' := mkWorld (snd p) (w_classes w) in
    let size := match t_size t with Some s => Ok s | None => calc w' (fst p) end in
    match size with
    | Err e => (Err e, w')
    | Ok s => (Ok n, mkWorld (snd p) (w_classes w ++ [mkPyClass (t_name t) (t_body t) (t_mro t) (Some (fst p)) (Some s)]))
    end.
Fixpoint run (l : list statement) (w : world) : world :=
  match l with [] => w | t :: r => run r (snd (define t w)) end.
End Definitions.

Definition mro_of (w : world) (c : pyclass) : list pyclass := c :: classes_at w (y_bases c).
(** [getattr(cls, '__fields__', [])] *)
Definition fields_attr (w : world) (c : pyclass) : list fid :=
  match first_some y_fields (mro_of w c) with Some l => l | None => [] end.
(** buffer.py:156-161 *)
Definition all_fields (w : world) (c : pyclass) : list fid := flat_map (fields_attr w) (mro_of w c).
(** [type(self).byte_size] *)
Definition byte_size (w : world) (c : pyclass) : option Z :=
  match first_some y_size (mro_of w c) with Some s => s | None => None end.

(** buffer.py:88-100; [default f] is the default of the field. *)
Section Construct.
Variable default : fid -> value.
Definition field_name (w : world) (f : fid) : name := match name_of (w_names w) f with Some n => n | None => "" end.
(** [getattr(self, n)] *)
Definition obj_attr (w : world) (c : pyclass) (o : attrs) (n : name) : option cattr :=
  match Marshal.lookup o n with Some v => Some (COther v) | None => class_attr (mro_of w c) n end.
Fixpoint set_kwargs (names : list name) (kw o : attrs) : res attrs :=
  match kw with
  | [] => Ok o
  | (n, v) :: r => let* _ := passert (existsb (String.eqb n) names) in set_kwargs names r (set_attr o n v)
  end.
Fixpoint set_defaults (w : world) (c : pyclass) (l : list fid) (o : attrs) : res attrs :=
  match l with
  | [] => Ok o
  | f :: r =>
      match obj_attr w c o (field_name w f) with
      | None => Err AttributeError
      | Some (CField _) => set_defaults w c r (set_attr o (field_name w f) (default f))
      | Some (COther _) => set_defaults w c r o
      end
  end.
Definition construct (w : world) (c : pyclass) (kw : attrs) : res attrs :=
  let* o := set_kwargs (map (field_name w) (all_fields w c)) kw [] in
  set_defaults w c (all_fields w c) o.
End Construct.
