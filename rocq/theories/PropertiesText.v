(** Property C103: the text of Buffer objects. *)
From Verif Require Import Base Marshal BufferTypes BufferTypesSpec BufferTypesFacts BufferText BufferTextSpec BufferTextFacts PropertiesTypes.
From Coq Require Import ZArith List Bool String Sorted.
Import ListNotations.
Open Scope string_scope.
Open Scope list_scope.
Open Scope Z_scope.

(** ** C103.  repr of an object is [module.Class(name=value, ...)] with the fields the class declares itself, in
    alphabetical order, and their values at that moment; it raises only what the repr of the first value that raises does. *)
Theorem C103_repr : forall calc default modname show show_field w, history calc w -> forall i c fs o,
  class_no w i c -> y_fields c = Some fs -> object_of default w c o ->
  exists names, names_of_fields w fs names
  /\ match buffer_repr modname show show_field w c o with
     | Ok text => exists texts, Forall2 (fun n t => exists v, has_value w c o n v /\ show v = Ok t) names texts
         /\ text = (modname ++ "." ++ y_name c ++ "(" ++ listed (combine names texts) ++ ")")%string
     | Err e => exists before n v after, names = before ++ n :: after
         /\ Forall (fun m => exists x t, has_value w c o m x /\ show x = Ok t) before /\ has_value w c o n v /\ show v = Err e
     end.
Proof. intros calc default modname show show_field w H i c fs o. exact (repr_spec calc default modname show show_field w i c fs o H). Qed.
Print Assumptions C103_repr.

(** Inherited fields are not shown: objects that differ in them only have the same text, and the text
    of an object of a class that declares no field is [module.Class()]. *)
Theorem C103_inherited_refuted : forall modname show show_field w c fs, y_fields c = Some fs ->
  (forall o o', (forall f n, In f fs -> called w f n -> obj_attr w c o n = obj_attr w c o' n) -> (forall f, In f fs -> taken w f) ->
     buffer_repr modname show show_field w c o = buffer_repr modname show show_field w c o')
  /\ (fs = [] -> forall o, buffer_repr modname show show_field w c o = Ok (modname ++ "." ++ y_name c ++ "()")%string).
Proof.
  intros modname show show_field w c fs F. split.
  - intros o o' S T. apply (repr_same modname show show_field w c fs o o' F). intros f I. pose proof (T f I) as N. unfold taken in N. apply name_of_in in N.
    destruct N as (n & N). rewrite (called_name w f n N). exact (S f n I N).
  - intros -> o. unfold buffer_repr, mro_of. cbn [first_some]. rewrite F. reflexivity.
Qed.
Print Assumptions C103_inherited_refuted.

(** An object of a class without a declaration of fields anywhere, such as Buffer itself, has no text. *)
Theorem C103_no_fields_refuted : forall modname show show_field w c o, Forall (fun d => y_fields d = None) (mro_of w c) ->
  buffer_repr modname show show_field w c o = Err AttributeError.
Proof.
  intros modname show show_field w c o H. unfold buffer_repr. assert (E : first_some y_fields (mro_of w c) = None); [|rewrite E; reflexivity].
  induction H as [|d l D H IH]; cbn [first_some]; [reflexivity|]. rewrite D. exact IH.
Qed.
Print Assumptions C103_no_fields_refuted.

(** class D(A): x = field 4 of PropertiesTypes; the inherited fields alias, crc and the hidden x are left out. *)
Definition digits (v : value) : res string := match v with VInt 4 => Ok "4" | VInt 7 => Ok "7" | VNone => Ok "None" | _ => Err ValueError end.
Example C103_nonvacuous : forall a d b, class_no family 2 a -> class_no family 5 d -> class_no family 0 b ->
  history no_size family /\ y_fields a = Some [1; 0; 2]%nat /\ y_fields d = Some [4]%nat
  /\ object_of (fun f => VInt (Z.of_nat f)) family d [("crc", VInt 7); ("x", VInt 4); ("alias", VInt 1)]
  /\ buffer_repr "m" digits (fun _ => "") family d [("crc", VInt 7); ("x", VInt 4); ("alias", VInt 1)] = Ok "m.D(x=4)"
  /\ buffer_repr "m" digits (fun _ => "") family a [("crc", VInt 7); ("x", VInt 4); ("alias", VNone)] = Ok "m.A(alias=None, crc=7, x=4)"
  /\ buffer_repr "m" digits (fun _ => "") family a [("crc", VInt 6); ("x", VInt 4); ("alias", VNone)] = Err ValueError
  /\ names_of_fields family [1; 0; 2]%nat ["alias"; "crc"; "x"]
  /\ Forall (fun e => y_fields e = None) (mro_of family b).
Proof.
  intros a d b A D B. vm_compute in A, D, B. injection A as <-. injection D as <-. injection B as <-. split; [exact family_history|].
  split; [reflexivity|]. split; [reflexivity|]. split; [apply (made _ _ _ [("crc", VInt 7)]); vm_compute; reflexivity|].
  split; [vm_compute; reflexivity|]. split; [vm_compute; reflexivity|]. split; [vm_compute; reflexivity|].
  split; [|vm_compute; repeat constructor]. split.
  - repeat constructor.
  - intros n. split.
    + intros [<-|[<-|[<-|[]]]]; [exists 1%nat|exists 0%nat|exists 2%nat]; (split; [cbn; tauto|vm_compute; reflexivity]).
    + intros (f & [<-|[<-|[<-|[]]]] & C); vm_compute in C; injection C as <-; cbn; tauto.
Qed.
