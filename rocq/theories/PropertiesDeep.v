(** Property C98: objects in objects keep what pack() does to them. *)
From Verif Require Import Base BaseProofs IntCodec CodecSpec Stream Marshal FieldSpec Range RangeSpec IoBuffer IoSpec Serialize SerializeSpec
  RefEngine RefSpec BufferModel BufferSpec BufferMacros BufferCodecSpec BufferBuilders BufferConds BufferHooks BufferExamples RepeatSpec RepeatFacts
  Deep DeepSpec DeepFacts DeepProofs PropertiesHooks.
From Coq Require Import ZArith List Bool String Lia.
Import ListNotations.
Open Scope string_scope.
Open Scope list_scope.
Open Scope Z_scope.

(** ** C98.  Whether pack() leaves its mark on the objects inside or not, at any depth: the bytes, or the error, are the same. *)
Theorem C98_same_bytes : forall C C', with_objects C C' -> forall o, fst (buffer_pack C' o) = fst (buffer_pack C o).
Proof. intros C C' H. exact (proj1 (proj2 (with_objects_all C C' H))). Qed.
Print Assumptions C98_same_bytes.

(** After pack() every object inside that was packed is what its own pack() leaves, and its bytes are the ones packed;
    all other attributes are as if the objects inside had been values. *)
Theorem C98_objects_inside : forall C kids, holds_objects C kids -> (forall i s K K', kids i = Some (s, K, K') -> with_objects K K') ->
  forall o bytes o2, buffer_pack (deepen C (packers_of kids)) o = (Ok bytes, o2) ->
  exists o1 ps m, buffer_pack C o = (Ok bytes, o1) /\ packing C (numbered C) [] (mkBst o None) ps m (mkBst o1 None)
    /\ (forall n, (forall i f, nth_error (k_fields C) i = Some f -> kids i <> None -> f_name f <> n) -> Marshal.lookup o2 n = Marshal.lookup o1 n)
    /\ forall i f s K K', nth_error (k_fields C) i = Some f -> kids i = Some (s, K, K') ->
       (forall b r, nth_error ps i = Some (Some (b, r)) ->
          exists v v', Marshal.lookup o (f_name f) = Some v /\ child_packed s K' v b v' /\ Marshal.lookup o2 (f_name f) = Some v')
       /\ (nth_error ps i = Some None ->
           Marshal.lookup o2 (f_name f) = Marshal.lookup o (f_name f)
           \/ exists v b v', Marshal.lookup o (f_name f) = Some v /\ child_packed s K' v b v' /\ Marshal.lookup o2 (f_name f) = Some v').
Proof. exact deep_children. Qed.
Print Assumptions C98_objects_inside.

(** Packing once more gives the same bytes and changes nothing any more, at any depth. *)
Theorem C98_pack_again : forall C C', with_objects C C' -> forall o bytes o', buffer_pack C' o = (Ok bytes, o') -> buffer_pack C' o' = (Ok bytes, o').
Proof. intros C C' H. exact (proj2 (proj2 (with_objects_all C C' H))). Qed.
Print Assumptions C98_pack_again.

(** If the objects that a field holds cannot be packed: those before the one that fails are packed, that one is what
    its own pack() left, and those behind it are not touched. *)
Theorem C98_failed_objects : forall K K', with_objects K K' -> forall s v e v', objects s v -> child_pack s K' v = (Err e, v') -> child_failed s K' v e v'.
Proof. intros K K' H s v e v'. destruct (with_objects_all K K' H) as (B & R & _). exact (child_fails K K' R B s v e v'). Qed.
Print Assumptions C98_failed_objects.

(** class Foo(Buffer):
        f_int = be_uint_field(where=bytes_ref[0:1], set_before_pack=len_ref(self_ref.f_str))
        f_str = bytearray_field(where=bytes_ref[1:1 + f_int])
    class Outer(Buffer):
        n = be_uint_field(where=bytes_ref[0:1], set_before_pack=len_ref(self_ref.items))
        head = buffer_field(type=Foo, where=bytes_ref[1:4])
        items = list_field(type=Foo, n=n, where=bytes_ref[4:]) *)
Definition foo_class : cls := prefix_class HostLittle BBig I8.
Definition outer_class : cls :=
  mkCls [int_field HostLittle BBig false None (packet_kw "n" 1 1 (Some (BRef (user 5))));
         buffer_field "Foo" foo_class None None (packet_kw "head" 2 2 None);
         list_field (EBuffer "Foo" foo_class) (ARef (mkRid KField 0)) None (packet_kw "items" 3 3 None)]
        [UConst (rbool true); UByteSlice (num 0) (num 1); UByteSlice (num 1) (num 4); UByteSlice (num 4) (AConst (RVal VNone));
         UAttr "items"; ULen (ARef (user 4))] None.
Definition foo_deep : cls := deepen foo_class (packers_of (fun _ => None)).
Definition outer_kids : children := fun i => match i with 1%nat => Some (OneObject, foo_class, foo_deep) | 2%nat => Some (ObjectList, foo_class, foo_deep) | _ => None end.
Definition outer_deep : cls := deepen outer_class (packers_of outer_kids).
Definition foo (l : list Z) (n : value) : value := VObj "Foo" [("f_int", n); ("f_str", VBytes l)].
Lemma foo_with : with_objects foo_class foo_deep.
Proof.
  constructor; [|discriminate]. assert (N : NoDup (map f_name (k_fields foo_class))) by (repeat constructor; cbn; intuition discriminate).
  assert (F : no_functions foo_class) by (split; [plain_class|repeat constructor]).
  split; [exact F|]. split; [apply prefix_class_ok|]. split; [exact N|]. split; [|split; [exact (no_functions_repeatable _ F N)|discriminate]].
  apply predefined_packers. repeat (apply Forall_cons; [constructor|]). apply Forall_nil.
Qed.
Lemma outer_plain : no_functions outer_class.
Proof.
  split; [split|repeat constructor].
  - repeat (apply Forall_cons; [unfold plain_user, plain_arg, plain_rid; cbn; auto|]). apply Forall_nil.
  - repeat (apply Forall_cons; [unfold plain_field, plain_arg, plain_rid; cbn; intuition; repeat (apply Forall_cons; [cbn; auto|]); apply Forall_nil|]). apply Forall_nil.
Qed.
Lemma outer_names : NoDup (map f_name (k_fields outer_class)).
Proof. repeat constructor; cbn; intuition discriminate. Qed.
Lemma outer_repeatable : repeatable outer_class (assigned_name outer_class) (is_child outer_kids) (fun _ _ _ => False).
Proof.
  destruct (no_functions_repeatable _ outer_plain outer_names) as (_ & R). split.
  - repeat (apply Forall_cons; [cbn; unfold plain_rid; cbn; auto; discriminate|]). apply Forall_nil.
  - intros i f H. pose proof (R i f H) as (_ & _ & _ & B & _).
    destruct i as [|[|[|i]]]; cbn in H; [| | |destruct i; discriminate]; injection H as <-; unfold repeats_field, simple_rid, plain_rid; cbn in B |- *;
      (split; [auto|]); (split; [auto|]); (split; [apply Forall_nil|]).
    + split; [|discriminate]. split; [apply B|auto].
    + split; [exact B|]. intros _. split; [reflexivity|]. contradiction.
    + split; [exact B|]. intros _. split; [reflexivity|]. contradiction.
Qed.
Lemma outer_with : holds_objects outer_class outer_kids /\ with_objects outer_class outer_deep.
Proof.
  assert (H : holds_objects outer_class outer_kids); [|split; [exact H|constructor; [exact H|]]].
  - split; [exact outer_plain|]. split; [class_ok|]. split; [exact outer_names|]. split; [|split; [exact outer_repeatable|]].
    + apply predefined_packers. assert (P : Forall predefined (k_fields foo_class)) by (repeat (apply Forall_cons; [constructor|]); apply Forall_nil).
      repeat (apply Forall_cons; [constructor; try exact P|]); [constructor; exact P|apply Forall_nil].
    + intros [|[|[|i]]] f s K K' Hf E; try discriminate; injection E as <- <- <-; injection Hf as <-; (split; [|reflexivity]); repeat eexists.
  - intros [|[|[|i]]] s K K' E; try discriminate; injection E as <- <- <-; exact foo_with.
Qed.
Example C98_nonvacuous : holds_objects outer_class outer_kids /\ with_objects outer_class outer_deep
  /\ (let o := [("n", VNone); ("head", foo [1; 2] VNone); ("items", VList [foo [7] VNone; foo [] (VInt 9); foo [8; 9] VNone])] in
      buffer_pack outer_deep o = (Ok [3; 2; 1; 2; 1; 7; 0; 2; 8; 9],
        [("n", VInt 3); ("head", foo [1; 2] (VInt 2)); ("items", VList [foo [7] (VInt 1); foo [] (VInt 0); foo [8; 9] (VInt 2)])])).
Proof. split; [apply outer_with|]. split; [apply outer_with|]. vm_compute. reflexivity. Qed.
(** In a list of three Foos the second has a string that is too long for its f_int: it has f_int = 300 afterwards. *)
Example C98_failed_case : let long := VBytes (repeat 5 300) in let bad x := VObj "Foo" [("f_int", x); ("f_str", long)] in
  objects ObjectList (VList [foo [7] VNone; bad VNone; foo [8; 9] VNone])
  /\ child_pack ObjectList foo_deep (VList [foo [7] VNone; bad VNone; foo [8; 9] VNone])
     = (Err InstructBufferError, VList [foo [7] (VInt 1); bad (VInt 300); foo [8; 9] VNone]).
Proof.
  cbv zeta. split; [|vm_compute; reflexivity]. constructor. intros v [<-|[<-|[<-|[]]]]; unfold foo; eauto.
Qed.
