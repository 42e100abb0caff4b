(** Property C95: showing objects with the formats of contexts, and by their own class.

    [pd] is ['%d' % n], [pf] is ['%f' % x], [pr] is [repr], [op f v] is [f % v] for other formats [f]. *)
From Verif Require Import Base IntCodec Stream MinMax Marshal Repr Show PolySpec ShowSpec ShowFacts.
From Coq Require Import ZArith List Bool String Lia.
Import ListNotations.
Open Scope string_scope.
Open Scope list_scope.
Open Scope Z_scope.

(** ** C95.  Without formats in contexts, the text is that of [Repr.to_repr] (so that the theorems of C69 apply). *)
Theorem C95_default_formats : forall pd pf pr op W, no_class_format W -> forall m c v t, known W m -> no_format c ->
  to_repr pd pf pr m v = Ok t -> shows pd pf pr op W m c v t.
Proof. exact default_formats. Qed.
Print Assumptions C95_default_formats.

(** An object is shown as its own class shows it, whatever Struct class or selector is declared for it. *)
Theorem C95_own_class : forall pd pf pr op W B cB fsB c a t d, for_objects d ->
  shows pd pf pr op W (MStruct B cB fsB) c (VObj B a) t -> shows pd pf pr op W d c (VObj B a) t.
Proof. exact shown_by_own_class. Qed.
Print Assumptions C95_own_class.

(** Every named field of that class is in the text, shown in the context of the caller updated by the class ... *)
Theorem C95_fields_shown : forall pd pf pr op W B cB fsB d c a t n m dv, W B = Some (cB, fsB) -> for_objects d ->
  shows pd pf pr op W d c (VObj B a) t -> In (FField n m dv) fsB ->
  exists tf pre post, shows pd pf pr op W m (get_updated_context cB (VObj B a) c) (field_value n dv a) tf
    /\ t = (B ++ "(" ++ pre ++ n ++ "=" ++ tf ++ post)%string.
Proof. exact field_shown. Qed.
Print Assumptions C95_fields_shown.

(** ... and an int with the format of the caller's context, or if that has none that of the class, or ['%d']. *)
Theorem C95_int_format : forall pd pf pr op W B cB fsB d c a t n f dv, W B = Some (cB, fsB) -> for_objects d ->
  shows pd pf pr op W d c (VObj B a) t -> In (FField n (MInt f) dv) fsB ->
  exists tf pre post, percent pd pf op (int_format_of cB c) (field_value n dv a) = Ok tf
    /\ t = (B ++ "(" ++ pre ++ n ++ "=" ++ tf ++ post)%string.
Proof. exact int_field_shown. Qed.
Print Assumptions C95_int_format.

(** The caller's formats count at every depth: if the context holds both, the contexts of the classes make no difference. *)
Theorem C95_caller_wins : forall pd pf pr op f g W W' m c v t, same_fields W W' ->
  lookup c "int_repr_format" = Some f /\ lookup c "float_repr_format" = Some g ->
  shows pd pf pr op W m c v t -> shows pd pf pr op W' m c v t.
Proof. exact caller_format. Qed.
Print Assumptions C95_caller_wins.

(** A text is shown if any depth suffices, and there is only one. *)
Theorem C95_one_text : forall pd pf pr op W n m c v t, show pd pf pr op W n m c v = Ok t ->
  shows pd pf pr op W m c v t /\ forall t', shows pd pf pr op W m c v t' -> t' = t.
Proof. intros pd pf pr op W n m c v t E. split; [exact (show_enough _ _ _ _ _ _ _ _ _ _ E)|]. intros t' H. exact (shows_one _ _ _ _ _ _ _ _ _ _ H (show_enough _ _ _ _ _ _ _ _ _ _ E)). Qed.
Print Assumptions C95_one_text.

(** What is not an object has no class that could show it: AttributeError, except that a Struct class shows None as [<none>],
    which a selector does not. *)
Theorem C95_no_object : forall pd pf pr op W n d c v, for_objects d -> (forall B a, v <> VObj B a) ->
  show pd pf pr op W n d c v
  = match d, v with
    | MStruct _ _ _, VNone => Ok "<none>"%string
    | _, _ => Err AttributeError
    end.
Proof. intros pd pf pr op W n d c v D V. destruct d, v; cbn in D; try contradiction; try discriminate; try reflexivity; exfalso; eapply V; reflexivity. Qed.
Print Assumptions C95_no_object.

(** ** Examples.  A line with two points; the class of a point, and of a coloured point, has the format [0x%x]. *)
Definition u8 : marshal := MInt UBInt8Marshal.
Definition hex : value := VStr [48; 120; 37; 120].
Definition dig (z : Z) : string := if z =? 7 then "7" else if z =? 255 then "255" else "?".
Definition xdig (f v : value) : res string := match v with VInt z => Ok (if (z =? 7)%Z then "0x7" else if (z =? 255)%Z then "0xff" else "?")%string | _ => Err TypeError end.
Definition reprv (v : value) : res string := Ok "...".
Definition point_fields : list field := [FField "x" u8 VNone].
Definition colour_fields : list field := [FField "x" u8 VNone; FField "c" u8 VNone].
Definition line_fields : list field := [FField "p" (MStruct "Point" (Some [("int_repr_format", hex)]) point_fields) VNone; FField "w" u8 VNone].
Definition world (pc : option ctx) : classes := fun n =>
  if String.eqb n "Point" then Some (pc, point_fields) else if String.eqb n "Colour" then Some (pc, colour_fields)
  else if String.eqb n "Line" then Some (None, line_fields) else None.
Definition line : value := VObj "Line" [("p", VObj "Colour" [("x", VInt 7); ("c", VInt 255)]); ("w", VInt 255)].
Definition line_m : marshal := MStruct "Line" None line_fields.
Definition hexes : option ctx := Some [("int_repr_format", hex)].

Example C95_nonvacuous :
  shows dig dig reprv xdig (world hexes) line_m [] line "Line(p=Colour(x=0x7, c=0xff), w=255)"
  /\ shows dig dig reprv xdig (world None) line_m [] line "Line(p=Colour(x=7, c=255), w=255)"
  /\ shows dig dig reprv xdig (world hexes) line_m [("int_repr_format", fmt_d); ("float_repr_format", fmt_f)] line "Line(p=Colour(x=7, c=255), w=255)"
  /\ shows dig dig reprv xdig (world None) line_m [("int_repr_format", hex)] line "Line(p=Colour(x=0x7, c=0xff), w=0xff)"
  /\ same_fields (world hexes) (world None) /\ no_class_format (world None) /\ no_format []
  /\ known (world hexes) line_m.
Proof.
  split; [exact (show_enough dig dig reprv xdig (world hexes) 3 line_m [] line _ eq_refl)|]. split; [exact (show_enough dig dig reprv xdig (world None) 3 line_m [] line _ eq_refl)|].
  split; [exact (show_enough dig dig reprv xdig (world hexes) 3 line_m [("int_repr_format", fmt_d); ("float_repr_format", fmt_f)] line _ eq_refl)|].
  split; [exact (show_enough dig dig reprv xdig (world None) 3 line_m [("int_repr_format", hex)] line _ eq_refl)|].
  split. { intros cls. unfold world. destruct (String.eqb cls "Point"); [reflexivity|]. destruct (String.eqb cls "Colour"); [reflexivity|]. destruct (String.eqb cls "Line"); reflexivity. }
  split. { intros cls d fs. unfold world. destruct (String.eqb cls "Point"); [discriminate|]. destruct (String.eqb cls "Colour"); [discriminate|]. destruct (String.eqb cls "Line"); discriminate. }
  split; [split; reflexivity|]. cbn. intuition.
Qed.
(** [C95_default_formats] has cases: without class formats the line with a plain point is shown as by [Repr.to_repr]. *)
Definition plain_line : marshal := MStruct "Line" None [FField "p" (MStruct "Point" None point_fields) VNone; FField "w" u8 VNone].
Definition plain_world : classes := fun n =>
  if String.eqb n "Point" then Some (None, point_fields)
  else if String.eqb n "Line" then Some (None, [FField "p" (MStruct "Point" None point_fields) VNone; FField "w" u8 VNone]) else None.
Example C95_default_case : known plain_world plain_line
  /\ to_repr dig dig reprv plain_line (VObj "Line" [("p", VObj "Point" [("x", VInt 7)]); ("w", VInt 255)]) = Ok "Line(p=Point(x=7), w=255)"%string
  /\ shows dig dig reprv xdig plain_world plain_line [] (VObj "Line" [("p", VObj "Point" [("x", VInt 7)]); ("w", VInt 255)]) "Line(p=Point(x=7), w=255)".
Proof.
  assert (K : known plain_world plain_line) by (cbn; intuition). split; [exact K|]. split; [reflexivity|].
  apply C95_default_formats; [|exact K|split; reflexivity|reflexivity].
  intros cls d fs. unfold plain_world. destruct (String.eqb cls "Point"); [discriminate|]. destruct (String.eqb cls "Line"); discriminate.
Qed.

Example C95_no_object_case : show dig dig reprv xdig (world hexes) 3 line_m [] (VObj "Line" [("p", VInt 7); ("w", VInt 255)]) = Err AttributeError
  /\ show dig dig reprv xdig (world hexes) 3 line_m [] (VObj "Line" [("p", VNone); ("w", VInt 255)]) = Ok "Line(p=<none>, w=255)"%string.
Proof. split; reflexivity. Qed.
