(** Properties C14 and C17: constants and defaults in groups and among bit fields. *)
From Verif Require Import Base IntCodec Stream Marshal FieldSpec BitStringIO FloatSpec ConstSpec ConstFacts EqSpec EqFacts.
From Coq Require Import ZArith List Bool String Lia.
Import ListNotations.
Open Scope string_scope.
Open Scope list_scope.
Open Scope Z_scope.

(** C17.  A constant declared anywhere in the struct, also in groups and among bit fields: assigning the constant
    changes nothing, assigning anything else raises InstructError, and the attribute has the value of
    the constant whatever keyword arguments were given. *)
Theorem C17_constant_anywhere_assignment : forall fs a n k v,
  NoDup (map fst (class_attrs fs)) -> Exists (declares_const n k) fs ->
  assign_attr fs a n v = if py_eq v k then Ok a else Err InstructError.
Proof. exact const_assign_anywhere. Qed.
Print Assumptions C17_constant_anywhere_assignment.
Theorem C17_constant_anywhere_attribute : forall fs cls n k kwargs,
  NoDup (map fst (class_attrs fs)) -> Exists (declares_const n k) fs -> ~ In n (flat_map stored_names fs) ->
  py_getattr (VObj cls (new_attrs fs kwargs)) n = Ok k.
Proof. exact const_attribute_anywhere. Qed.
Print Assumptions C17_constant_anywhere_attribute.

(** C17.  What it means that a value equals a constant (and, for C24 and C27, a key or an image). *)
Theorem C17_equality : forall v w, patterns v -> patterns w -> (py_eq v w = true <-> equal v w).
Proof. exact equal_spec. Qed.
Print Assumptions C17_equality.

(** C14.  An object without the attribute of a field is written as if it had the default of the field. *)
Theorem C14_unset_field_is_default : forall h n d a, lookup a n = None -> forall cls cctx fs,
  (forall d', Exists (declares_default n d') fs -> d' = d) ->
  write_to_string h (MStruct cls cctx fs) (VObj cls a) = write_to_string h (MStruct cls cctx fs) (VObj cls (set_attr a n d)).
Proof. exact write_unset. Qed.
Print Assumptions C14_unset_field_is_default.

Definition ex_anywhere : list field :=
  [FGroup [FBits [BField "b" (BMBits 4) (VInt 9); BConst "v" (BMBits 4) (VInt 6)]; FGroup [FConst "magic" (MInt UBInt8Marshal) (VInt 77)]];
   FField "x" (MInt UBInt8Marshal) (VInt 5)].
Example C17_anywhere_nonvacuous : NoDup (map fst (class_attrs ex_anywhere))
  /\ Exists (declares_const "v" (VInt 6)) ex_anywhere /\ Exists (declares_const "magic" (VInt 77)) ex_anywhere
  /\ ~ In "v" (flat_map stored_names ex_anywhere) /\ ~ In "magic" (flat_map stored_names ex_anywhere)
  /\ Exists (declares_default "b" (VInt 9)) ex_anywhere /\ (forall d, Exists (declares_default "b" d) ex_anywhere -> d = VInt 9)
  /\ write_to_string HostLittle (MStruct "S" None ex_anywhere) (VObj "S" []) = Ok [105; 77; 5].
Proof.
  split; [repeat constructor; cbn; intuition discriminate|].
  split; [left; econstructor; [now left|]; econstructor; right; now left|].
  split; [left; econstructor; [right; now left|]; econstructor; [now left|]; constructor|].
  split; [cbn; intuition discriminate|]. split; [cbn; intuition discriminate|].
  split; [left; econstructor; [now left|]; econstructor; now left|].
  split; [|vm_compute; reflexivity].
  intros d E. inversion E as [? ? D|? ? E2]; subst.
  - inversion D as [| |f fs I D2| |]; subst. destruct I as [<-|[<-|[]]].
    + inversion D2 as [| | |m bs I|]; subst. destruct I as [E1|[E1|[]]]; congruence.
    + inversion D2 as [| |f fs I D3| |]; subst. destruct I as [<-|[]]. inversion D3.
  - inversion E2 as [? ? D|? ? E3]; subst; [|inversion E3]. inversion D.
Qed.

(** b'ab' is b'ab' but neither 'ab' nor b'ac'; [1, 'x'] is [1.0, 'x']; 0.0 is -0.0; infinity is itself; NaN is not. *)
Example C17_equality_cases : equal (VBytes [97; 98]) (VBytes [97; 98]) /\ ~ equal (VBytes [97; 98]) (VStr [97; 98]) /\ ~ equal (VBytes [97; 98]) (VBytes [97; 99])
  /\ equal (VList [VInt 1; VStr [120]]) (VList [VFloat (1023 * 2 ^ 52); VStr [120]])
  /\ equal (VFloat 0) (VFloat (2 ^ 63)) /\ equal (VFloat (2047 * 2 ^ 52)) (VFloat (2047 * 2 ^ 52)) /\ ~ equal (VFloat (2047 * 2 ^ 52 + 1)) (VFloat (2047 * 2 ^ 52 + 1)).
Proof.
  split; [constructor|]. split; [intros H; inversion H|]. split; [intros H; inversion H|].
  split; [constructor; constructor; [apply eq_int_float; vm_compute; congruence|constructor; constructor]|].
  split; [apply eq_float; vm_compute; congruence|]. split; [apply eq_infinite; split; reflexivity|].
  intros H. apply C17_equality in H; [discriminate H| |]; constructor; vm_compute; split; congruence.
Qed.
