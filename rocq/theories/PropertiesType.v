(** Property C112: values of the wrong type. *)
From Verif Require Import Base IntCodec Stream MinMax Marshal MarshalInd TypeSpec TypeFacts.
From Coq Require Import ZArith List Bool String Lia.
Import ListNotations.
Open Scope Z_scope.

(** C112.  Whatever is written - by a class of any shape - has in every field, however deep, a value of a kind
    that the declaration of the field takes. *)
Theorem C112_only_declared_kinds : forall h m v bytes, write_to_string h m v = Ok bytes -> kind m v.
Proof.
  intros h m v bytes H. unfold write_to_string in H. destruct (write h m v []) as [[[]|e] out] eqn:E; [|discriminate H].
  eapply (proj1 (write_kind_both h)); exact E.
Qed.
Print Assumptions C112_only_declared_kinds.

(** C112.  Anything but an integer in an integer field, and anything but a number in a float field, is
    InstructError, and nothing is written. *)
Theorem C112_numbers : forall h v out,
  (forall f, (forall z, v <> VInt z) -> write h (MInt f) v out = (Err InstructError, out))
  /\ (forall f, (forall z, v <> VInt z) -> (forall p, v <> VFloat p) ->
      write h (MFloat f) v out = (Err InstructError, out)).
Proof.
  intros h v out. split; intros f H; [|intros H']; destruct v; cbn [write]; try reflexivity;
    solve [exfalso; eapply H; reflexivity | exfalso; eapply H'; reflexivity].
Qed.
Print Assumptions C112_numbers.

(** C112.  A string field of fixed size writes nothing unless it gets bytes.  If padding is to be
    stripped, what is no string at all is AttributeError; everything else is TypeError. *)
Theorem C112_padded_strings : forall h n p d v out, (forall b, v <> VBytes b) ->
  write h (MPadStr n p d) v out
  = (Err (match d, v with
          | PNone, _ | _, VStr _ => TypeError
          | _, _ => AttributeError
          end), out).
Proof.
  intros h n p d v out H.
  destruct d, v; try (exfalso; eapply H; reflexivity); try reflexivity; destruct p; reflexivity.
Qed.
Print Assumptions C112_padded_strings.

(** C112.  Values without a length in a length-prefixed string field: nothing is written. *)
Theorem C112_prefixed_strings : forall h sz p d v out,
  v = VNone \/ (exists z, v = VInt z) \/ (exists x, v = VFloat x) \/ (exists cls a, v = VObj cls a) ->
  write h (MVarStr sz p d) v out
  = (Err (match d with PNone => TypeError | _ => AttributeError end), out).
Proof.
  intros h sz p d v out [-> | [(z & ->) | [(x & ->) | (cls & a & ->)]]]; destruct d; reflexivity.
Qed.
Print Assumptions C112_prefixed_strings.

(** Expected and not true: a value of the wrong type leaves no trace.  If a field of this kind that strips
    nothing gets a text or a list, its length is written before TypeError is raised. *)
Theorem C112_no_trace_refuted : forall h sz p v n out out',
  (exists s, v = VStr s /\ n = zlen s) \/ (exists l, v = VList l /\ n = zlen l) ->
  write h sz (VInt n) out = (Ok tt, out') ->
  write h (MVarStr sz p PNone) v out = (Err TypeError, out').
Proof.
  intros h sz p v n out out' [(s & -> & ->) | (l & -> & ->)] W; cbn [write _strip]; unfold sbind, slift; cbn [py_len];
    rewrite W; reflexivity.
Qed.
Print Assumptions C112_no_trace_refuted.

(** C112.  Arrays of what cannot be looped over, and structs of what is no object: nothing is written. *)
Theorem C112_arrays_and_objects : forall h v out,
  ((forall l, ~ elements v l) ->
     (forall sz el, write h (MVarArr sz el) v out = (Err TypeError, out)
                 /\ write h (MSumArr sz el) v out = (Err TypeError, out))
     /\ forall n el, write h (MFixArr n el) v out = (Err TypeError, out))
  /\ ((forall cls a, v <> VObj cls a) ->
     (forall cls c fs, write h (MStruct cls c fs) v out = (Err AttributeError, out))
     /\ (forall k mapping d, write h (MSel k mapping d) v out = (Err AttributeError, out))
     /\ forall cs f mm, write h (MFunSel cs f mm) v out = (Err AttributeError, out)).
Proof.
  intros h v out. split; intros H.
  - destruct v; try (exfalso; eapply H; constructor); repeat split; reflexivity.
  - destruct v; try (exfalso; eapply H; reflexivity); repeat split; reflexivity.
Qed.
Print Assumptions C112_arrays_and_objects.

Definition ex_class : marshal :=
  MStruct "C"%string None
    [FField "n"%string (MInt (mkFmt EBig false I16)) (VInt 0);
     FField "s"%string (MVarStr (MInt (mkFmt EBig false I8)) (VBytes [0]) PNone) VNone;
     FField "l"%string (MVarArr (MInt (mkFmt EBig false I8)) (MInt (mkFmt EBig false I8))) VNone].
Example C112_nonvacuous :
  write_to_string HostLittle ex_class
    (VObj "C"%string [("n"%string, VInt 5); ("s"%string, VBytes [65]); ("l"%string, VBytes [7; 8])])
  = Ok [0; 5; 1; 65; 2; 7; 8]
  /\ write HostLittle ex_class
    (VObj "C"%string [("n"%string, VInt 5); ("s"%string, VStr [65; 66]); ("l"%string, VNone)]) []
  = (Err TypeError, [0; 5; 2])
  /\ ~ kind ex_class (VObj "C"%string [("n"%string, VInt 5); ("s"%string, VStr [65; 66]); ("l"%string, VNone)]).
Proof.
  split; [vm_compute; reflexivity|]. split; [vm_compute; reflexivity|].
  intros K. inversion K; subst.
  match goal with H : fields_kind _ _ |- _ => inversion H; subst end.
  match goal with H : fields_kind _ (_ :: _ :: _) |- _ => inversion H; subst end.
  match goal with H : fields_kind _ (_ :: _) |- _ => inversion H; subst end.
  match goal with H : field_kind _ (FField "s"%string _ _) |- _ => inversion H; subst end.
  match goal with H : value_of "s"%string _ _ _ |- _ => destruct H as [H|[H _]]; vm_compute in H; inversion H; subst end.
  match goal with H : kind (MVarStr _ _ _) _ |- _ => inversion H end.
Qed.
