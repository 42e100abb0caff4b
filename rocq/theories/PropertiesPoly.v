(** Property C94: objects are written by their own class. *)
From Verif Require Import Base BaseProofs IntCodec Stream MinMax Marshal MarshalInd MarshalSpec SizeSpec Poly PolySpec PolyFacts.
From Coq Require Import ZArith List Bool String Lia ZifyBool ZifyNat.
Import ListNotations.
Open Scope string_scope.
Open Scope list_scope.
Open Scope Z_scope.

(** ** C94.  Where every object has the declared class, the model with classes writes what [Marshal.write] writes, and
    sizeof is the same (so that the other theorems about writing apply). *)
Theorem C94_declared_class : forall h W m v enc, defined W m -> write_to_string h m v = Ok enc ->
  writes h W m v enc /\ forall z, sizeof m v = Ok z -> sizes W m v z.
Proof. exact conservative. Qed.
Print Assumptions C94_declared_class.

(** An object of class [B] is written as [B] writes it, whatever Struct class or selector is declared for it, and even if
    [B] is not among the choices of the selector. *)
Theorem C94_written_by_own_class : forall h W B cB fsB a enc d, defined W (MStruct B cB fsB) ->
  write_to_string h (MStruct B cB fsB) (VObj B a) = Ok enc -> for_objects d -> writes h W d (VObj B a) enc.
Proof. exact by_own_class. Qed.
Print Assumptions C94_written_by_own_class.

(** If the fields of [B] are those of [A] and more, the bytes begin with those of the [A] part, and reading them as an [A]
    gives the [A] part and stops behind it. *)
Theorem C94_subclass_read_as_base : forall h A B cA cB fsA more c a a' enc, canon h true (MStruct A cA fsA) c (VObj A a') -> same_attrs fsA a a' ->
  write_to_string h (MStruct B cB (fsA ++ more)) (VObj B a) = Ok enc ->
  exists encA extra, enc = encA ++ extra /\ write_to_string h (MStruct A cA fsA) (VObj A a') = Ok encA
    /\ forall pre tail, read h (MStruct A cA fsA) c (SBytesIO (pre ++ enc ++ tail) (zlen pre))
         = (Ok (VObj A a'), SBytesIO (pre ++ enc ++ tail) (zlen pre + zlen encA)).
Proof. exact read_part. Qed.
Print Assumptions C94_subclass_read_as_base.

(** Hence what is written is not always read back: a field behind the object is read from the bytes that the subclass
    added ([y'] is any value whose bytes these begin with). *)
Theorem C94_field_behind_refuted : forall h O cO x y d dy my A B cA cB fsA more c a a' enc encA ey y', x <> y ->
  (forall c, canon h true (MStruct A cA fsA) c (VObj A a')) -> (forall c, canon h true my c y') -> same_attrs fsA a a' ->
  write_to_string h (MStruct B cB (fsA ++ more)) (VObj B a) = Ok enc -> write_to_string h (MStruct A cA fsA) (VObj A a') = Ok encA ->
  write_to_string h my y' = Ok ey ->
  exists extra, enc = encA ++ extra /\ forall tail t, extra ++ tail = ey ++ t ->
    exists o, create_from_string h (MStruct O cO [FField x (MStruct A cA fsA) d; FField y my dy]) (enc ++ tail) c = Ok (VObj O o)
      /\ lookup o x = Some (VObj A a') /\ lookup o y = Some y'.
Proof. exact read_after. Qed.
Print Assumptions C94_field_behind_refuted.

(** sizeof of a selector is the number of bytes written, also for a class that is not among its choices. *)
Theorem C94_selector_size : forall h W B cB fsB a enc d, defined W (MStruct B cB fsB) -> fits false (MStruct B cB fsB) (VObj B a) ->
  write_to_string h (MStruct B cB fsB) (VObj B a) = Ok enc -> (match d with MSel _ _ _ | MFunSel _ _ _ => True | _ => False end) ->
  sizes W d (VObj B a) (zlen enc).
Proof. exact size_by_selector. Qed.
Print Assumptions C94_selector_size.

(** What is not an object has no class of its own: a selector can neither tell its size nor write it. *)
Theorem C94_selector_no_object : forall h W n d v out, (match d with MSel _ _ _ | MFunSel _ _ _ => True | _ => False end) -> (forall B a, v <> VObj B a) ->
  psize W n d v = Err AttributeError /\ pwrite h W n d v out = (Err AttributeError, out).
Proof. intros h W n d v out D V. destruct d, v; try contradiction; split; try reflexivity; exfalso; eapply V; reflexivity. Qed.
Print Assumptions C94_selector_no_object.

(** An array with a size in bytes in front, of a selector: the size is that of the objects as they are written. *)
Theorem C94_sum_array_selector : forall h W f choices func mm B cB fsB objs encs p, defined W (MStruct B cB fsB) ->
  Forall2 (fun a e => fits false (MStruct B cB fsB) (VObj B a) /\ write_to_string h (MStruct B cB fsB) (VObj B a) = Ok e) objs encs ->
  struct_pack_int h f (fold_left Z.add (map zlen encs) 0) = Ok p ->
  writes h W (MSumArr (MInt f) (MFunSel choices func mm)) (VList (map (VObj B) objs)) (p ++ List.concat encs).
Proof. exact sum_array_selector. Qed.
Print Assumptions C94_sum_array_selector.

(** ... but of a Struct class [A]: the size counts only the [A] parts of the objects, whereas all their bytes are written. *)
Theorem C94_sum_array_size_refuted : forall h W f A B cA cB fsA more objs parts p, defined W (MStruct A cA fsA) -> defined W (MStruct B cB (fsA ++ more)) ->
  Forall2 (fun a (e : list Z * list Z) => fits false (MStruct A cA fsA) (VObj A a) /\ write_to_string h (MStruct A cA fsA) (VObj A a) = Ok (fst e)
             /\ write_to_string h (MStruct B cB (fsA ++ more)) (VObj B a) = Ok (fst e ++ snd e)) objs parts ->
  struct_pack_int h f (fold_left Z.add (map (fun e => zlen (fst e)) parts) 0) = Ok p ->
  writes h W (MSumArr (MInt f) (MStruct A cA fsA)) (VList (map (VObj B) objs)) (p ++ List.concat (map (fun e => fst e ++ snd e) parts)).
Proof. exact sum_array_declared. Qed.
Print Assumptions C94_sum_array_size_refuted.

(** class Base(Struct): _fields_ = [Field("x", UBInt8), Field("y", ULInt16)]
    class Sub(Base):    _fields_ = Base._fields_ + [Field("z", UBInt8)]
    class Outer(Struct): _fields_ = [Field("b", Base), Field("n", UBInt8)] *)
Definition base_fields : list field := [FField "x" (MInt UBInt8Marshal) VNone; FField "y" (MInt ULInt16Marshal) VNone].
Definition sub_more : list field := [FField "z" (MInt UBInt8Marshal) VNone].
Definition Base_ : marshal := MStruct "Base" None base_fields.
Definition Sub_ : marshal := MStruct "Sub" None (base_fields ++ sub_more).
Definition outer_fields : list field := [FField "b" Base_ VNone; FField "n" (MInt UBInt8Marshal) VNone].
Definition Outer_ : marshal := MStruct "Outer" None outer_fields.
Definition classes : world := fun n =>
  if String.eqb n "Base" then Some base_fields else if String.eqb n "Sub" then Some (base_fields ++ sub_more) else if String.eqb n "Outer" then Some outer_fields else None.
Definition sub_attrs : attrs := [("x", VInt 1); ("y", VInt 2); ("z", VInt 9)].
Definition base_attrs : attrs := [("x", VInt 1); ("y", VInt 2)].
Example C94_nonvacuous : forall h,
  defined classes Base_ /\ defined classes Sub_ /\ defined classes Outer_
  /\ write_to_string h Sub_ (VObj "Sub" sub_attrs) = Ok [1; 2; 0; 9]
  /\ write_to_string h Base_ (VObj "Base" base_attrs) = Ok [1; 2; 0]
  /\ same_attrs base_fields sub_attrs base_attrs
  /\ (forall c, canon h true Base_ c (VObj "Base" base_attrs)) /\ (forall c, canon h true (MInt UBInt8Marshal) c (VInt 9))
  /\ fits false Base_ (VObj "Base" sub_attrs) /\ fits false Sub_ (VObj "Sub" sub_attrs)
  (* the object inside another one, and back *)
  /\ pwrite h classes 2 Outer_ (VObj "Outer" [("b", VObj "Sub" sub_attrs); ("n", VInt 7)]) [] = (Ok tt, [1; 2; 0; 9; 7])
  /\ create_from_string h Outer_ [1; 2; 0; 9; 7] [] = Ok (VObj "Outer" [("b", VObj "Base" base_attrs); ("n", VInt 9)])
  (* the size 6 before 8 bytes *)
  /\ pwrite h classes 2 (MSumArr (MInt UBInt8Marshal) Base_) (VList [VObj "Sub" sub_attrs; VObj "Sub" sub_attrs]) []
     = (Ok tt, [6; 1; 2; 0; 9; 1; 2; 0; 9])
  /\ psize classes 2 (MFunSel [] (fun _ => RRet (Ok 0%nat)) (mkMM 0 0)) (VObj "Sub" sub_attrs) = Ok 4.
Proof.
  intros h. split; [cbn; intuition|]. split; [cbn; intuition|]. split; [cbn; intuition|].
  split; [destruct h; vm_compute; reflexivity|]. split; [destruct h; vm_compute; reflexivity|].
  split; [intros n [<-|[<-|[]]]; reflexivity|].
  split. { intros c. cbn. eexists. split; [reflexivity|]. eexists. split; [split; [|reflexivity]|].
    { exists 1. split; [reflexivity|]. lia. }
    eexists. split; [split; [|reflexivity]|reflexivity]. exists 2. split; [reflexivity|]. lia. }
  split. { intros c. cbn. exists 9. split; [reflexivity|]. lia. }
  split; [cbn; intuition|]. split; [cbn; intuition|].
  split; [destruct h; vm_compute; reflexivity|]. split; [destruct h; vm_compute; reflexivity|]. split; [destruct h; vm_compute; reflexivity|]. vm_compute. reflexivity.
Qed.
