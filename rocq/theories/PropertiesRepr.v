(** C69: printing objects ([repr] of a Struct object, [to_repr] of a value). *)
From Verif Require Import Base IntCodec Stream StreamSpec MinMax Marshal FieldSpec FloatSpec Repr ReprSpec ReprFacts ReprNumbers.
From Coq Require Import ZArith List Bool String.
Import ListNotations.
Open Scope Z_scope.
Open Scope string_scope.

(** Whatever was read through a printable definition can be printed: reading every stream in every
    context, with any way of printing numbers, provided that Python prints the values which are not
    taken apart (byte strings, the keys of mappings). *)
Theorem C69_read_objects_print :
  forall (percent_d percent_f : Z -> string) (py_repr : value -> res string),
  (forall v, exists t, py_repr v = Ok t) ->
  forall h m c s v s',
  printable m ->
  read h m c s = (Ok v, s') ->
  exists t, to_repr percent_d percent_f py_repr m v = Ok t.
Proof. intros pd pf pr T h m c s v s' P R. exact (proj1 (read_repr pd pf pr T h) m P c s v s' R). Qed.
Print Assumptions C69_read_objects_print.

(** The text of an object shows every named field, with its value. *)
Theorem C69_fields_shown :
  forall percent_d percent_f py_repr cls cctx fs a t n m d,
  to_repr percent_d percent_f py_repr (MStruct cls cctx fs) (VObj cls a) = Ok t ->
  In (FField n m d) fs ->
  exists tf pre post,
    to_repr percent_d percent_f py_repr m (field_value n d a) = Ok tf
    /\ t = pre ++ n ++ "=" ++ tf ++ post.
Proof. exact struct_shows. Qed.
Print Assumptions C69_fields_shown.

(** "Every object that can be read can be printed" is false: an optional number that was left out
    makes [repr] raise TypeError, and so does a number that was never set; an unset nested struct
    shows as [<none>], an unset struct selector raises AttributeError. *)
Theorem C69_absent_number_refuted :
  forall percent_d percent_f py_repr h cls cctx n f (pred : value -> ctx -> rprog bool) c s,
  (forall o c', pred o c' = RRet (Ok false)) ->
  exists v, read h (MStruct cls cctx [FOpt n (MInt f) pred VNone]) c s = (Ok v, s)
            /\ to_repr percent_d percent_f py_repr (MStruct cls cctx [FOpt n (MInt f) pred VNone]) v = Err TypeError.
Proof. exact absent_number_read. Qed.
Print Assumptions C69_absent_number_refuted.

Theorem C69_unset_fields :
  forall percent_d percent_f py_repr cls cctx n,
  let shown m := to_repr percent_d percent_f py_repr (MStruct cls cctx [FField n m VNone]) (VObj cls (new_attrs [FField n m VNone] [])) in
  (forall f, shown (MInt f) = Err TypeError)
  /\ (forall f, shown (MFloat f) = Err TypeError)
  /\ (forall sz el, shown (MVarArr sz el) = Err TypeError)
  /\ (forall key mapping d, shown (MSel key mapping d) = Err AttributeError)
  /\ (forall choices func mm, shown (MFunSel choices func mm) = Err AttributeError)
  /\ (forall cls' cctx' fs, shown (MStruct cls' cctx' fs) = Ok (cls ++ "(" ++ n ++ "=<none>)")).
Proof.
  intros pd pf pr cls cctx n shown. unfold shown. repeat split; intros; rewrite unset_prints; reflexivity.
Qed.
Print Assumptions C69_unset_fields.

(** A float in an integer field is shown without its fraction, cut off towards zero; an infinity or a
    NaN cannot be shown.  Values of floats are in units of 2 to the power of -1074. *)
Theorem C69_float_in_integer_field :
  forall percent_d percent_f py_repr f p,
  (exponent_field p <> 2047 -> exists z, to_repr percent_d percent_f py_repr (MInt f) (VFloat p) = Ok (percent_d z)
     /\ (0 <= float_value p -> z * float_one <= float_value p < (z + 1) * float_one)%Z
     /\ (float_value p <= 0 -> (z - 1) * float_one < float_value p <= z * float_one)%Z)
  /\ (exponent_field p = 2047 ->
      to_repr percent_d percent_f py_repr (MInt f) (VFloat p) = Err (if (p mod 2 ^ 52 =? 0)%Z then OverflowError else ValueError)).
Proof. exact float_as_int. Qed.
Print Assumptions C69_float_in_integer_field.

(** A packet with a constant, a bit field, an optional struct and an array, read and shown. *)
Definition show_z (z : Z) : string := (match z with 0 => "zero" | 2 => "two" | _ => "many" end)%Z.
Definition show_v (v : value) : res string := Ok (match v with VNone => "None" | _ => "..." end).
Definition point : marshal := MStruct "Point" None [FField "x" (MInt UBInt8Marshal) VNone; FAnon (MBytePad 1 0); FField "y" (MInt UBInt8Marshal) VNone].
Definition packet : marshal :=
  MStruct "Packet" None
    [FConst "magic" (MInt UBInt8Marshal) (VInt 2);
     FBits [BField "hi" (BMBits 4) VNone; BAnon (BMPad 4)];
     FOpt "p" point (fun o _ => RRet (Ok (match py_getattr o "hi" with Ok (VInt 1) => true | _ => false end))) VNone;
     FField "l" (MVarArr (MInt UBInt8Marshal) (MInt UBInt8Marshal)) VNone].
Example C69_nonvacuous :
  printable packet
  /\ (match fst (read HostLittle packet [] (stream_of [2; 1; 0; 9; 2; 2; 7; 2]%Z)) with
      | Ok v => to_repr show_z show_z show_v packet v
      | Err e => Err e
      end) = Ok "Packet(magic=two (const), hi=many, <many bits padding>, p=Point(x=zero, <many bytes padding>, y=two), l=[ many, two ])"
  /\ (match fst (read HostLittle packet [] (stream_of [2; 0; 0]%Z)) with
      | Ok v => to_repr show_z show_z show_v packet v
      | Err e => Err e
      end) = Ok "Packet(magic=two (const), hi=zero, <many bits padding>, p=<none>, l=[  ])".
Proof.
  split; [|split; reflexivity]. cbn. repeat (constructor; try (cbn; intuition discriminate)).
Qed.
(** -1.5 *)
Example C69_nonvacuous_fraction :
  exponent_field (0xBFF8000000000000)%Z <> 2047 /\ float_value 0xBFF8000000000000 = (- (3 * 2 ^ 1073))%Z
  /\ to_repr (fun z => if (z =? -1)%Z then "-1" else "?") (fun _ => "") show_v (MInt UBInt8Marshal) (VFloat 0xBFF8000000000000) = Ok "-1".
Proof. split; [discriminate|]. split; vm_compute; reflexivity. Qed.
