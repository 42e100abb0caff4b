(** Property C18 for whole structs: an optional field among other fields. *)
From Verif Require Import Base IntCodec Stream Marshal OptionalFacts.
From Coq Require Import ZArith List Bool String.
Import ListNotations.
Open Scope string_scope.
Open Scope list_scope.
Open Scope Z_scope.

(** C18.  While its value is None, an optional field takes no part in writing and sizes: they are those
    of the struct without it. *)
Theorem C18_absent_like_undeclared : forall h cls cctx fs1 n m pred d fs2 a, field_value n d a = VNone ->
  (forall out, write h (MStruct cls cctx (fs1 ++ FOpt n m pred d :: fs2)) (VObj cls a) out
               = write h (MStruct cls cctx (fs1 ++ fs2)) (VObj cls a) out)
  /\ sizeof (MStruct cls cctx (fs1 ++ FOpt n m pred d :: fs2)) (VObj cls a) = sizeof (MStruct cls cctx (fs1 ++ fs2)) (VObj cls a).
Proof. exact absent_like_undeclared. Qed.
Print Assumptions C18_absent_like_undeclared.

(** C18.  With any other value, they are those of the struct with a plain field in its place, whatever
    the predicate says. *)
Theorem C18_present_like_plain : forall h cls cctx fs1 n m pred d fs2 a, field_value n d a <> VNone ->
  (forall out, write h (MStruct cls cctx (fs1 ++ FOpt n m pred d :: fs2)) (VObj cls a) out
               = write h (MStruct cls cctx (fs1 ++ FField n m d :: fs2)) (VObj cls a) out)
  /\ sizeof (MStruct cls cctx (fs1 ++ FOpt n m pred d :: fs2)) (VObj cls a)
     = sizeof (MStruct cls cctx (fs1 ++ FField n m d :: fs2)) (VObj cls a).
Proof. exact present_like_plain. Qed.
Print Assumptions C18_present_like_plain.

(** C18.  If the predicate always holds, the struct is read like the one with a plain field. *)
Theorem C18_always_read_like_plain : forall h cls cctx fs1 n m pred d fs2 c s, (forall obj c', pred obj c' = RRet (Ok true)) ->
  read h (MStruct cls cctx (fs1 ++ FOpt n m pred d :: fs2)) c s = read h (MStruct cls cctx (fs1 ++ FField n m d :: fs2)) c s.
Proof. exact always_like_plain. Qed.
Print Assumptions C18_always_read_like_plain.

Definition opt_byte : marshal := MInt (mkFmt EBig false I8).
Example C18_nonvacuous_structs :
  let fs1 := [FField "a" opt_byte (VInt 1)] in let fs2 := [FField "c" opt_byte (VInt 3)] in
  let opt := FOpt "b" opt_byte (fun _ _ => RRet (Ok true)) VNone in
  let m := MStruct "S" None (fs1 ++ opt :: fs2) in
  field_value "b" VNone [("a", VInt 1); ("c", VInt 3)] = VNone
  /\ write HostLittle m (VObj "S" [("a", VInt 1); ("c", VInt 3)]) [] = (Ok tt, [1; 3])
  /\ field_value "b" VNone [("a", VInt 1); ("b", VInt 2); ("c", VInt 3)] <> VNone
  /\ write HostLittle m (VObj "S" [("a", VInt 1); ("b", VInt 2); ("c", VInt 3)]) [] = (Ok tt, [1; 2; 3])
  /\ fst (read HostLittle m [] (SBytesIO [4; 5; 6] 0)) = Ok (VObj "S" [("a", VInt 4); ("b", VInt 5); ("c", VInt 6)]).
Proof. cbv zeta. split; [reflexivity|]. split; [reflexivity|]. split; [discriminate|]. split; reflexivity. Qed.
