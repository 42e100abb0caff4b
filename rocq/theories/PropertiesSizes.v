(** Properties C11-C13: size bookkeeping. *)
From Verif Require Import Base IntCodec Stream MinMax Marshal SizeSpec SizeFacts MarshalFacts.
From Coq Require Import ZArith List Bool String Lia.
Import ListNotations.
Open Scope string_scope.
Open Scope list_scope.
Open Scope Z_scope.

(** C11.  Bounds between 0 and [sys.maxsize] are kept as they are, or the constructor's assertion
    fails because they are swapped. *)
Theorem C11_minmax_interval : forall a b, 0 <= a <= maxsize -> 0 <= b <= maxsize ->
  MinMax a b = if a <=? b then Ok (mkMM a b) else Err AssertionError.
Proof. exact minmax_interval. Qed.
Print Assumptions C11_minmax_interval.

(** C11.  The sum of two intervals is the interval of the sums, cut at [sys.maxsize]. *)
Theorem C11_minmax_add : forall m1 m2,
  0 <= mm_min m1 <= mm_max m1 -> 0 <= mm_min m2 <= mm_max m2 ->
  mm_min m1 + mm_min m2 <= maxsize ->
  exists m, mm_add m1 m2 = Ok m
    /\ mm_min m = mm_min m1 + mm_min m2
    /\ mm_max m = Z.min (mm_max m1 + mm_max m2) maxsize
    /\ 0 <= mm_min m <= mm_max m /\ mm_max m <= maxsize.
Proof. exact minmax_add_interval. Qed.
Print Assumptions C11_minmax_add.

(** C11.  Addition is sound: sizes within two bounds add up to a size within their sum. *)
Theorem C11_add_sound : forall a b mm x y,
  0 <= mm_min a /\ 0 <= mm_max a -> 0 <= mm_min b /\ 0 <= mm_max b ->
  mm_add a b = Ok mm -> within x a -> within y b -> within (x + y) mm.
Proof. intros a b mm x y A B E X Y. exact (within_add a b mm x y E X Y A B). Qed.
Print Assumptions C11_add_sound.

(** C11.  What goes wrong outside: minima above [sys.maxsize] end up above the maximum, and two
    negative bounds give a negative maximum below the minimum. *)
Theorem C11_minmax_above : forall a b, maxsize < a <= b ->
  exists m, MinMax a b = Ok m /\ mm_max m < mm_min m.
Proof. exact minmax_above. Qed.
Print Assumptions C11_minmax_above.
Theorem C11_minmax_negative : forall a b, a <= b < 0 ->
  exists m, MinMax a b = Ok m /\ mm_max m < 0 <= mm_min m.
Proof. exact minmax_negative. Qed.
Print Assumptions C11_minmax_negative.

Example C11_nonvacuous :
  MinMax 3 7 = Ok (mkMM 3 7) /\ MinMax 7 3 = Err AssertionError
  /\ mm_add (mkMM 3 7) (mkMM 1 maxsize) = Ok (mkMM 4 maxsize)
  /\ MinMax (-5) (-3) = Ok (mkMM 0 (-3))
  /\ MinMax (maxsize + 2) (maxsize + 3) = Ok (mkMM (maxsize + 2) maxsize).
Proof. vm_compute. auto. Qed.

(** C12.  When a value whose parts fit the space declared for them has been written, [sizeof] is
    the number of bytes the output grew by. *)
Theorem C12_sizeof_exact : forall h m v out out',
  fits false m v -> write h m v out = (Ok tt, out') ->
  sizeof m v = Ok (zlen out' - zlen out).
Proof. exact sizeof_exact. Qed.
Print Assumptions C12_sizeof_exact.

(** C12.  The exception, padded strings that are too long: all of their bytes are written while
    [sizeof] keeps reporting the declared size. *)
Theorem C12_overlong_string : forall h size p d b out,
  size < zlen (strip_bytes d p b) -> d <> PNone ->
  exists out', write h (MPadStr size (VBytes p) d) (VBytes b) out = (Ok tt, out')
    /\ zlen out' - zlen out = zlen (strip_bytes d p b)
    /\ sizeof (MPadStr size (VBytes p) d) (VBytes b) = Ok size.
Proof. exact sizeof_overlong. Qed.
Print Assumptions C12_overlong_string.

(** A record with a length-prefixed name, a list of pairs, a padded tag, an optional word and a
    group of bits. *)
Definition ex_pair : marshal :=
  MStruct "Pair" None [FField "x" (MInt UBInt8Marshal) VNone; FField "y" (MInt ULInt16Marshal) VNone].
Definition ex_rec : marshal :=
  MStruct "Rec" None
    [FConst "magic" (MInt UBInt16Marshal) (VInt 513);
     FField "name" (MVarStr (MInt UBInt8Marshal) (VBytes [0]) PRight) VNone;
     FField "pairs" (MVarArr (MInt UBInt8Marshal) ex_pair) VNone;
     FField "tag" (MPadStr 4 (VBytes [0]) PRight) VNone;
     FOpt "opt" (MInt UBInt32Marshal) (fun _ _ => RRet (Ok true)) VNone;
     FBits [BField "lo" (BMBits 3) VNone; BAnon (BMPad 1); BField "hi" (BMBits 4) VNone]].
Definition ex_pair_val (x y : Z) : value := VObj "Pair" [("x", VInt x); ("y", VInt y)].
Definition ex_rec_val : value :=
  VObj "Rec" [("magic", VInt 513);
              ("name", VBytes [104; 105]);
              ("pairs", VList [ex_pair_val 1 2; ex_pair_val 3 4]);
              ("tag", VBytes [65]);
              ("opt", VInt 7);
              ("lo", VInt 5); ("hi", VInt 9)].

Ltac fits_tac :=
  repeat (cbn;
    match goal with
    | |- _ /\ _ => split
    | |- True => exact I
    | |- _ -> _ => let H := fresh in intro H; cbn in H; try discriminate H; try (injection H as <-)
    | |- Forall _ _ => repeat constructor
    | |- exists _, _ => eexists; split; [reflexivity|reflexivity]
    | |- _ <= _ => lia
    | |- _ = _ => reflexivity
    end).

Lemma ex_rec_fits b : fits b ex_rec ex_rec_val.
Proof. fits_tac. Qed.

Example C12_nonvacuous :
  fits false ex_rec ex_rec_val
  /\ write HostLittle ex_rec ex_rec_val [9]
     = (Ok tt, [9; 2; 1; 2; 104; 105; 2; 1; 2; 0; 3; 4; 0; 65; 0; 0; 0; 0; 0; 0; 7; 149])
  /\ sizeof ex_rec ex_rec_val = Ok 21
  /\ write HostLittle (MPadStr 2 (VBytes [0]) PRight) (VBytes [1; 2; 3]) [] = (Ok tt, [1; 2; 3])
  /\ sizeof (MPadStr 2 (VBytes [0]) PRight) (VBytes [1; 2; 3]) = Ok 2.
Proof. split; [apply ex_rec_fits|]. vm_compute. auto. Qed.

(** C13.  The size of what is written lies within the bounds the definition reports, for
    definitions whose bounds are honest and values that fit. *)
Theorem C13_size_within_bounds : forall h m v out out' mm,
  fits true m v -> honest m ->
  write h m v out = (Ok tt, out') -> min_max m = Ok mm ->
  within (zlen out' - zlen out) mm.
Proof. exact size_bounds. Qed.
Print Assumptions C13_size_within_bounds.

(** C13.  In particular a definition that reports a fixed size always writes this many bytes. *)
Theorem C13_fixed_size : forall h m v out out' mm,
  fits true m v -> honest m ->
  write h m v out = (Ok tt, out') -> min_max m = Ok mm ->
  mm_is_fixed mm = true -> mm_is_unbounded mm = false ->
  zlen out' - zlen out = mm_min mm.
Proof. exact fixed_size_exact. Qed.
Print Assumptions C13_fixed_size.

(** C13.  Dishonest bounds: a string whose length is a constant claims to be of size 0, whatever
    the constant. *)
Theorem C13_constant_length_string : forall h n b out, bytes_ok b -> zlen b = n ->
  write h (MVarStr (MConst (VInt n)) (VBytes [0]) PNone) (VBytes b) out = (Ok tt, out ++ b)
  /\ min_max (MVarStr (MConst (VInt n)) (VBytes [0]) PNone) = Ok (mkMM 0 0).
Proof. exact const_size_string_bounds. Qed.
Print Assumptions C13_constant_length_string.

(** C13.  A key selector between two structs reports the sum of their bounds, not their range. *)
Theorem C13_key_selector_bounds : forall key k m1 m2 mm1 mm2 mm,
  min_max m1 = Ok mm1 -> min_max m2 = Ok mm2 ->
  0 <= mm_min mm1 <= mm_max mm1 -> 0 <= mm_min mm2 <= mm_max mm2 ->
  mm_max mm1 + mm_max mm2 <= maxsize ->
  min_max (MSel key [(k, m1)] (Some m2)) = Ok mm ->
  mm = mkMM (mm_min mm1 + mm_min mm2) (mm_max mm1 + mm_max mm2).
Proof. exact key_selector_bounds. Qed.
Print Assumptions C13_key_selector_bounds.

(** C13.  A function selector that was not told its size admits every size, so its size is never taken to be fixed. *)
Theorem C13_function_selector_default : forall structs func, exists mm, min_max (MFunSel structs func UNBOUNDED_MIN_MAX) = Ok mm
  /\ mm_is_fixed mm = false /\ forall n, 0 <= n -> within n mm.
Proof. intros structs func. exists (mkMM 0 maxsize). split; [reflexivity|]. split; [reflexivity|]. intros n Hn. split; [exact Hn|]. right. reflexivity. Qed.
Print Assumptions C13_function_selector_default.

Example C13_nonvacuous :
  fits true ex_rec ex_rec_val /\ honest ex_rec
  /\ min_max ex_rec = Ok (mkMM 9 1033)
  /\ honest ex_pair /\ fits true ex_pair (ex_pair_val 1 2) /\ min_max ex_pair = Ok (mkMM 3 3)
  /\ min_max (MSel (MInt UBInt8Marshal) [(VInt 1, ex_pair)] (Some ex_pair)) = Ok (mkMM 6 6).
Proof.
  split; [apply ex_rec_fits|]. split.
  { cbn. repeat split; try (eexists; reflexivity); try lia. }
  split; [vm_compute; reflexivity|]. split; [cbn; auto|]. split; [fits_tac|].
  split; vm_compute; reflexivity.
Qed.
