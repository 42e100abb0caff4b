(** Properties C22-C24 and C26-C28: arrays, maps, pointers and selectors. *)
From Verif Require Import Base IntCodec CodecSpec Stream StreamSpec MinMax Marshal MarshalSpec MarshalInd
  SimSpec SimFacts FieldSpec MarshalFacts FieldFacts ArrayFacts PropertiesSizes SelectorFacts.
From Coq Require Import ZArith List Bool String Lia.
Import ListNotations.
Open Scope string_scope.
Open Scope list_scope.
Open Scope Z_scope.

(** C22.  Arrays of elements that round-trip round-trip: count-prefixed... *)
Theorem C22_counted_array : forall h sz el c l encs encn,
  Forall2 (roundtrips h el c) l encs -> roundtrips h sz c (VInt (zlen l)) encn ->
  roundtrips h (MVarArr sz el) c (VList l) (encn ++ List.concat encs).
Proof. exact var_array. Qed.
Print Assumptions C22_counted_array.

(** ... of a fixed number of elements... *)
Theorem C22_fixed_array : forall h n el c l encs,
  Forall2 (roundtrips h el c) l encs -> zlen l = n ->
  roundtrips h (MFixArr n el) c (VList l) (List.concat encs).
Proof. exact fix_array. Qed.
Print Assumptions C22_fixed_array.

(** ... and prefixed by their number of bytes, when the elements occupy bytes and report their
    sizes. *)
Theorem C22_byte_counted_array : forall h sz el c l encs encn,
  Forall2 (roundtrips h el c) l encs -> Forall (fun e => 0 < zlen e) encs ->
  Forall2 (fun x e => sizeof el x = Ok (zlen e)) l encs ->
  roundtrips h sz c (VInt (zlen (List.concat encs))) encn ->
  roundtrips h (MSumArr sz el) c (VList l) (encn ++ List.concat encs).
Proof. exact sum_array. Qed.
Print Assumptions C22_byte_counted_array.

(** C22.  The length of the list given to a fixed-size array is not checked: any number of
    elements is written. *)
Theorem C22_fixed_array_length_unchecked : forall h n el c l encs out,
  Forall2 (roundtrips h el c) l encs ->
  write h (MFixArr n el) (VList l) out = (Ok tt, out ++ List.concat encs).
Proof. exact fix_array_unchecked. Qed.
Print Assumptions C22_fixed_array_length_unchecked.

(** C22.  Bytes are written as an array of their numbers, text as an array of its characters; what cannot be iterated is a
    TypeError. *)
Theorem C22_bytes_as_array : forall h n sz el b out,
  write h (MFixArr n el) (VBytes b) out = write h (MFixArr n el) (VList (map VInt b)) out
  /\ write h (MVarArr sz el) (VBytes b) out = write h (MVarArr sz el) (VList (map VInt b)) out
  /\ write h (MSumArr sz el) (VBytes b) out = write h (MSumArr sz el) (VList (map VInt b)) out.
Proof. intros. cbn [write py_len py_iter]. unfold zlen. rewrite map_length. auto. Qed.
Print Assumptions C22_bytes_as_array.
Theorem C22_text_as_array : forall h n sz el t out,
  write h (MFixArr n el) (VStr t) out = write h (MFixArr n el) (VList (map (fun c => VStr [c]) t)) out
  /\ write h (MVarArr sz el) (VStr t) out = write h (MVarArr sz el) (VList (map (fun c => VStr [c]) t)) out
  /\ write h (MSumArr sz el) (VStr t) out = write h (MSumArr sz el) (VList (map (fun c => VStr [c]) t)) out.
Proof. intros. cbn [write py_len py_iter]. unfold zlen. rewrite map_length. auto. Qed.
Print Assumptions C22_text_as_array.
Theorem C22_not_iterable : forall h n sz el v out, (forall b, v <> VBytes b) -> (forall t, v <> VStr t) -> (forall l, v <> VList l) ->
  write h (MFixArr n el) v out = (Err TypeError, out) /\ write h (MVarArr sz el) v out = (Err TypeError, out)
  /\ write h (MSumArr sz el) v out = (Err TypeError, out).
Proof. intros h n sz el v out H1 H2 H3. destruct v; try (now destruct (H1 _ eq_refl)); try (now destruct (H2 _ eq_refl)); try (now destruct (H3 _ eq_refl)); repeat split. Qed.
Print Assumptions C22_not_iterable.
Example C22_bytes_nonvacuous : write HostLittle (MVarArr (MInt UBInt16Marshal) (MInt UBInt8Marshal)) (VBytes [7; 8]) [] = (Ok tt, [0; 2; 7; 8])
  /\ write HostLittle (MVarArr (MInt UBInt16Marshal) (MInt UBInt8Marshal)) (VInt 7) [] = (Err TypeError, []).
Proof. split; reflexivity. Qed.

Example C22_nonvacuous :
  (exists e1 e2, Forall2 (roundtrips HostLittle (MInt ULInt16Marshal) []) [VInt 1; VInt 515] [e1; e2])
  /\ write HostLittle (MSumArr (MInt UBInt8Marshal) (MVarArr (MInt UBInt8Marshal) (MInt ULInt16Marshal)))
       (VList [VList [VInt 1; VInt 515]; VList []]) [] = (Ok tt, [6; 2; 1; 0; 3; 2; 0])
  /\ fst (read HostLittle (MSumArr (MInt UBInt8Marshal) (MVarArr (MInt UBInt8Marshal) (MInt ULInt16Marshal))) []
       (stream_of [6; 2; 1; 0; 3; 2; 0])) = Ok (VList [VList [VInt 1; VInt 515]; VList []]).
Proof.
  split.
  - destruct (int_enc HostLittle ULInt16Marshal 1 ltac:(unfold int_representable; cbn; lia)) as (e1 & _ & R1).
    destruct (int_enc HostLittle ULInt16Marshal 515 ltac:(unfold int_representable; cbn; lia)) as (e2 & _ & R2).
    exists e1, e2. auto.
  - vm_compute. auto.
Qed.

(** C23.  Reading a byte-count array on a stream with [tell]: if every element that is read
    advances the stream, the loop ends after at most as many iterations as there are bytes, and
    its outcome is what is returned. *)
Theorem C23_terminates : forall h sz el c s total s1,
  (forall s v s', plain s -> read h el c s = (Ok v, s') -> plain s' /\ tell_of s < tell_of s') ->
  read h sz c s = (Ok (VInt total), s1) -> plain s1 ->
  exists r s', sum_iter (Z.to_nat total) (read h el c) total s1 [] = Some (r, s')
    /\ read h (MSumArr sz el) c s = (match r with Ok l => Ok (VList l) | Err e => Err e end, s').
Proof. exact sum_array_terminates. Qed.
Print Assumptions C23_terminates.

(** C23.  As soon as, after any number of iterations, bytes remain to be counted and the next
    element takes none, the loop runs forever. *)
Theorem C23_never_returns : forall rd n total s total' s' v,
  after_iterations n rd total s = Some (total', s') -> total' > 0 -> rd s' = (Ok v, s') ->
  forall fuel acc, sum_iter fuel rd total s acc = None.
Proof. exact sum_iter_never. Qed.
Print Assumptions C23_never_returns.

Lemma int_progress h f c s v s' : plain s -> read h (MInt f) c s = (Ok v, s') -> plain s' /\ tell_of s < tell_of s'.
Proof.
  destruct s as [d p|]; [|discriminate]. intros _ E. cbn [read] in E.
  apply sbind_inv in E as (b & s1 & E1 & E).
  destruct (Z.ltb_spec (zlen b) (isize_bytes (f_size f))) as [|L]; [discriminate|].
  destruct (struct_unpack_int h f b); [|discriminate]. injection E as _ <-.
  unfold sread, sread_ in E1. destruct (_ || _); [discriminate|]. injection E1 as <- <-.
  split; [reflexivity|]. cbn [tell_of]. destruct (f_size f); cbn in L |- *; lia.
Qed.

Example C23_nonvacuous :
  (forall s v s', plain s -> read HostLittle (MInt ULInt16Marshal) [] s = (Ok v, s') -> plain s' /\ tell_of s < tell_of s')
  /\ read HostLittle (MSumArr (MInt UBInt8Marshal) (MInt ULInt16Marshal)) [] (stream_of [4; 1; 0; 2; 0])
     = (Ok (VList [VInt 1; VInt 2]), SBytesIO [4; 1; 0; 2; 0] 5)
  /\ after_iterations 0 (read HostLittle (MConst (VInt 5)) []) 4 (stream_of [4]) = Some (4, stream_of [4])
  /\ read HostLittle (MConst (VInt 5)) [] (stream_of [4]) = (Ok (VInt 5), stream_of [4]).
Proof. split; [intros s v s'; apply int_progress|]. vm_compute. auto. Qed.

(** C24.  A mapped field writes the image of the key and reads back the key, for every map the
    constructor accepts (a dict, so its keys are different). *)
Theorem C24_map_roundtrip : forall h tbl m mm c k w enc,
  mk_map tbl m = Ok mm -> dict_ok tbl -> In (k, w) tbl -> py_eq w w = true ->
  roundtrips h m c w enc -> roundtrips h mm c k enc.
Proof. exact map_roundtrip. Qed.
Print Assumptions C24_map_roundtrip.

Theorem C24_unknown_key : forall h tbl m k out,
  hashable k = true -> (forall k' w, In (k', w) tbl -> py_eq k' k = false) ->
  write h (MMap tbl m) k out = (Err KeyError, out).
Proof. exact map_unknown_key. Qed.
Print Assumptions C24_unknown_key.

Theorem C24_unknown_value : forall h tbl m c s v s', read h m c s = (Ok v, s') -> hashable v = true ->
  (forall k w, In (k, w) tbl -> py_eq w v = false) ->
  read h (MMap tbl m) c s = (Err KeyError, s').
Proof. exact map_unknown_value. Qed.
Print Assumptions C24_unknown_value.

(** C24.  Lists cannot be mapped: neither written, nor read, nor used as an image. *)
Theorem C24_list_key : forall h tbl m l out, write h (MMap tbl m) (VList l) out = (Err TypeError, out).
Proof. reflexivity. Qed.
Print Assumptions C24_list_key.
Theorem C24_list_value : forall h tbl m c s l s', read h m c s = (Ok (VList l), s') -> read h (MMap tbl m) c s = (Err TypeError, s').
Proof. intros h tbl m c s l s' R. cbn [read]. unfold sbind, slift. now rewrite R. Qed.
Print Assumptions C24_list_value.
Theorem C24_list_image : forall tbl m mm k l, min_max m = Ok mm -> mm_is_fixed mm = true -> In (k, VList l) tbl -> forall x, mk_map tbl m <> Ok x.
Proof.
  intros tbl m mm k l M F Hin x. unfold mk_map. rewrite M. cbn [rbind]. rewrite F. cbn [passert rbind].
  enough (G : forall t seen, In (k, VList l) t -> injective_map seen t <> Ok tt).
  { specialize (G tbl [] Hin). destruct (injective_map [] tbl) as [[]|]; [now destruct G|discriminate]. }
  induction t as [|[a w] t IH]; intros seen Ht; [destruct Ht|]. destruct Ht as [E|Hi]; cbn [injective_map].
  - injection E as -> ->. discriminate.
  - destruct (negb (hashable w)); [discriminate|]. destruct (existsb _ seen); cbn [negb passert rbind]; [discriminate|]. now apply IH.
Qed.
Print Assumptions C24_list_image.

(** C24.  What it raises is a TypeError, unless two of the images before the list are equal (then it is the
    AssertionError of C24_not_injective). *)
Theorem C24_list_image_error : forall l1 k l l2 m mm, min_max m = Ok mm -> mm_is_fixed mm = true ->
  (forall k' w, In (k', w) l1 -> hashable w = true) -> ForallOrdPairs (fun x y => py_eq x y = false) (map snd l1) ->
  mk_map (l1 ++ (k, VList l) :: l2) m = Err TypeError.
Proof.
  intros l1 k l l2 m mm M F H P. unfold mk_map. rewrite M. cbn [rbind]. rewrite F. cbn [passert rbind].
  enough (G : forall seen, Forall (fun x => Forall (fun y => py_eq x y = false) (map snd l1)) seen ->
    injective_map seen (l1 ++ (k, VList l) :: l2) = Err TypeError) by now rewrite (G [] (Forall_nil _)).
  induction l1 as [|[a w] l1 IH]; intros seen S; [reflexivity|]. cbn [app injective_map].
  rewrite (H a w (or_introl eq_refl)). cbn [negb]. cbn [map snd] in P, S.
  replace (existsb (fun x => py_eq x w) seen) with false.
  2: { symmetry. clear -S. induction S as [|x seen X S IH]; [reflexivity|]. cbn [existsb]. inversion X as [|y r Y R]; subst. now rewrite Y. }
  cbn [negb passert rbind]. inversion P as [|x r X R]; subst. apply IH.
  - intros k' w' I. apply (H k' w'). now right.
  - exact R.
  - constructor; [exact X|]. clear -S. induction S as [|y seen Y S IH]; constructor; [|exact IH]. now inversion Y.
Qed.
Print Assumptions C24_list_image_error.
Example C24_list_image_error_case :
  mk_map [(VInt 1, VInt 3); (VInt 2, VList [VInt 3]); (VInt 4, VInt 3)] (MInt UBInt8Marshal) = Err TypeError.
Proof.
  apply (C24_list_image_error [(VInt 1, VInt 3)] (VInt 2) [VInt 3] [(VInt 4, VInt 3)] _ (mkMM 1 1)); try reflexivity.
  - intros k w [E|[]]. injection E as <- <-. reflexivity.
  - repeat constructor.
Qed.

(** C24.  Two entries with the same image: the constructor raises. *)
Theorem C24_not_injective : forall m mm l1 k1 w1 l2 k2 w2 l3,
  min_max m = Ok mm -> mm_is_fixed mm = true -> py_eq w1 w2 = true ->
  (forall k w, In (k, w) (l1 ++ (k1, w1) :: l2 ++ (k2, w2) :: l3) -> hashable w = true) ->
  mk_map (l1 ++ (k1, w1) :: l2 ++ (k2, w2) :: l3) m = Err AssertionError.
Proof. exact map_not_injective. Qed.
Print Assumptions C24_not_injective.

Definition ex_map : list (value * value) := [(VStr [97], VInt 3); (VStr [98], VInt 1)].
Example C24_nonvacuous :
  mk_map ex_map (MInt UBInt8Marshal) = Ok (MMap ex_map (MInt UBInt8Marshal)) /\ dict_ok ex_map
  /\ write HostLittle (MMap ex_map (MInt UBInt8Marshal)) (VStr [98]) [] = (Ok tt, [1])
  /\ fst (read HostLittle (MMap ex_map (MInt UBInt8Marshal)) [] (stream_of [1])) = Ok (VStr [98])
  /\ fst (read HostLittle (MMap ex_map (MInt UBInt8Marshal)) [] (stream_of [2])) = Err KeyError
  /\ mk_map (ex_map ++ [(VStr [99], VInt 1)]) (MInt UBInt8Marshal) = Err AssertionError.
Proof.
  split; [vm_compute; reflexivity|]. split; [|vm_compute; auto].
  split; repeat constructor.
Qed.

(** C26.  A pointer anywhere below an outermost struct (which has no context of its own) takes
    its value from the attribute of that name of the outermost struct. *)
Theorem C26_pointer_outermost : forall h p l levels c s v s',
  lookup c "struct" = None -> lv_ctx l = None -> p <> lv_name l ->
  read h (nest (l :: levels) (MPtr p)) c s = (Ok v, s') ->
  getattr_path v (lv_name l :: map lv_name levels) = py_getattr v p
  /\ exists w, py_getattr v p = Ok w.
Proof. exact pointer_outermost. Qed.
Print Assumptions C26_pointer_outermost.

(** C26.  Where no struct is being read, or only structs with a context of their own that names none, a pointer is an
    AttributeError; nothing is consumed. *)
Theorem C26_pointer_nowhere : forall h p c s, lookup c "struct" = None ->
  read h (MPtr p) c s = (Err AttributeError, s)
  /\ forall cls d n v fs, lookup d "struct" = None -> read h (MStruct cls (Some d) (FField n (MPtr p) v :: fs)) c s = (Err AttributeError, s).
Proof.
  assert (P : forall h p c s, lookup c "struct" = None -> read h (MPtr p) c s = (Err AttributeError, s)).
  { intros h p c s L. change (read h (MPtr p) c s) with (slift (S:=stream) (py_getattr (ctx_get c "struct") p) s). unfold ctx_get. now rewrite L. }
  intros h p c s L. split; [now apply P|]. intros cls d n v fs D. rewrite read_struct, read_fields_cons. unfold sbind. rewrite read_field_field.
  rewrite P; [reflexivity|]. unfold get_updated_context. induction c as [|[k w] c IH]; cbn [app lookup] in *; [exact D|]. destruct (String.eqb k "struct"); [discriminate|now apply IH].
Qed.
Print Assumptions C26_pointer_nowhere.
Example C26_nowhere_case : fst (read HostLittle (MStruct "S" (Some [("int_repr_format", VStr [37; 120])]) [FField "n" (MInt UBInt8Marshal) VNone; FField "p" (MPtr "n") VNone]) [] (stream_of [5]))
  = Err AttributeError.
Proof. vm_compute. reflexivity. Qed.

(** Both structs have a field "n"; the pointer of the inner one gives the outer value. *)
Definition ex_outer : level := mkLevel "Outer" None [FField "n" (MInt UBInt8Marshal) VNone] "inner" VNone.
Definition ex_inner : level := mkLevel "Inner" None [FField "n" (MInt UBInt8Marshal) VNone] "ptr" VNone.
Example C26_nonvacuous :
  lookup (@nil (name * value)) "struct" = None /\ lv_ctx ex_outer = None /\ "n" <> lv_name ex_outer
  /\ fst (read HostLittle (nest [ex_outer; ex_inner] (MPtr "n")) [] (stream_of [1; 2]))
     = Ok (VObj "Outer" [("n", VInt 1);
             ("inner", VObj "Inner" [("n", VInt 2); ("ptr", VInt 1)])]).
Proof. repeat split; try discriminate; vm_compute; reflexivity. Qed.

(** C27.  The mapping given to a key selector makes no difference to reading... *)
Theorem C27_mapping_ignored : forall h key m1 m2 d c s,
  read h (MSel key m1 d) c s = read h (MSel key m2 d) c s.
Proof. exact key_selector_mapping. Qed.
Print Assumptions C27_mapping_ignored.
(** ... so without a default nothing can ever be read, and an InstructError is raised once the
    key has been decoded... *)
Theorem C27_no_default : forall h key mapping c s,
  (forall v s', read h (MSel key mapping None) c s <> (Ok v, s'))
  /\ (portable h false true key -> good_stream s ->
      forall k s1, read h key c s = (Ok k, s1) -> hashable k = true ->
      fst (read h (MSel key mapping None) c s) = Err InstructError).
Proof.
  intros. split; [apply key_selector_no_default|]. intros. eapply key_selector_no_default_error; eauto.
Qed.
Print Assumptions C27_no_default.
(** ... and with a default every success is the default's, read from the start. *)
Theorem C27_default_always : forall h key mapping d c s v s',
  portable h false false key -> portable h false false d -> good_stream s ->
  read h (MSel key mapping (Some d)) c s = (Ok v, s') -> read h d c s = (Ok v, s').
Proof. exact key_selector_default. Qed.
Print Assumptions C27_default_always.
(** Conversely: read the key and, separately, the default from the start.  If the default takes at least
    the bytes of the key, this is the result of the selector; if it takes less, the selector raises. *)
Theorem C27_default_complete : forall h key mapping d c s k s1 v s',
  portable h false true key -> portable h false true d -> good_stream s ->
  read h key c s = (Ok k, s1) -> hashable k = true -> read h d c s = (Ok v, s') ->
  exists i j, s1 = consume i s /\ s' = consume j s /\ (i <= List.length (rest s))%nat /\ (j <= List.length (rest s))%nat
    /\ ((i <= j)%nat -> read h (MSel key mapping (Some d)) c s = (Ok v, s'))
    /\ ((j < i)%nat -> fst (read h (MSel key mapping (Some d)) c s) = Err InstructError).
Proof. exact key_selector_complete. Qed.
Print Assumptions C27_default_complete.

(** A key that is decoded as a list is a TypeError, with or without a default. *)
Theorem C27_list_key : forall h key mapping d c s l s1, portable h false true key -> good_stream s ->
  read h key c s = (Ok (VList l), s1) -> fst (read h (MSel key mapping d) c s) = Err TypeError.
Proof. exact key_selector_list_key. Qed.
Print Assumptions C27_list_key.

Example C27_nonvacuous :
  fst (read HostLittle (MSel (MInt UBInt8Marshal) [(VInt 1, ex_pair)] None) [] (stream_of [1; 2; 0])) = Err InstructError
  /\ read HostLittle (MSel (MInt UBInt8Marshal) [(VInt 1, MStruct "Q" None [])] (Some ex_pair)) [] (stream_of [1; 2; 0])
     = (Ok (ex_pair_val 1 2), SBytesIO [1; 2; 0] 3)
  /\ portable HostLittle false true (MInt UBInt8Marshal) /\ portable HostLittle false false ex_pair
  /\ good_stream (stream_of [1; 2; 0]).
Proof.
  split; [vm_compute; reflexivity|]. split; [vm_compute; reflexivity|]. split; [exact I|].
  split; [cbn; tauto|]. split; [cbn; vm_compute; split; discriminate|].
  split; [vm_compute; discriminate|]. repeat constructor; cbn; lia.
Qed.
Example C27_nonvacuous_complete :
  portable HostLittle false true ex_pair
  /\ fst (read HostLittle (MInt UBInt8Marshal) [] (stream_of [1; 2; 0])) = Ok (VInt 1) /\ hashable (VInt 1) = true
  /\ fst (read HostLittle ex_pair [] (stream_of [1; 2; 0])) = Ok (ex_pair_val 1 2)
  /\ fst (read HostLittle (MSel (MInt UBInt16Marshal) [] (Some (MInt UBInt8Marshal))) [] (stream_of [1; 2; 0])) = Err InstructError.
Proof. split; [cbn; tauto|]. repeat split. Qed.


(** C28.  A function selector returns what the reader picked by the function returns on the
    original stream; the reader has consumed at least what the function looked at. *)
Theorem C28_selector_sound : forall h choices func mm c s v s',
  rprog_ok (func c) -> Forall (portable h false false) choices -> good_stream s ->
  read h (MFunSel choices func mm) c s = (Ok v, s') ->
  exists i m j k, run_rprog (func c) s = (Ok i, consume j s) /\ nth_error choices i = Some m
    /\ read h m c s = (Ok v, s') /\ s' = consume k s /\ (j <= k <= List.length (rest s))%nat.
Proof. exact fun_selector_sound. Qed.
Print Assumptions C28_selector_sound.

(** C28.  Conversely: run the function and then the picked reader on the original stream.  If the
    reader consumed as much as the function, this is the result of the selector; if less, the
    selector raises. *)
Theorem C28_selector_complete : forall h choices func mm c s i s1 m v s',
  rprog_ok (func c) -> good_stream s ->
  run_rprog (func c) s = (Ok i, s1) -> nth_error choices i = Some m -> portable h false true m ->
  read h m c s = (Ok v, s') ->
  exists j k, s1 = consume j s /\ s' = consume k s /\ (j <= List.length (rest s))%nat
    /\ (k <= List.length (rest s))%nat
    /\ ((j <= k)%nat -> read h (MFunSel choices func mm) c s = (Ok v, s'))
    /\ ((k < j)%nat -> fst (read h (MFunSel choices func mm) c s) = Err AttributeError).
Proof. exact fun_selector_complete. Qed.
Print Assumptions C28_selector_complete.

(** Picks by the second byte. *)
Definition ex_func (n : Z) : ctx -> rprog nat :=
  fun _ => RRead n (fun b => RRet (Ok (if nth 1 b 0 =? 0 then 0%nat else 1%nat))).
Definition ex_sel (n : Z) : marshal :=
  MFunSel [ex_pair; MStruct "One" None [FField "x" (MInt UBInt8Marshal) VNone]] (ex_func n) UNBOUNDED_MIN_MAX.
Example C28_nonvacuous :
  rprog_ok (ex_func 2 []) /\ Forall (portable HostLittle false true) [ex_pair; MStruct "One" None [FField "x" (MInt UBInt8Marshal) VNone]]
  /\ good_stream (stream_of [7; 0; 1; 9])
  /\ read HostLittle (ex_sel 2) [] (stream_of [7; 0; 1; 9]) = (Ok (ex_pair_val 7 256), SBytesIO [7; 0; 1; 9] 3)
  /\ fst (read HostLittle (ex_sel 2) [] (stream_of [7; 5; 1; 9])) = Err AttributeError.
Proof.
  split. { constructor; [unfold maxsize; lia|]. intros. constructor. }
  split; [repeat constructor|]. split.
  { split; [cbn; vm_compute; split; discriminate|]. split; [vm_compute; discriminate|]. repeat constructor; cbn; lia. }
  split; vm_compute; reflexivity.
Qed.
