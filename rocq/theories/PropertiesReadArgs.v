(** Property C105: extra arguments of create_from_stream and create_from_string. *)
From Verif Require Import Base IntCodec BitStringIO Stream StreamSpec StreamProofs MinMax Marshal ReadArgs ReadArgsSpec ReadArgsFacts FieldSpec Lazy LazySpec LazyProofs LazyArgs LazyArgsFacts.
From Coq Require Import ZArith List Bool String Lia.
Import ListNotations.
Open Scope string_scope.
Open Scope list_scope.
Open Scope Z_scope.

(** ** C105.  Extra keyword arguments act as if they were the defaults of the fields of that name, in the struct that is
    read and in every struct inside it (but not in structs that only say how long a string is, how many bytes an array
    has, or what a selector selects), as long as no number gets them.  Extra positional arguments are ignored. *)
Theorem C105_as_defaults : forall h args kw m, distinct_names m -> no_numbers m ->
  forall c s, read_kw h args kw m c s = read h (with_defaults kw m) c s.
Proof. intros h args kw m D N. exact (proj1 (read_as_defaults h args kw) m D N). Qed.
Print Assumptions C105_as_defaults.

(** But where a number gets them, there is no object: a number fails with TypeError without reading anything, and so
    nothing that always has a number in it can be read with extra arguments, whatever the input. *)
Theorem C105_number_refuted : forall h args kw, (args <> [] \/ kw <> []) ->
  (forall f c s, read_kw h args kw (MInt f) c s = (Err TypeError, s)) /\ (forall f c s, read_kw h args kw (MFloat f) c s = (Err TypeError, s))
  /\ forall m, has_number m -> forall c s, exists e s', read_kw h args kw m c s = (Err e, s').
Proof.
  intros h args kw X. assert (E : extra args kw = true) by (destruct args, kw; try reflexivity; destruct X; congruence).
  split; [intros; cbn [read_kw]; now rewrite E|]. split; [intros; cbn [read_kw]; now rewrite E|]. exact (proj1 (numbers_fail h args kw E)).
Qed.
Print Assumptions C105_number_refuted.

(** Where every field is read from the input and no callable is asked, they have no effect at all. *)
Theorem C105_overwritten : forall h args kw m, distinct_names m -> unconditional m -> no_numbers m ->
  forall c c' s, read_kw h args kw m c s = read h m c' s.
Proof. intros h args kw m D U N. exact (proj1 (read_ignores h args kw) m U D N). Qed.
Print Assumptions C105_overwritten.

(** An optional field that is left out has the value that was given, and its default if none was. *)
Theorem C105_left_out : forall h args kw cls cctx fs n m pr d, distinct_names (MStruct cls cctx fs) -> no_numbers (MStruct cls cctx fs) ->
  In (FOpt n m pr d) fs -> (forall o c s, run_rprog (pr o c) s = (Ok false, s)) ->
  forall c s v s', read_kw h args kw (MStruct cls cctx fs) c s = (Ok v, s') ->
  exists a, v = VObj cls a /\ lookup a n = Some (match lookup kw n with Some x => x | None => d end).
Proof. exact left_out. Qed.
Print Assumptions C105_left_out.

(** Names that no field has are ignored; without extra arguments, reading is what the other properties are about. *)
Theorem C105_other_names : forall h args kw m, distinct_names m -> no_numbers m -> (forall n, In n (all_names m) -> lookup kw n = None) ->
  forall c s, read_kw h args kw m c s = read h m c s.
Proof. exact other_names. Qed.
Print Assumptions C105_other_names.
Theorem C105_none : forall h m c s, read_kw h [] [] m c s = read h m c s.
Proof. intros h. exact (proj1 (read_without h)). Qed.
Print Assumptions C105_none.

(** create_from_string takes bytes only, and reads them like a stream that has nothing else. *)
Theorem C105_from_string : forall h args kw m c,
  (forall data, create_from_string h args kw m (VBytes data) c = fst (read_kw h args kw m c (SBytesIO data 0)))
  /\ (forall v, (forall data, v <> VBytes data) -> create_from_string h args kw m v c = Err TypeError).
Proof. intros h args kw m c. split; [reflexivity|]. intros v H. destruct v; try reflexivity. now destruct (H b). Qed.
Print Assumptions C105_from_string.

(** With lazy containers (of C19) the same holds as without: if the class without laziness can be read with the extra
    arguments, the lazy one can, taking the same bytes, and no program that uses the object can tell the two apart.  In
    particular what was given for a field in a lazy container is never seen. *)
Theorem C105_lazy : forall h args kw cls cctx items, Forall (item_ok h) items -> (forall f, In (IField f) items -> blind h (field_with_default kw f)) ->
  distinct_names (MStruct cls cctx (map eager items)) -> no_numbers (MStruct cls cctx (map eager items)) -> NoDup (flat_map item_names items) ->
  forall c s E s', stream_ok s -> read_kw h args kw (MStruct cls cctx (map eager items)) c s = (Ok (VObj cls E), s') ->
  exists o, lazy_read_kw h args kw cls cctx items c s = (Ok o, s')
    /\ forall us, history_lazy_kw h args kw cls cctx items us o = history_eager h cls cctx (map eager items) us E.
Proof. exact lazy_args. Qed.
Print Assumptions C105_lazy.
Theorem C105_lazy_none : forall h cls cctx items,
  (forall c s, lazy_read_kw h [] [] cls cctx items c s = lazy_read h cls cctx items c s)
  /\ forall us o, history_lazy_kw h [] [] cls cctx items us o = history_lazy h cls cctx items us o.
Proof. exact lazy_none. Qed.
Print Assumptions C105_lazy_none.

(** But a lazy container with a number in it is accepted whatever the input, where the same class without laziness can never be
    read: the error comes when the object is used. *)
Theorem C105_lazy_number_refuted : forall h args kw cls cctx fs n, (args <> [] \/ kw <> []) -> Forall lazy_field_ok fs -> In n (flat_map stored_names fs) ->
  (exists size, lazy_size fs = Ok size /\ size <= maxsize) -> Exists has_number_in fs ->
  forall c s, stream_ok s -> exists o s1 e, lazy_read_kw h args kw cls cctx [ILazy fs] c s = (Ok o, s1)
    /\ fst (lazy_get_kw h args kw cls cctx [ILazy fs] n o) = Err e
    /\ (forall v, fst (lazy_set_kw h args kw cls cctx [ILazy fs] n v o) = Err e)
    /\ fst (lazy_to_bytes_kw h args kw cls cctx [ILazy fs] o) = Err e
    /\ (forall s', exists e' s'', read_kw h args kw (MStruct cls cctx [FGroup fs]) c s' = (Err e', s'')).
Proof.
  intros h args kw cls cctx fs n X. apply lazy_number. destruct args, kw; try reflexivity. destruct X; congruence.
Qed.
Print Assumptions C105_lazy_number_refuted.

(** If the number comes first it is a TypeError, the first time; from then on the attributes of the container are what the
    extra arguments say, and KeyError where they say nothing. *)
Theorem C105_lazy_number_first : forall h args kw cls cctx n0 m d fs n, (args <> [] \/ kw <> []) -> (exists f, m = MInt f) \/ (exists f, m = MFloat f) ->
  Forall lazy_field_ok fs -> In n (flat_map stored_names (FField n0 m d :: fs)) ->
  (exists size, lazy_size (FField n0 m d :: fs) = Ok size /\ size <= maxsize) ->
  forall c s, stream_ok s -> let items := [ILazy (FField n0 m d :: fs)] in
  exists o s1 o', lazy_read_kw h args kw cls cctx items c s = (Ok o, s1)
    /\ lazy_get_kw h args kw cls cctx items n o = (Err TypeError, o')
    /\ lazy_get_kw h args kw cls cctx items n o' = (match lookup kw n with Some v => Ok v | None => Err KeyError end, o').
Proof.
  intros h args kw cls cctx n0 m d fs n X. apply lazy_number_first. destruct args, kw; try reflexivity. destruct X; congruence.
Qed.
Print Assumptions C105_lazy_number_first.

(** Strings, an optional field that is left out, and an array counted in bytes of nested structs with a field of the same name. *)
Definition ra_byte : marshal := MInt (mkFmt EBig false I8).
Definition ra_char : marshal := MPadStr 1 (VBytes [0]) PRight.
Definition ra_never : value -> ctx -> rprog bool := fun _ _ => RRet (Ok false).
Definition ra_inner : marshal := MStruct "Inner" None [FField "a" ra_char VNone; FOpt "x" ra_byte ra_never VNone].
Definition ra_inner' : marshal := MStruct "Inner" None [FField "a" ra_char VNone; FOpt "x" ra_char ra_never VNone].
Definition ra_fields : list field := [FConst "k" ra_char (VBytes [7]); FOpt "x" ra_char ra_never VNone; FField "l" (MSumArr ra_byte ra_inner') (VList [])].
Definition ra_outer : marshal := MStruct "Outer" None ra_fields.
Definition ra_plain : marshal := MStruct "Plain" None [FField "a" ra_char VNone; FField "s" (MVarStr ra_byte (VBytes [0]) PNone) VNone].
Example C105_nonvacuous :
  distinct_names ra_outer /\ no_numbers ra_outer /\ In (FOpt "x" ra_char ra_never VNone) ra_fields
  /\ (forall o c s, run_rprog (ra_never o c) s = (Ok false, s))
  /\ create_from_string HostLittle [] [("x", VInt 5); ("a", VInt 6); ("zz", VInt 9)] ra_outer (VBytes [7; 2; 3; 4; 99]) []
     = Ok (VObj "Outer" [("k", VBytes [7]); ("x", VInt 5); ("l", VList [VObj "Inner" [("a", VBytes [3]); ("x", VInt 5)]; VObj "Inner" [("a", VBytes [4]); ("x", VInt 5)]])])
  /\ create_from_string HostLittle [] [] ra_outer (VBytes [7; 1; 3]) []
     = Ok (VObj "Outer" [("k", VBytes [7]); ("x", VNone); ("l", VList [VObj "Inner" [("a", VBytes [3]); ("x", VNone)]])])
  /\ unconditional ra_plain /\ distinct_names ra_plain /\ no_numbers ra_plain
  /\ create_from_string HostLittle [VInt 1] [("a", VInt 6)] ra_plain (VBytes [7; 1; 3]) [] = Ok (VObj "Plain" [("a", VBytes [7]); ("s", VBytes [3])])
  /\ ~ unconditional ra_inner /\ ~ no_numbers ra_inner /\ ~ has_number ra_inner
  /\ (forall n, In n (all_names ra_plain) -> lookup [("zz", VInt 9)] n = None)
  /\ create_from_string HostLittle [] [] ra_plain (VStr [65]) [] = Err TypeError
  /\ has_number (MStruct "N" None [FField "a" ra_char VNone; FField "n" ra_byte (VInt 1)])
  /\ create_from_string HostLittle [] [("zz", VInt 1)] (MStruct "N" None [FField "a" ra_char VNone; FField "n" ra_byte (VInt 1)]) (VBytes [1; 2]) [] = Err TypeError.
Proof.
  split; [cbn; repeat split; repeat constructor; cbn; intuition discriminate|]. split; [cbn; tauto|]. split; [cbn; tauto|]. split; [reflexivity|]. split; [reflexivity|]. split; [reflexivity|].
  split; [cbn; tauto|]. split; [cbn; repeat split; repeat constructor; cbn; intuition discriminate|]. split; [cbn; tauto|]. split; [reflexivity|]. split; [cbn; tauto|].
  split; [cbn; tauto|]. split; [cbn; tauto|].
  split; [|split; [reflexivity|split; [cbn; tauto|reflexivity]]]. cbn. intros n [<-|[<-|[]]]; reflexivity.
Qed.

(** A lazy container of strings behind a nested struct with an optional field, and one with a number. *)
Definition la_items : list item :=
  [ IField (FField "i" ra_inner' VNone); ILazy [FField "a" ra_char VNone; FField "b" ra_char VNone] ].
Definition la_kw : attrs := [("x", VInt 5); ("a", VInt 6)].
Example C105_lazy_nonvacuous :
  Forall (item_ok HostLittle) la_items /\ (forall f, In (IField f) la_items -> blind HostLittle (field_with_default la_kw f))
  /\ distinct_names (MStruct "L" None (map eager la_items)) /\ no_numbers (MStruct "L" None (map eager la_items)) /\ NoDup (flat_map item_names la_items)
  /\ stream_ok (stream_of [1; 2; 3])
  /\ (exists E s', read_kw HostLittle [] la_kw (MStruct "L" None (map eager la_items)) [] (stream_of [1; 2; 3]) = (Ok (VObj "L" E), s')
       /\ history_eager HostLittle "L" None (map eager la_items) [Get "i"; Get "a"; Get "b"] E
          = [AValue (Ok (VObj "Inner" [("a", VBytes [1]); ("x", VInt 5)])); AValue (Ok (VBytes [2])); AValue (Ok (VBytes [3]))])
  /\ (let items := [ILazy [FField "n" ra_byte (VInt 1); FField "a" ra_char VNone]] in
      match lazy_read_kw HostLittle [] la_kw "L" None items [] (stream_of [1; 2]) with
      | (Ok o, _) => history_lazy_kw HostLittle [] la_kw "L" None items [Get "n"; Get "n"; Get "a"; Set_ "n" (VInt 3); Get "n"] o
      | _ => []
      end = [AValue (Err TypeError); AValue (Err KeyError); AValue (Ok (VInt 6)); ADone (Ok tt); AValue (Ok (VInt 3))]).
Proof.
  split. { constructor; [|constructor; [|constructor]]; cbn [item_ok].
    - cbn [blind]. intros c c' s. reflexivity.
    - split; [repeat constructor; cbn; unfold maxsize; lia|]. exists 2. split; [reflexivity|unfold maxsize; lia]. }
  split. { intros f [E|[E|[]]]; [injection E as <-|discriminate]. cbn [blind field_with_default]. intros c c' s. reflexivity. }
  split. { cbn. repeat split; repeat constructor; cbn; intuition discriminate. }
  split. { cbn. tauto. }
  split. { cbn. repeat constructor; cbn; intuition discriminate. }
  split. { apply stream_of_ok. }
  split; [eexists _, _; split; vm_compute; reflexivity|vm_compute; reflexivity].
Qed.
