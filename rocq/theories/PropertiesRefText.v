(** Property C104: the texts of references, as they are shown in errors. *)
From Verif Require Import Base RefText RefTextSpec RefTextFacts.
From Coq Require Import ZArith List Bool String Ascii.
Import ListNotations.
Open Scope string_scope.
Open Scope list_scope.

(** ** C104.  The text of an expression of numbers, fields, self.x, operators, num_ref, len_ref, min_ref and max_ref
    determines the expression. *)
Theorem C104_unambiguous : forall broken quote generator function, (forall n, identifier n -> quote n = ("'" ++ n ++ "'")%string) ->
  forall a b, expression a -> expression b ->
  ref_text broken quote generator function a = ref_text broken quote generator function b -> a = b.
Proof. intros broken quote generator function Q a b. exact (expression_text broken quote generator function Q a b). Qed.
Print Assumptions C104_unambiguous.

(** It is written as in Python, with all parentheses, from the texts of its parts, whatever these are. *)
Theorem C104_notation : forall broken quote generator function, let text := ref_text broken quote generator function in
  (forall o s a b, infix o = Some s -> text (TBin o a b) = ("(" ++ text a ++ " " ++ s ++ " " ++ text b ++ ")")%string)
  /\ (forall a, text (TNeg a) = ("-(" ++ text a ++ ")")%string)
  /\ (forall a, text (TNum a) = ("numeric(" ++ text a ++ ")")%string)
  /\ (forall a, text (TLen a) = ("len_ref(" ++ text a ++ ")")%string)
  /\ (forall l, exists s, separated (map text l) s /\ text (TMin l) = ("min_ref(" ++ s ++ ")")%string /\ text (TMax l) = ("max_ref(" ++ s ++ ")")%string)
  /\ (forall a b, text (TSlice a b) = ("[" ++ text a ++ ":" ++ text b ++ "]")%string)
  /\ (forall p a b, text (TBits p a b) = (text p ++ ".bits[" ++ text a ++ ":" ++ text b ++ "]")%string /\ text (TBit p a) = (text p ++ ".bits[" ++ text a ++ "]")%string)
  /\ (forall o n v, text (TAssign o (TStr n) v) = (text o ++ "." ++ n ++ " = " ++ text v)%string /\ text (TGet o (TStr n)) = (text o ++ "." ++ n)%string)
  /\ (forall t, text (TConst (Ok t)) = t) /\ (forall n, text (TField n) = ("field_ref(" ++ quote n ++ ")")%string)
  /\ (forall n, text (TSelf n) = ("field_or_attr_ref(" ++ quote n ++ ")")%string).
Proof.
  intros broken quote generator function text. split; [|split; [reflexivity|split; [reflexivity|split; [reflexivity|split; [|repeat split; reflexivity]]]]].
  - intros o s a b H. destruct o; cbn in H; try discriminate H; injection H as <-; reflexivity.
  - intros l. exists (args_text (map text l)). split; [apply args_separated|]. split; reflexivity.
Qed.
Print Assumptions C104_notation.

(** A call of anything else than a function written in Python (a built-in function, a class, or a function that is itself
    given by a reference) shows what is called, the arguments and the keyword arguments; there is always a comma between
    the two, even if there are none, and one parenthesis too many.  What unpacks a field shows its first two arguments
    as buffer and position. *)
Theorem C104_calls : forall broken quote generator function, let text := ref_text broken quote generator function in
  forall f args kwargs, f <> TFunc -> exists pos kw rest,
  separated (map text args) pos
  /\ separated (map (fun p => fst p ++ "=" ++ text (snd p))%string kwargs) kw
  /\ separated ("buffer" :: "position" :: map text (skipn 2 args)) rest
  /\ text (TCall f args kwargs) = ("func_ref(" ++ text f ++ "(" ++ pos ++ ", " ++ kw ++ ")))")%string
  /\ text (TUnpacker f args kwargs) = ("func_ref(" ++ text f ++ "(" ++ rest ++ ", " ++ kw ++ ")))")%string
  /\ text (TUnpack (TUnpacker f args kwargs)) = ("field_unpack(" ++ text f ++ "(" ++ rest ++ ", " ++ kw ++ ")))")%string.
Proof.
  intros broken quote generator function text f args kwargs N.
  exists (args_text (map text args)), (kwargs_text (map (fun p => (fst p, text (snd p))) kwargs)), (args_text ("buffer" :: "position" :: map text (skipn 2 args))).
  split; [apply concat_separated|]. split; [|split; [apply concat_separated|]].
  { unfold kwargs_text. rewrite map_map. apply concat_separated. }
  rewrite <- skipn_map. unfold text. destruct f; try contradiction; cbn [ref_text call_text String.concat]; unfold call_text; cbn [String.concat]; rewrite ?app_assoc_s; repeat split; reflexivity.
Qed.
Print Assumptions C104_calls.

(** But the texts of after_ref, of the position at which a field is packed, of calls of functions written in Python, and
    of what unpacks a field with such a function are replaced by "(type<id> repr error)"; products and quotients show the
    repr of the operator; a list of ranges shows none of its elements. *)
Theorem C104_no_text_refuted : forall broken quote generator function, let text := ref_text broken quote generator function in
  (forall n, text (TAfter n) = broken (TAfter n))
  /\ (forall f p, text (TPackPos f p) = broken (TPackPos f p))
  /\ (forall args kw, text (TCall TFunc args kw) = broken (TCall TFunc args kw))
  /\ (forall args kw, text (TUnpacker TFunc args kw) = broken (TUnpacker TFunc args kw)
        /\ text (TUnpack (TUnpacker TFunc args kw)) = broken (TUnpack (TUnpacker TFunc args kw)))
  /\ (forall e, text (TConst (Err e)) = broken (TConst (Err e)))
  /\ (forall o a b, infix o = None -> exists f, In f ["mul"; "truediv"; "floordiv"]
        /\ text (TBin o a b) = ("(" ++ text a ++ " <built-in function " ++ f ++ "> " ++ text b ++ ")")%string)
  /\ (forall l l', text (TRanges l) = text (TRanges l')).
Proof.
  intros broken quote generator function text. repeat split; try reflexivity.
  intros o a b H. destruct o; cbn in H; try discriminate H; [exists "mul"|exists "truediv"|exists "floordiv"]; (split; [cbn; tauto|]); reflexivity.
Qed.
Print Assumptions C104_no_text_refuted.

Definition simple_quote (n : string) : string := ("'" ++ n ++ "'")%string.
(** max_ref(num_ref(self.size) - 5, -field) <= 3 *)
Definition sample : rshape :=
  TBin OLe (TMax [TBin OSub (TNum (TSelf "size")) (TConst (Ok "5")); TNeg (TField "n_1")]) (TConst (Ok "3")).
Example C104_nonvacuous : expression sample
  /\ ref_text (fun _ => "?") simple_quote "" "" sample = "(max_ref((numeric(field_or_attr_ref('size')) - 5), -(field_ref('n_1'))) <= 3)"
  /\ (forall n, identifier n -> simple_quote n = ("'" ++ n ++ "'")%string)
  /\ expression (TNeg (TConst (Ok "5"))) /\ expression (TConst (Ok "-5"))
  /\ ref_text (fun _ => "?") simple_quote "<g>" "" (TBin OMul (TRanges [TTotal]) (TAfter "a")) = "([<, g, >] <built-in function mul> ?)".
Proof.
  assert (N : forall c r, digit c = true -> all_chars number_char r -> number_text (String c r)) by (intros c r D R; exists c, r; auto).
  split; [|split; [vm_compute; reflexivity|split; [reflexivity|split; [|split; [|vm_compute; reflexivity]]]]].
  - unfold sample. constructor; [constructor; constructor|].
    + constructor; [constructor; constructor; cbn; tauto|constructor; apply N; [reflexivity|exact Logic.I]].
    + constructor; [constructor; constructor; cbn; tauto|constructor].
    + constructor. apply N; [reflexivity|exact Logic.I].
  - constructor. constructor. apply N; [reflexivity|exact Logic.I].
  - constructor. exists "5"%char, "". split; [reflexivity|]. split; [exact Logic.I|]. right. reflexivity.
Qed.

(** func_ref(getattr, self.x, default=5), with a built-in function *)
Example C104_calls_case : TConst (Ok "<built-in function getattr>") <> TFunc
  /\ ref_text (fun _ => "?") simple_quote "" "" (TCall (TConst (Ok "<built-in function getattr>")) [TSelf "x"] [("default", TConst (Ok "5"))])
     = "func_ref(<built-in function getattr>(field_or_attr_ref('x'), default=5)))".
Proof. split; [discriminate|vm_compute; reflexivity]. Qed.
