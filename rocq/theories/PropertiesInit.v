(** C70 - C72: constructing Struct objects, with user-written [__init__] functions and inheritance. *)
From Verif Require Import Base IntCodec Stream StreamSpec MinMax Marshal FieldSpec StructInit StructInitSpec StructInitFacts StructInitCalls StructInitStay.
From Coq Require Import ZArith List Bool String.
Import ListNotations.
Open Scope string_scope.
Open Scope list_scope.
Open Scope Z_scope.

(** C70.  Whatever the constructors in the ancestry of the class do (call their base class or not,
    assign other attributes, raise), a field they leave alone has the value that was passed by keyword,
    or else its default, when the constructor is through. *)
Theorem C70_fields_set : forall fs levels args kw n,
  Forall (level_leaves n) levels ->
  field_name fs n ->
  (forall v, lookup kw n = Some v -> lookup (snd (construct fs levels args kw)) n = Some v)
  /\ (forall d, lookup kw n = None -> NoDup (flat_map stored_names fs) -> ~ In n (map fst (class_attrs fs)) ->
      In (n, d) (flat_map stored_defaults fs) -> lookup (snd (construct fs levels args kw)) n = Some d).
Proof.
  intros fs levels args kw n L F. split; intros v K.
  - apply construct_leaves; auto. now apply new_given.
  - intros N C I. apply construct_leaves; auto. now apply new_default.
Qed.
Print Assumptions C70_fields_set.

(** The fields are there before the user's code runs, and it is called with the arguments that are
    not fields, plus the fields that are among its named parameters. *)
Theorem C70_user_code_called : forall fs ui up args kw, exists kw',
  (forall n, lookup kw' n = if in_dec String.string_dec n (flat_map stored_names fs)
                            then if in_dec String.string_dec n (map fst (p_pos (ui_params ui))) then lookup kw n else None
                            else lookup kw n)
  /\ construct fs (Some ui :: up) args kw
     = match bind_call (ui_params ui) args kw' with
       | Ok b => run_init fs (instance_init fs false up) (ui_body ui b) (new_attrs fs kw)
       | Err e => (Err e, new_attrs fs kw)
       end.
Proof. exact construct_user. Qed.
Print Assumptions C70_user_code_called.

(** What user code assigns stays, also if it is the constructor of a base class that assigns it. *)
Theorem C70_assigned_stays : forall fs ui up args kw n v,
  NoDup (map fst (p_pos (ui_params ui)) ++ map fst (p_kwonly (ui_params ui))) -> p_varkw (ui_params ui) = false ->
  args_fit fs (ui_params ui) args kw ->
  ~ In n (map fst (class_attrs fs)) ->
  (forall b, sets n v up (ui_body ui b)) ->
  lookup (snd (construct fs (Some ui :: up) args kw)) n = Some v.
Proof. exact constructed_stays. Qed.
Print Assumptions C70_assigned_stays.

(** Assigning another value to a constant raises, also in a constructor: there the user's code can
    catch the error, and the object is as before; equal values are accepted and change nothing. *)
Theorem C70_constant_assignment : forall fs ui up args kw n x v answer,
  NoDup (map fst (p_pos (ui_params ui)) ++ map fst (p_kwonly (ui_params ui))) -> p_varkw (ui_params ui) = false ->
  args_fit fs (ui_params ui) args kw ->
  lookup (class_attrs fs) n = Some x ->
  (forall b, ui_body ui b = ISet n v (fun r => IDone (answer r))) ->
  construct fs (Some ui :: up) args kw = (answer (if py_eq v x then Ok tt else Err InstructError), new_attrs fs kw).
Proof. exact constructed_constant. Qed.
Print Assumptions C70_constant_assignment.

(** C71.  A call with keyword arguments reaches the user's code exactly if each argument is a field or
    a parameter and all required parameters are passed - and no required keyword-only parameter has
    the name of a field.  The parameters then have the values passed, or their defaults. *)
Theorem C71_keyword_call : forall fs ui up kw,
  NoDup (map fst (p_pos (ui_params ui)) ++ map fst (p_kwonly (ui_params ui))) ->
  p_varkw (ui_params ui) = false ->
  (call_fits fs (ui_params ui) kw ->
     exists b, construct fs (Some ui :: up) [] kw = run_init fs (instance_init fs false up) (ui_body ui b) (new_attrs fs kw)
       /\ b_args b = [] /\ b_kwargs b = []
       /\ (forall n d, In (n, d) (p_pos (ui_params ui)) ->
           exists v, In (n, v) (b_vars b) /\ match lookup kw n with Some w => v = w | None => d = Some v end)
       /\ (forall n d, In (n, d) (p_kwonly (ui_params ui)) -> ~ field_name fs n ->
           exists v, In (n, v) (b_vars b) /\ match lookup kw n with Some w => v = w | None => d = Some v end))
  /\ (~ call_fits fs (ui_params ui) kw -> construct fs (Some ui :: up) [] kw = (Err TypeError, new_attrs fs kw)).
Proof. exact construct_fits. Qed.
Print Assumptions C71_keyword_call.

(** With positional arguments too: the call reaches the user's code exactly if there are not more of
    them than parameters, no parameter is given twice, and the rest is as above.  The parameters get
    the positional arguments in order. *)
Theorem C71_positional_call : forall fs ui up args kw,
  NoDup (map fst (p_pos (ui_params ui)) ++ map fst (p_kwonly (ui_params ui))) ->
  p_varkw (ui_params ui) = false ->
  (args_fit fs (ui_params ui) args kw ->
     exists b, construct fs (Some ui :: up) args kw = run_init fs (instance_init fs false up) (ui_body ui b) (new_attrs fs kw)
       /\ b_args b = skipn (List.length (p_pos (ui_params ui))) args /\ b_kwargs b = []
       /\ (forall i n v, nth_error (map fst (p_pos (ui_params ui))) i = Some n -> nth_error args i = Some v -> In (n, v) (b_vars b))
       /\ (forall n d, In (n, d) (skipn (List.length args) (p_pos (ui_params ui)) ++ p_kwonly (ui_params ui)) ->
             (In (n, d) (p_kwonly (ui_params ui)) -> ~ field_name fs n) ->
             exists v, In (n, v) (b_vars b) /\ match lookup kw n with Some w => v = w | None => d = Some v end))
  /\ (~ args_fit fs (ui_params ui) args kw -> construct fs (Some ui :: up) args kw = (Err TypeError, new_attrs fs kw)).
Proof. exact construct_args. Qed.
Print Assumptions C71_positional_call.

(** "A subclass that adds nothing can be constructed like its base class" is false: if the [__init__]
    of the base class requires an argument that is also a field, no keyword arguments satisfy it. *)
Theorem C71_subclass_refuted : forall fs ui up kw n,
  In (n, None) (p_pos (ui_params ui)) ->
  field_name fs n ->
  construct fs (None :: Some ui :: up) [] kw = (Err TypeError, new_attrs fs kw).
Proof. exact construct_inherited. Qed.
Print Assumptions C71_subclass_refuted.

(** Without user code in the ancestry every call succeeds, and arguments that name no field - a
    misspelt one, or positional arguments - are dropped silently. *)
Theorem C71_no_user_code : forall fs levels args kw,
  Forall (fun l => l = None) levels ->
  construct fs levels args kw = (Ok tt, new_attrs fs kw).
Proof. exact construct_plain. Qed.
Print Assumptions C71_no_user_code.

(** C72.  Reading constructs the object without arguments first: a required parameter makes it fail
    before anything is read; what the constructor stored besides the fields is kept. *)
Theorem C72_required_parameter : forall fs h cls cctx ui up c s n,
  In (n, None) (p_pos (ui_params ui)) ->
  create fs h cls cctx (Some ui :: up) c s = (Err TypeError, s).
Proof. exact create_needs_argument. Qed.
Print Assumptions C72_required_parameter.
Theorem C72_read_keeps_attributes : forall fs h cls cctx levels c s v s',
  create fs h cls cctx levels c s = (Ok v, s') ->
  exists a a', construct fs levels [] [] = (Ok tt, a) /\ v = VObj cls a'
               /\ forall n, ~ field_name fs n -> lookup a' n = lookup a n.
Proof. exact create_keeps. Qed.
Print Assumptions C72_read_keeps_attributes.
Theorem C72_read_without_user_code : forall fs h cls cctx levels c s,
  Forall (fun l => l = None) levels ->
  create fs h cls cctx levels c s = read h (MStruct cls cctx fs) c s.
Proof. exact create_plain. Qed.
Print Assumptions C72_read_without_user_code.

(** class Read10(Struct): fields lba, length; [def __init__(self, lba, tag=7)] stores a tag and
    computes another attribute from the field; class Sub(Read10) adds nothing. *)
Definition read10 : list field := [FField "lba" (MInt UBInt32Marshal) VNone; FField "length" (MInt UBInt16Marshal) (VInt 1)].
Definition read10_init : user_init :=
  mkInit (mkParams [("lba", None); ("tag", Some (VInt 7))] [] false false)
    (fun b => match lookup (b_vars b) "tag" with
              | Some t => ISet "tag" t (fun _ => IGet "lba" (fun o => match o with
                            | Some v => ISet "copy" v (fun _ => ISuper [] [] (fun r => IDone r))
                            | None => IDone (Err AttributeError) end))
              | None => IDone (Err NameError)
              end).
Definition optional_init : user_init :=
  mkInit (mkParams [("tag", Some (VInt 7))] [] false false)
    (fun b => ISet "tag" (match lookup (b_vars b) "tag" with Some t => t | None => VNone end) (fun r => IDone r)).
Example C70_nonvacuous :
  level_leaves "lba" (Some read10_init) /\ level_leaves "length" (Some read10_init)
  /\ construct read10 [Some read10_init] [] [("lba", VInt 5)]
     = (Ok tt, [("lba", VInt 5); ("length", VInt 1); ("tag", VInt 7); ("copy", VInt 5)])
  /\ fst (construct read10 [Some read10_init] [VInt 5] []) = Ok tt
  /\ lookup (snd (construct read10 [Some read10_init] [VInt 5] [])) "lba" = Some VNone.
Proof.
  split; [|split; [|repeat split]]; cbn; intros b.
  - destruct (lookup (b_vars b) "tag"); [|constructor]. constructor; [discriminate|]. intros _. constructor. intros [w|]; [|constructor].
    constructor; [discriminate|]. intros _. constructor; [easy|]. intros r. constructor.
  - destruct (lookup (b_vars b) "tag"); [|constructor]. constructor; [discriminate|]. intros _. constructor. intros [w|]; [|constructor].
    constructor; [discriminate|]. intros _. constructor; [easy|]. intros r. constructor.
Qed.
(** A subclass that first calls the constructor of its base class. *)
Definition sub_init : user_init :=
  mkInit (mkParams [] [] false false) (fun _ => ISuper [] [] (fun r => ISet "more" (VInt 1) (fun _ => IDone r))).
Example C70_nonvacuous_stays :
  args_fit read10 (ui_params sub_init) [] [("length", VInt 3)]
  /\ (forall b, sets "tag" (VInt 7) [Some optional_init] (ui_body sub_init b))
  /\ construct read10 [Some sub_init; Some optional_init] [] [("length", VInt 3)]
     = (Ok tt, [("lba", VNone); ("length", VInt 3); ("tag", VInt 7); ("more", VInt 1)]).
Proof.
  split; [|split; [|reflexivity]].
  - unfold args_fit, field_name. cbn. split; [left; constructor|]. split; [easy|]. split; [intros n [<-|[]]; tauto|]. split; easy.
  - intros b. cbn. apply se_super.
    + eapply bs_user; [reflexivity|]. cbn. apply se_here. intros r. constructor.
    + intros r. constructor; [discriminate|]. intros r'. constructor.
Qed.
Example C70_nonvacuous_constant :
  let fs := [FConst "op" (MInt UBInt8Marshal) (VInt 40); FField "lba" (MInt UBInt8Marshal) (VInt 0)] in
  let ui := mkInit (mkParams [] [] false false) (fun _ => ISet "op" (VInt 1) (fun r => IDone r)) in
  args_fit fs (ui_params ui) [] [("lba", VInt 3)]
  /\ lookup (class_attrs fs) "op" = Some (VInt 40)
  /\ construct fs [Some ui] [] [("lba", VInt 3)] = (Err InstructError, [("op", VInt 40); ("lba", VInt 3)]).
Proof.
  cbn zeta. split; [|split; reflexivity]. unfold args_fit, field_name. cbn. split; [left; constructor|]. split; [easy|]. split; [intros n [<-|[]]; tauto|]. split; easy.
Qed.
Example C71_nonvacuous :
  call_fits read10 (ui_params read10_init) [("length", VInt 3); ("lba", VInt 5)]
  /\ ~ call_fits read10 (ui_params read10_init) [("length", VInt 3)]
  /\ fst (construct read10 [Some read10_init] [] [("length", VInt 3); ("lba", VInt 5)]) = Ok tt
  /\ fst (construct read10 [None; Some read10_init] [] [("length", VInt 3); ("lba", VInt 5)]) = Err TypeError
  /\ fst (construct read10 [Some read10_init] [] [("lba", VInt 5); ("lenght", VInt 3)]) = Err TypeError
  /\ construct read10 [None] [] [("lba", VInt 5); ("lenght", VInt 3)] = (Ok tt, [("lba", VInt 5); ("length", VInt 1)]).
Proof.
  split; [|split; [|repeat split]].
  - unfold call_fits, field_name. cbn. split; [|split].
    + intros n [<-|[<-|[]]]; tauto.
    + intros n [E|[E|[]]]; [assert (n = "lba") by congruence; subst; tauto|discriminate].
    + tauto.
  - intros (_ & H & _). specialize (H "lba" (or_introl eq_refl)). cbn in H. destruct H as [H|[]]. discriminate.
Qed.
Example C71_nonvacuous_positional :
  args_fit read10 (ui_params read10_init) [VInt 5] [("length", VInt 3)]
  /\ ~ args_fit read10 (ui_params read10_init) [VInt 5] [("lba", VInt 5)]
  /\ fst (construct read10 [Some read10_init] [VInt 5] [("length", VInt 3)]) = Ok tt
  /\ fst (construct read10 [Some read10_init] [VInt 5] [("lba", VInt 5)]) = Err TypeError.
Proof.
  split; [|split; [|repeat split]].
  - unfold args_fit, field_name. cbn. split; [left; repeat constructor|]. split; [|split; [|split]].
    + intros n [<-|[]] [E|[]]. discriminate.
    + intros n [<-|[]]. tauto.
    + intros n [E|[]]. discriminate.
    + tauto.
  - intros (_ & H & _). apply (H "lba"); cbn; tauto.
Qed.
Example C72_nonvacuous :
  create read10 HostLittle "Read10" None [Some optional_init] [] (stream_of [0; 0; 1; 0; 0; 2])
  = (Ok (VObj "Read10" [("lba", VInt 256); ("length", VInt 2); ("tag", VInt 7)]), SBytesIO [0; 0; 1; 0; 0; 2] 6)
  /\ create read10 HostLittle "Read10" None [Some read10_init] [] (stream_of [0; 0; 1; 0; 0; 2])
     = (Err TypeError, stream_of [0; 0; 1; 0; 0; 2]).
Proof. split; reflexivity. Qed.
