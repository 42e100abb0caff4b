(** Calls of user-written constructors with positional arguments. *)
From Verif Require Import Base IntCodec Stream MinMax Marshal FieldSpec StructInit StructInitSpec StructInitFacts.
From Coq Require Import ZArith List Bool String Lia.
Import ListNotations.
Open Scope list_scope.

Lemma bind_error ps : forall args kw e, bind_pos ps args kw = Err e -> e = TypeError.
Proof.
  induction ps as [|[n d] ps IH]; intros args kw e; [discriminate|]. destruct args as [|v args]; cbn [bind_pos].
  - destruct (lookup kw n); cbn [rbind].
    + destruct (bind_pos ps [] (without n kw)) eqn:E; cbn [rbind]; [discriminate|]. intros [= <-]. eauto.
    + destruct d; cbn [rbind]; [|congruence]. destruct (bind_pos ps [] (without n kw)) eqn:E; cbn [rbind]; [discriminate|]. intros [= <-]. eauto.
  - destruct (has kw n); [congruence|]. destruct (bind_pos ps args kw) eqn:E; cbn [rbind]; [discriminate|]. intros [= <-]. eauto.
Qed.
Lemma bind_rest ps : forall kw x, bind_pos ps [] kw = Ok x -> snd (fst x) = [].
Proof.
  induction ps as [|[n d] ps IH]; intros kw x; [now intros [= <-]|]. cbn [bind_pos].
  destruct (match lookup kw n with Some v => Ok v | None => match d with Some v => Ok v | None => Err TypeError end end); cbn [rbind]; [|discriminate].
  destruct (bind_pos ps [] (without n kw)) eqn:E; cbn [rbind]; [|discriminate]. intros [= <-]. cbn. eauto.
Qed.
Lemma bind_twice ps : forall args kw n, In n (firstn (List.length args) (map fst ps)) -> lookup kw n <> None -> bind_pos ps args kw = Err TypeError.
Proof.
  induction ps as [|[m d] ps IH]; intros args kw n I L; [destruct args; cbn in I; contradiction|]. destruct args as [|v args]; [contradiction|].
  cbn [List.length map fst firstn] in I. cbn [bind_pos]. destruct I as [->|I].
  - unfold has. destruct (lookup kw n); [reflexivity|congruence].
  - destruct (has kw m); [reflexivity|]. now rewrite (IH args kw n I L).
Qed.
Lemma bind_args ps : forall args kw, (forall n, In n (firstn (List.length args) (map fst ps)) -> lookup kw n = None) ->
  bind_pos ps args kw = (let* x := bind_pos (skipn (List.length args) ps) [] kw in
                         Ok (combine (map fst ps) args ++ fst (fst x), skipn (List.length ps) args, snd x)).
Proof.
  induction ps as [|[m d] ps IH]; intros args kw H.
  - cbn. now destruct args.
  - destruct args as [|v args].
    + cbn [List.length skipn combine map app]. destruct (bind_pos ((m, d) :: ps) [] kw) as [[[a b] c]|e] eqn:E; [|reflexivity].
      apply bind_rest in E. cbn in E. subst b. reflexivity.
    + cbn [bind_pos]. cbn [List.length map fst firstn skipn] in *. unfold has. rewrite (H m (or_introl eq_refl)). rewrite IH by (intros n I; apply H; now right).
      destruct (bind_pos (skipn (List.length args) ps) [] kw); reflexivity.
Qed.

Lemma nodup_skip {A} (l m : list A) k : NoDup (l ++ m) -> NoDup (skipn k l ++ m).
Proof.
  revert k. induction l as [|x l IH]; intros [|k] N; cbn [skipn app] in *; auto. apply IH. now inversion N.
Qed.
Lemma skip_map {A B} (f : A -> B) k l : map f (skipn k l) = skipn k (map f l).
Proof. revert k. induction l; intros [|k]; cbn; auto. Qed.
Lemma in_split {A} k (l : list A) x : In x l <-> In x (firstn k l) \/ In x (skipn k l).
Proof. rewrite <- (firstn_skipn k l) at 1. apply in_app_iff. Qed.

(** What the call with keyword arguments only does, for the parameters that are left. *)
Lemma bind_call_args p args kw : (forall n, In n (firstn (List.length args) (map fst (p_pos p))) -> lookup kw n = None) ->
  let p' := mkParams (skipn (List.length args) (p_pos p)) (p_kwonly p) (p_varargs p) (p_varkw p) in
  bind_call p args kw
  = if negb (p_varargs p) && Nat.ltb (List.length (p_pos p)) (List.length args) then Err TypeError
    else let* b := bind_call p' [] kw in
         Ok (mkBound (combine (map fst (p_pos p)) args ++ b_vars b) (skipn (List.length (p_pos p)) args) (b_kwargs b)).
Proof.
  intros H p'. unfold bind_call. rewrite (bind_args _ _ _ H). cbn [p_pos p_kwonly p_varargs p_varkw p'].
  destruct (bind_pos (skipn (List.length args) (p_pos p)) [] kw) as [x|e] eqn:E1; cbn [rbind fst snd].
  2:{ apply bind_error in E1 as ->. now destruct (negb (p_varargs p) && _). }
  rewrite (bind_rest _ _ _ E1). destruct (bind_pos (p_kwonly p) [] (snd x)) as [y|e] eqn:E2; cbn [rbind fst snd].
  2:{ apply bind_error in E2 as ->. now destruct (negb (p_varargs p) && _). }
  assert (X : negb (match skipn (List.length (p_pos p)) args with [] => true | _ => false end) = Nat.ltb (List.length (p_pos p)) (List.length args)).
  { destruct (Nat.ltb_spec (List.length (p_pos p)) (List.length args)) as [B|B].
    - pose proof (skipn_length (List.length (p_pos p)) args) as S. destruct (skipn (List.length (p_pos p)) args); [cbn in S; lia|reflexivity].
    - now rewrite skipn_all2. }
  rewrite X. destruct (negb (p_varargs p) && Nat.ltb _ _); [reflexivity|]. cbn [negb]. rewrite andb_false_r.
  destruct (negb (p_varkw p) && negb (match snd y with [] => true | _ => false end)); [reflexivity|]. cbn [rbind b_vars b_kwargs]. now rewrite <- app_assoc.
Qed.

Lemma in_combine_nth {A B} (l : list A) (m : list B) i a b : nth_error l i = Some a -> nth_error m i = Some b -> In (a, b) (combine l m).
Proof. revert m i. induction l as [|x l IH]; intros [|y m] [|i]; cbn; try discriminate; [intros [= ->] [= ->]; now left|eauto]. Qed.
Lemma firstn_in {A} k (l : list A) x : In x (firstn k l) -> In x l.
Proof. intros I. apply (in_split k). now left. Qed.

Section Calls.
Variable fs : list field.
Lemma construct_args ui up args kw :
  NoDup (map fst (p_pos (ui_params ui)) ++ map fst (p_kwonly (ui_params ui))) -> p_varkw (ui_params ui) = false ->
  (args_fit fs (ui_params ui) args kw ->
     exists b, construct fs (Some ui :: up) args kw = run_init fs (instance_init fs false up) (ui_body ui b) (new_attrs fs kw)
       /\ b_args b = skipn (List.length (p_pos (ui_params ui))) args /\ b_kwargs b = []
       /\ (forall i n v, nth_error (map fst (p_pos (ui_params ui))) i = Some n -> nth_error args i = Some v -> In (n, v) (b_vars b))
       /\ (forall n d, In (n, d) (skipn (List.length args) (p_pos (ui_params ui)) ++ p_kwonly (ui_params ui)) ->
             (In (n, d) (p_kwonly (ui_params ui)) -> ~ field_name fs n) ->
             exists v, In (n, v) (b_vars b) /\ match lookup kw n with Some w => v = w | None => d = Some v end))
  /\ (~ args_fit fs (ui_params ui) args kw -> construct fs (Some ui :: up) args kw = (Err TypeError, new_attrs fs kw)).
Proof.
  intros N VK. destruct (construct_user fs ui up args kw) as (kw' & L & E). rewrite E. clear E. set (p := ui_params ui) in *. set (k := List.length args) in *.
  assert (KO : forall n, In n (map fst (p_kwonly p)) -> ~ In n (map fst (p_pos p))).
  { clear - N. intros n I J. induction (map fst (p_pos p)) as [|x l IH]; [easy|]. cbn in N. inversion N; subst. destruct J as [->|J]; [rewrite in_app_iff in *; tauto|auto]. }
  assert (LP : forall n, In n (map fst (p_pos p)) -> lookup kw' n = lookup kw n).
  { intros n I. rewrite L. destruct (in_dec String.string_dec n (map fst (p_pos p))); [|contradiction]. now destruct (in_dec String.string_dec n (flat_map stored_names fs)). }
  assert (LK : forall n, lookup kw n = None -> lookup kw' n = None).
  { intros n X. rewrite L, X. destruct (in_dec String.string_dec n (flat_map stored_names fs)), (in_dec String.string_dec n (map fst (p_pos p))); auto. }
  assert (HIN : forall n, In n (map fst kw) <-> lookup kw n <> None).
  { intros n. rewrite lookup_none. destruct (in_dec String.string_dec n (map fst kw)); tauto. }
  destruct (Exists_dec (fun n => lookup kw n <> None) (firstn k (map fst (p_pos p)))) as [X|X].
  { intros n. destruct (lookup kw n); [left; discriminate|right; congruence]. }
  - apply Exists_exists in X as (n & I & X). assert (X' : lookup kw' n <> None) by (rewrite LP; [exact X|eapply firstn_in; eauto]).
    assert (BC : bind_call p args kw' = Err TypeError) by (unfold bind_call; now rewrite (bind_twice _ _ _ n I X')).
    rewrite BC. split; [|auto]. intros (_ & F & _). exfalso. apply (F n I). now apply HIN.
  - assert (NK : forall n, In n (firstn k (map fst (p_pos p))) -> lookup kw n = None).
    { intros n I. destruct (lookup kw n) eqn:El; [|reflexivity]. exfalso. apply X, Exists_exists. exists n. split; [exact I|congruence]. }
    rewrite bind_call_args by (intros n I; apply LK, NK, I). fold k.
    destruct (negb (p_varargs p) && Nat.ltb (List.length (p_pos p)) k) eqn:EV.
    { apply andb_true_iff in EV as [V1 V2]. apply negb_true_iff in V1. apply Nat.ltb_lt in V2. split; [|auto].
      intros ([F|F] & _); exfalso; [fold k in F; lia|congruence]. }
    set (p' := mkParams (skipn k (p_pos p)) (p_kwonly p) (p_varargs p) (p_varkw p)).
    assert (AV : (k <= List.length (p_pos p) \/ p_varargs p = true)%nat).
    { destruct (p_varargs p); [now right|]. left. cbn [negb andb] in EV. apply Nat.ltb_ge in EV. exact EV. }
    assert (N' : NoDup (map fst (p_pos p') ++ map fst (p_kwonly p'))) by (cbn [p_pos p_kwonly p']; rewrite skip_map; apply nodup_skip, N).
    destruct (bind_call_kw p' kw' N' VK) as [((b & -> & A & K & V) & C1 & C2)|[-> C]]; cbn [rbind]; cbn [p_pos p_kwonly p'] in *.
    + split.
      * intros _. eexists. split; [reflexivity|]. cbn [b_args b_kwargs b_vars]. split; [reflexivity|]. split; [exact K|]. split.
        -- intros i n v In1 In2. apply in_or_app. left. eapply in_combine_nth; eauto.
        -- intros n d I NF. destruct (V n d I) as (v & Iv & W). exists v. split; [apply in_or_app; now right|].
           apply in_app_or in I as [I|I].
           ++ rewrite LP in W; [exact W|]. apply (in_map fst) in I. cbn in I. rewrite skip_map in I. apply (in_split k). now right.
           ++ rewrite L in W. destruct (in_dec String.string_dec n (flat_map stored_names fs)) as [J|J]; [|exact W]. now destruct (NF I).
      * intros NC. exfalso. apply NC. split; [exact AV|]. split; [intros n I J; apply HIN in J; now rewrite (NK n I) in J|]. split; [|split].
        -- intros n I. destruct (in_dec String.string_dec n (flat_map stored_names fs)) as [|NF]; [now left|]. right.
           specialize (C1 n). rewrite L in C1. destruct (in_dec String.string_dec n (flat_map stored_names fs)) as [J|_]; [contradiction|].
           apply HIN, C1, in_app_or in I as [I|I]; [left|now right]. rewrite skip_map in I. apply (in_split k). now right.
        -- intros n I. specialize (C2 n (in_or_app _ _ _ (or_introl I))). rewrite LP in C2; [now apply HIN|].
           apply (in_map fst) in I. cbn in I. rewrite skip_map in I. apply (in_split k). now right.
        -- intros n I. specialize (C2 n (in_or_app _ _ _ (or_intror I))). rewrite L in C2. pose proof I as I'. apply (in_map fst) in I'. cbn in I'. apply KO in I'.
           destruct (in_dec String.string_dec n (flat_map stored_names fs)).
           ++ destruct (in_dec String.string_dec n (map fst (p_pos p))); [contradiction|congruence].
           ++ split; [now apply HIN|auto].
    + split; [|auto]. intros (_ & _ & F1 & F2 & F3). exfalso. destruct C as [(n & H & NI)|(n & I & H)].
      * rewrite in_app_iff, skip_map in NI. assert (Hk : lookup kw n <> None) by (intros Y; apply LK in Y; contradiction).
        destruct (in_dec String.string_dec n (map fst (p_pos p))) as [J|J].
        -- apply (in_split k) in J as [J|J]; [now apply NK in J|tauto].
        -- rewrite L in H. destruct (in_dec String.string_dec n (flat_map stored_names fs)) as [Q|Q].
           ++ destruct (in_dec String.string_dec n (map fst (p_pos p))); [contradiction|congruence].
           ++ apply HIN, F1 in Hk as [|[|]]; tauto.
      * apply in_app_or in I as [I|I].
        -- rewrite LP in H; [|apply (in_map fst) in I; cbn in I; rewrite skip_map in I; apply (in_split k); now right]. apply F2, HIN in I. contradiction.
        -- destruct (F3 n I) as [Ik NF]. rewrite L in H. destruct (in_dec String.string_dec n (flat_map stored_names fs)); [contradiction|]. apply HIN in Ik. contradiction.
Qed.
End Calls.
