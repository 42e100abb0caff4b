(** Proofs: showing objects with contexts. *)
From Verif Require Import Base IntCodec Stream MinMax Marshal MarshalInd Repr ReprFacts Show PolySpec PolyFacts ShowSpec.
From Coq Require Import ZArith List Bool String Lia.
Import ListNotations.
Open Scope Z_scope.
Open Scope string_scope.

Section Facts.
Variables (pd pf : Z -> string) (pr : value -> res string) (op : value -> value -> res string).
Variable W : classes.
Notation text := (text pd pf pr op).
Notation field_text := (field_text pd pf pr op).
Notation fields_text := (fields_text pd pf pr op).
Notation obj_text := (obj_text pd pf pr op W).
Notation to_repr := (to_repr pd pf pr).
Notation field_repr := (field_repr pd pf pr).

Lemma fields_text_fix ro fs c a :
  (fix go (fs : list field) : res (list string) :=
     match fs with
     | [] => Ok []
     | f :: r => let* x := field_text ro f c a in let* xs := go r in Ok (x :: xs)
     end) fs = fields_text ro fs c a.
Proof. induction fs as [|f r IH]; cbn; [auto|]. now rewrite IH. Qed.
Lemma group_text ro fs c a : field_text ro (FGroup fs) c a = let* ts := fields_text ro fs c a in Ok (join ", " ts).
Proof. cbn [Show.field_text]. now rewrite fields_text_fix. Qed.
Lemma lookup_app {A} (l r : list (name * A)) n : lookup (l ++ r)%list n = match lookup l n with Some v => Some v | None => lookup r n end.
Proof. induction l as [|[k v] l IH]; cbn; [auto|]. destruct (String.eqb k n); auto. Qed.
Lemma no_format_updated cctx o c : (forall d, cctx = Some d -> no_format d) -> no_format c -> no_format (get_updated_context cctx o c).
Proof.
  intros H (A & B). unfold no_format, get_updated_context. rewrite !lookup_app, A, B. destruct cctx as [d|]; [exact (H d eq_refl)|]. split; reflexivity.
Qed.

(** ** The default formats *)
Definition same_text (n : nat) (m : marshal) : Prop := forall c v t, no_format c -> to_repr m v = Ok t -> text (obj_text n) m c v = Ok t.
Definition same_field_text (n : nat) (f : field) : Prop := forall c a t, no_format c -> field_repr f a = Ok t -> field_text (obj_text n) f c a = Ok t.
Lemma int_default c v : no_format c -> int_text pd pf op c v = show_int pd v.
Proof. intros (A & _). unfold int_text, ctx_default. now rewrite A. Qed.
Lemma float_default c v : no_format c -> float_text pd pf op c v = show_float pf v.
Proof. intros (_ & A). unfold float_text, ctx_default. now rewrite A. Qed.
Lemma bits_default c a bs : no_format c -> rmap_list (bf_text pd pf pr op c a) bs = rmap_list (bf_repr pd pr a) bs.
Proof.
  intros H. induction bs as [|b bs IH]; cbn [rmap_list]; [reflexivity|]. rewrite IH. f_equal. unfold bf_text, bf_repr. f_equal.
  destruct (bf_marshal b); cbn [bm_text bm_repr]; try reflexivity; now apply int_default.
Qed.
Lemma elements_same n el c : same_text n el -> no_format c -> forall l ts, rmap_list (to_repr el) l = Ok ts -> rmap_list (text (obj_text n) el c) l = Ok ts.
Proof.
  intros H Hc. induction l as [|x l IH]; intros ts E; cbn [rmap_list] in *; [exact E|]. destruct (to_repr el x) as [t|] eqn:Ex; [|discriminate]. cbn [rbind] in E.
  rewrite (H c x t Hc Ex). cbn [rbind]. destruct (rmap_list (to_repr el) l) as [ts'|] eqn:El; [|discriminate]. now rewrite (IH _ eq_refl).
Qed.
Lemma fields_same_text n fs c a : Forall (same_field_text n) fs -> no_format c -> forall ts, fields_repr pd pf pr fs a = Ok ts -> fields_text (obj_text n) fs c a = Ok ts.
Proof.
  intros H Hc. induction H as [|f fs Hf _ IH]; intros ts E; cbn [fields_repr Show.fields_text] in *; [exact E|]. destruct (field_repr f a) as [t|] eqn:Ex; [|discriminate]. cbn [rbind] in E.
  rewrite (Hf c a t Hc Ex). cbn [rbind]. destruct (fields_repr pd pf pr fs a) as [ts'|] eqn:El; [|discriminate]. now rewrite (IH _ eq_refl).
Qed.
Fixpoint known_fields (fs : list field) : Prop := match fs with [] => True | f :: r => known_field W f /\ known_fields r end.
Lemma known_fields_all fs : (fix go (fs : list field) : Prop := match fs with [] => True | f :: r => known_field W f /\ go r end) fs -> Forall (known_field W) fs.
Proof. induction fs as [|f fs IH]; intros H; constructor; destruct H; auto. Qed.
Lemma array_same el : (known W el -> exists N, forall n, (N <= n)%nat -> same_text n el) -> known W el ->
  exists N, forall n, (N <= n)%nat -> forall c v t, no_format c -> (let* l := py_iter v in let* ts := rmap_list (to_repr el) l in Ok ("[ " ++ join ", " ts ++ " ]")) = Ok t ->
    (let* l := py_iter v in let* ts := rmap_list (text (obj_text n) el c) l in Ok ("[ " ++ join ", " ts ++ " ]")) = Ok t.
Proof.
  intros IH D. destruct (IH D) as (N & H). exists N. intros n Hn c v t Hc E. destruct (py_iter v) as [l|]; [|discriminate]. cbn [rbind] in *.
  destruct (rmap_list (to_repr el) l) as [ts|] eqn:El; [|discriminate]. now rewrite (elements_same n el c (H n Hn) Hc l ts El).
Qed.

Hypothesis NC : no_class_format W.
Lemma text_all :
  (forall m, known W m -> exists N, forall n, (N <= n)%nat -> same_text n m)
  /\ (forall f, known_field W f -> exists N, forall n, (N <= n)%nat -> same_field_text n f).
Proof.
  apply (marshal_field_ind
    (fun m => known W m -> exists N, forall n, (N <= n)%nat -> same_text n m)
    (fun f => known_field W f -> exists N, forall n, (N <= n)%nat -> same_field_text n f)).
  - intros f _. exists 0%nat. intros n _ c v t Hc E. cbn [Show.text]. now rewrite int_default.
  - intros f _. exists 0%nat. intros n _ c v t Hc E. cbn [Show.text]. now rewrite float_default.
  - intros ? _. exists 0%nat. intros n _ c v0 t Hc E. exact E.
  - intros ? _. exists 0%nat. intros n _ c v0 t Hc E. exact E.
  - intros ? _. exists 0%nat. intros k _ c v0 t Hc E. exact E.
  - intros sz p d _ _. exists 0%nat. intros n _ c v t Hc E. exact E.
  - intros ? ? ? _. exists 0%nat. intros k0 _ c v0 t Hc E. exact E.
  - intros ? ? _. exists 0%nat. intros k0 _ c v0 t Hc E. exact E.
  - intros sz el _ IH D. exact (array_same el IH D).
  - intros k el IH D. exact (array_same el IH D).
  - intros sz el _ IH D. exact (array_same el IH D).
  - intros tbl m _ _. exists 0%nat. intros n _ c v t Hc E. exact E.
  - intros cls cctx fs IH (Dw & D). apply known_fields_all in D. destruct (forall_bound same_field_text _ _ IH D) as (N & H).
    exists (S N). intros n Hn c v t Hc E. destruct v as [| | | | | |cls' a]; try discriminate; [exact E|].
    destruct (String.eqb cls' cls) eqn:Ec; [|cbn [Repr.to_repr] in E; now rewrite Ec in E]. apply String.eqb_eq in Ec. subst cls'. rewrite repr_struct in E.
    destruct (fields_repr pd pf pr fs a) as [ts|] eqn:Ef; [|discriminate]. destruct n as [|k]; [lia|]. cbn [Show.text Show.obj_text]. rewrite Dw.
    rewrite (fields_same_text k fs (get_updated_context cctx (VObj cls a) c) a (H k ltac:(lia))) with (ts := ts); [exact E| |exact Ef].
    apply no_format_updated; [|exact Hc]. intros d ->. exact (NC _ _ _ Dw).
  - intros key mapping d _ IHm IHd (Dm & Dd).
    assert (exists N, forall n, (N <= n)%nat -> Forall (fun p => same_text n (snd p)) mapping) as (N1 & H1).
    { apply (forall_bound (fun n (p : value * marshal) => same_text n (snd p)) (fun p => known W (snd p))); [exact IHm|].
      clear - Dm. induction mapping as [|[k m] r IH]; constructor; destruct Dm; auto. }
    assert (exists N, forall n, (N <= n)%nat -> forall m, d = Some m -> same_text n m) as (N2 & H2).
    { destruct d as [m|]; [|exists 0%nat; discriminate]. destruct (IHd (proj2 Dd)) as (N & H). exists N. intros n Hn m' Em. inversion Em; subst. auto. }
    exists (Nat.max N1 N2). intros n Hn c v t Hc E. destruct v as [| | | | | |cls' a]; try discriminate. rewrite repr_sel in E. destruct (sel_choice mapping d cls') as [m|] eqn:Es; [|discriminate].
    assert (Hd : d = None \/ exists c cc fs, d = Some (MStruct c cc fs)). { destruct d as [m'|]; [right|auto]. destruct Dd as ((c0 & cc & fs & ->) & _). eauto. }
    destruct (sel_choice_struct _ _ _ _ Hd Es) as (St & Hin).
    assert (Sm : same_text n m). { destruct Hin as [Hin|Hin]; [|apply (H2 n); [lia|exact Hin]]. specialize (H1 n ltac:(lia)). rewrite Forall_forall in H1.
      apply in_map_iff in Hin. destruct Hin as (p & <- & Hp). now apply H1. }
    destruct St as (c0 & cc & fs & ->). exact (Sm c _ t Hc E).
  - intros choices func mm IH D.
    assert (exists N, forall n, (N <= n)%nat -> Forall (same_text n) choices) as (N1 & H1).
    { apply (forall_bound same_text (known W)); [exact IH|]. clear - D. cbn [known] in D. induction choices as [|m r IHr]; constructor; destruct D; auto. }
    exists N1. intros n Hn c v t Hc E. destruct v as [| | | | | |cls' a]; try discriminate. rewrite repr_funsel in E. destruct (class_choice choices cls') as [m|] eqn:Es; [|discriminate].
    destruct (class_choice_struct _ _ _ Es) as (St & Hin).
    assert (Sm : same_text n m). { specialize (H1 n ltac:(lia)). rewrite Forall_forall in H1. now apply H1. }
    destruct St as (c0 & cc & fs & ->). exact (Sm c _ t Hc E).
  - intros n m d IH D. destruct (IH D) as (N & H). exists N. intros k Hk c a t Hc E. rewrite repr_named in E. cbn [Show.field_text].
    destruct (to_repr m (field_value n d a)) as [s|] eqn:Es; [|discriminate]. now rewrite (H k Hk c _ s Hc Es).
  - intros m IH D. destruct (IH D) as (N & H). exists N. intros k Hk c a t Hc E. exact (H k Hk c _ t Hc E).
  - intros n m v IH D. destruct (IH D) as (N & H). exists N. intros k Hk c a t Hc E. rewrite repr_const in E. cbn [Show.field_text].
    destruct (to_repr m v) as [s|] eqn:Es; [|discriminate]. now rewrite (H k Hk c _ s Hc Es).
  - intros n m p d IH D. destruct (IH D) as (N & H). exists N. intros k Hk c a t Hc E. rewrite repr_optional in E. cbn [Show.field_text].
    destruct (to_repr m (field_value n d a)) as [s|] eqn:Es; [|discriminate]. now rewrite (H k Hk c _ s Hc Es).
  - intros fs IH D. apply known_fields_all in D. destruct (forall_bound same_field_text _ _ IH D) as (N & H). exists N. intros n Hn c a t Hc E.
    rewrite repr_group in E. rewrite group_text. destruct (fields_repr pd pf pr fs a) as [ts|] eqn:Ef; [|discriminate].
    now rewrite (fields_same_text n fs c a (H n Hn) Hc ts Ef).
  - intros bs _. exists 0%nat. intros n _ c a t Hc E. rewrite repr_bits in E. cbn [Show.field_text]. now rewrite bits_default.
  - intros size bs _. exists 0%nat. intros n _ c a t Hc E. rewrite repr_posbits in E. cbn [Show.field_text]. now rewrite bits_default.
Qed.
Theorem default_formats m c v t : known W m -> no_format c -> to_repr m v = Ok t -> shows pd pf pr op W m c v t.
Proof. intros D Hc E. destruct (proj1 text_all m D) as (N & H). exists N. intros n Hn. exact (H n Hn c v t Hc E). Qed.
End Facts.

(** ** Own class, and the caller's formats *)
Theorem shown_by_own_class pd pf pr op W B cB fsB c a t d : for_objects d ->
  shows pd pf pr op W (MStruct B cB fsB) c (VObj B a) t -> shows pd pf pr op W d c (VObj B a) t.
Proof. intros H (N & E). exists N. intros n Hn. specialize (E n Hn). destruct d; try contradiction; exact E. Qed.

Section Agree.
Variables (pd pf : Z -> string) (pr : value -> res string) (op : value -> value -> res string).
Variables (f g : value).
Definition fixed (c : ctx) : Prop := lookup c "int_repr_format" = Some f /\ lookup c "float_repr_format" = Some g.
Lemma fixed_updated cctx o c : fixed c -> fixed (get_updated_context cctx o c).
Proof. intros (A & B). unfold fixed, get_updated_context. now rewrite !lookup_app, A, B. Qed.
Lemma text_agree ro ro' : (forall cls a c c', fixed c -> fixed c' -> ro cls a c = ro' cls a c') ->
  (forall m c c' v, fixed c -> fixed c' -> text pd pf pr op ro m c v = text pd pf pr op ro' m c' v)
  /\ (forall fd c c' a, fixed c -> fixed c' -> field_text pd pf pr op ro fd c a = field_text pd pf pr op ro' fd c' a).
Proof.
  intros R.
  assert (I : forall c c' v, fixed c -> fixed c' -> int_text pd pf op c v = int_text pd pf op c' v).
  { intros c c' v (A & _) (B & _). unfold int_text, ctx_default. now rewrite A, B. }
  assert (Fl : forall c c' v, fixed c -> fixed c' -> float_text pd pf op c v = float_text pd pf op c' v).
  { intros c c' v (_ & A) (_ & B). unfold float_text, ctx_default. now rewrite A, B. }
  assert (Bi : forall c c' a bs, fixed c -> fixed c' -> rmap_list (bf_text pd pf pr op c a) bs = rmap_list (bf_text pd pf pr op c' a) bs).
  { intros c c' a bs H H'. induction bs as [|b bs IH]; cbn [rmap_list]; [reflexivity|]. rewrite IH. f_equal. unfold bf_text. f_equal. destruct (bf_marshal b); cbn [bm_text]; auto. }
  assert (A : forall el, (forall c c' v, fixed c -> fixed c' -> text pd pf pr op ro el c v = text pd pf pr op ro' el c' v) ->
    forall c c' l, fixed c -> fixed c' -> rmap_list (text pd pf pr op ro el c) l = rmap_list (text pd pf pr op ro' el c') l).
  { intros el H c c' l Hc Hc'. induction l as [|x l IH]; cbn [rmap_list]; [reflexivity|]. now rewrite (H c c' x Hc Hc'), IH. }
  apply (marshal_field_ind
    (fun m => forall c c' v, fixed c -> fixed c' -> text pd pf pr op ro m c v = text pd pf pr op ro' m c' v)
    (fun fd => forall c c' a, fixed c -> fixed c' -> field_text pd pf pr op ro fd c a = field_text pd pf pr op ro' fd c' a)); intros; cbn [Show.text Show.field_text]; try reflexivity.
  - now apply I.
  - now apply Fl.
  - destruct (py_iter v) as [l|]; [cbn [rbind]|reflexivity]. now rewrite (A el H0 c c' l).
  - destruct (py_iter v) as [l|]; [cbn [rbind]|reflexivity]. now rewrite (A el H c c' l).
  - destruct (py_iter v) as [l|]; [cbn [rbind]|reflexivity]. now rewrite (A el H0 c c' l).
  - destruct v; auto.
  - destruct v; auto.
  - destruct v; auto.
  - now rewrite (H c c').
  - now apply H.
  - now rewrite (H c c').
  - now rewrite (H c c').
  - rewrite !fields_text_fix. f_equal. induction H as [|fd fs Hf _ IH]; cbn [Show.fields_text]; [reflexivity|]. now rewrite (Hf c c' a), IH.
  - now rewrite (Bi c c').
  - now rewrite (Bi c c').
Qed.
Lemma obj_agree W W' : same_fields W W' -> forall n cls a c c', fixed c -> fixed c' -> obj_text pd pf pr op W n cls a c = obj_text pd pf pr op W' n cls a c'.
Proof.
  intros S n. induction n as [|k IH]; intros cls a c c' Hc Hc'; cbn [Show.obj_text]; [reflexivity|]. specialize (S cls).
  destruct (W cls) as [[cctx fs]|], (W' cls) as [[cctx' fs']|]; try discriminate; [|reflexivity]. cbn in S. inversion S; subst fs'. f_equal.
  rewrite <- !fields_text_fix.
  assert (G : forall fs, fields_text pd pf pr op (obj_text pd pf pr op W k) fs (get_updated_context cctx (VObj cls a) c) a = fields_text pd pf pr op (obj_text pd pf pr op W' k) fs (get_updated_context cctx' (VObj cls a) c') a).
  { clear - IH Hc Hc'. intros fs. induction fs as [|fd fs IHf]; cbn [Show.fields_text]; [reflexivity|].
    rewrite (proj2 (text_agree _ _ IH) fd _ (get_updated_context cctx' (VObj cls a) c')) by now apply fixed_updated. now rewrite IHf. }
  rewrite !fields_text_fix. apply G.
Qed.
Theorem caller_format W W' m c v t : same_fields W W' -> fixed c -> shows pd pf pr op W m c v t -> shows pd pf pr op W' m c v t.
Proof.
  intros S Hc (N & E). exists N. intros n Hn. rewrite <- (E n Hn). unfold show. symmetry. apply text_agree; auto. intros. now apply obj_agree.
Qed.
End Agree.

Lemma fields_text_in pd pf pr op ro fs c a ts f : fields_text pd pf pr op ro fs c a = Ok ts -> In f fs -> exists x, field_text pd pf pr op ro f c a = Ok x /\ In x ts.
Proof.
  revert ts. induction fs as [|g fs IH]; intros ts E I; [destruct I|]. cbn [Show.fields_text] in E. destruct (field_text pd pf pr op ro g c a) as [x|] eqn:Ex; [|discriminate]. cbn [rbind] in E.
  destruct (fields_text pd pf pr op ro fs c a) as [xs|]; [|discriminate]. assert (ts = x :: xs) by (cbn in E; congruence). subst ts.
  destruct I as [->|I]; [exists x; split; auto; now left|]. destruct (IH xs eq_refl I) as (t & Et & It). exists t. split; auto. now right.
Qed.
(** The text of an object shows its named fields, each with the format that counts. *)
Theorem int_field_shown pd pf pr op W B cB fsB d c a t n f dv : W B = Some (cB, fsB) -> for_objects d ->
  shows pd pf pr op W d c (VObj B a) t -> In (FField n (MInt f) dv) fsB ->
  exists tf pre post, percent pd pf op (int_format_of cB c) (field_value n dv a) = Ok tf /\ t = B ++ "(" ++ pre ++ n ++ "=" ++ tf ++ post.
Proof.
  intros Hw Hd (N & E) I. specialize (E (S N) ltac:(lia)).
  assert (E2 : obj_text pd pf pr op W (S N) B a c = Ok t) by (destruct d; try contradiction; exact E). clear E. cbn [Show.obj_text] in E2. rewrite Hw in E2.
  destruct (fields_text pd pf pr op (obj_text pd pf pr op W N) fsB (get_updated_context cB (VObj B a) c) a) as [ts|] eqn:F; [|discriminate]. cbn [rbind] in E2.
  destruct (fields_text_in _ _ _ _ _ _ _ _ _ _ F I) as (x & Ex & Ix). cbn [Show.field_text Show.text] in Ex.
  destruct (int_text pd pf op (get_updated_context cB (VObj B a) c) (field_value n dv a)) as [tf|] eqn:Et; [|discriminate]. cbn [rbind] in Ex.
  destruct (join_in x ts Ix) as (pre & post & J). exists tf, pre, (post ++ ")"). split.
  - rewrite <- Et. unfold int_text, ctx_default, int_format_of, get_updated_context. rewrite lookup_app. destruct (lookup c "int_repr_format"); [reflexivity|]. destruct cB as [d0|]; reflexivity.
  - rewrite J in E2. assert (x = n ++ "=" ++ tf)%string by congruence. subst x.
    assert (T : t = (B ++ "(" ++ (pre ++ (n ++ "=" ++ tf) ++ post) ++ ")")%string) by congruence. subst t. now rewrite !app_str_assoc.
Qed.

(** ** More depth gives the same text *)
Section More.
Variables (pd pf : Z -> string) (pr : value -> res string) (op : value -> value -> res string).
Lemma text_more ro ro' : (forall cls a c t, ro cls a c = Ok t -> ro' cls a c = Ok t) ->
  (forall m c v t, text pd pf pr op ro m c v = Ok t -> text pd pf pr op ro' m c v = Ok t)
  /\ (forall fd c a t, field_text pd pf pr op ro fd c a = Ok t -> field_text pd pf pr op ro' fd c a = Ok t).
Proof.
  intros R.
  assert (A : forall el, (forall c v t, text pd pf pr op ro el c v = Ok t -> text pd pf pr op ro' el c v = Ok t) ->
    forall c v t, (let* l := py_iter v in let* ts := rmap_list (text pd pf pr op ro el c) l in Ok ("[ " ++ join ", " ts ++ " ]")) = Ok t ->
      (let* l := py_iter v in let* ts := rmap_list (text pd pf pr op ro' el c) l in Ok ("[ " ++ join ", " ts ++ " ]")) = Ok t).
  { intros el H c v t E. destruct (py_iter v) as [l|]; [|discriminate]. cbn [rbind] in *.
    destruct (rmap_list (text pd pf pr op ro el c) l) as [ts|] eqn:El; [|discriminate].
    enough (rmap_list (text pd pf pr op ro' el c) l = Ok ts) as ->; [exact E|]. clear E. revert ts El. induction l as [|x l IH]; intros ts E; cbn [rmap_list] in *; [exact E|].
    destruct (text pd pf pr op ro el c x) as [u|] eqn:Ex; [|discriminate]. cbn [rbind] in E. rewrite (H _ _ _ Ex). cbn [rbind].
    destruct (rmap_list (text pd pf pr op ro el c) l) as [us|]; [|discriminate]. now rewrite (IH _ eq_refl). }
  apply (marshal_field_ind
    (fun m => forall c v t, text pd pf pr op ro m c v = Ok t -> text pd pf pr op ro' m c v = Ok t)
    (fun fd => forall c a t, field_text pd pf pr op ro fd c a = Ok t -> field_text pd pf pr op ro' fd c a = Ok t)); intros; auto.
  - exact (A el H0 c v t H1).
  - exact (A el H c v t H0).
  - exact (A el H0 c v t H1).
  - cbn [Show.text] in *. destruct v; auto.
  - cbn [Show.text] in *. destruct v; auto.
  - cbn [Show.text] in *. destruct v; auto.
  - cbn [Show.field_text] in *. destruct (text pd pf pr op ro m c (field_value n d a)) as [s|] eqn:Es; [|discriminate]. now rewrite (H _ _ _ Es).
  - cbn [Show.field_text] in *. exact (H _ _ _ H0).
  - cbn [Show.field_text] in *. match type of H0 with rbind ?x _ = _ => destruct x as [s|] eqn:Es; [|discriminate] end. now rewrite (H _ _ _ Es).
  - cbn [Show.field_text] in *. match type of H0 with rbind ?x _ = _ => destruct x as [s|] eqn:Es; [|discriminate] end. now rewrite (H _ _ _ Es).
  - rewrite group_text in *. destruct (fields_text pd pf pr op ro fs c a) as [ts|] eqn:Es; [|discriminate].
    enough (fields_text pd pf pr op ro' fs c a = Ok ts) as -> by exact H0. clear H0. revert ts Es. induction H as [|fd fs Hf _ IH]; intros ts E; cbn [Show.fields_text] in *; [exact E|].
    destruct (field_text pd pf pr op ro fd c a) as [u|] eqn:Ex; [|discriminate]. cbn [rbind] in E. rewrite (Hf _ _ _ Ex). cbn [rbind].
    destruct (fields_text pd pf pr op ro fs c a) as [us|]; [|discriminate]. now rewrite (IH _ eq_refl).
Qed.
Lemma fields_more ro ro' : (forall cls a c t, ro cls a c = Ok t -> ro' cls a c = Ok t) -> forall fs c a ts,
  fields_text pd pf pr op ro fs c a = Ok ts -> fields_text pd pf pr op ro' fs c a = Ok ts.
Proof.
  intros R. induction fs as [|fd fs IH]; intros c a ts E; cbn [Show.fields_text] in *; [exact E|].
  destruct (field_text pd pf pr op ro fd c a) as [u|] eqn:Ex; [|discriminate]. cbn [rbind] in E. rewrite (proj2 (text_more ro ro' R) _ _ _ _ Ex). cbn [rbind].
  destruct (fields_text pd pf pr op ro fs c a) as [us|] eqn:Eu; [|discriminate]. now rewrite (IH _ _ _ Eu).
Qed.
Variable W : classes.
Lemma obj_more : forall n k, (n <= k)%nat -> forall cls a c t, obj_text pd pf pr op W n cls a c = Ok t -> obj_text pd pf pr op W k cls a c = Ok t.
Proof.
  induction n as [|n IH]; intros k Hk cls a c t E; cbn [Show.obj_text] in E; [discriminate|]. destruct k as [|k]; [lia|]. cbn [Show.obj_text].
  destruct (W cls) as [[cctx fs]|]; [|discriminate]. destruct (fields_text pd pf pr op (obj_text pd pf pr op W n) fs (get_updated_context cctx (VObj cls a) c) a) as [ts|] eqn:Ef; [|discriminate].
  rewrite (fields_more _ (obj_text pd pf pr op W k) (fun cls a c t => IH k ltac:(lia) cls a c t) _ _ _ _ Ef). exact E.
Qed.
Lemma show_enough n m c v t : show pd pf pr op W n m c v = Ok t -> shows pd pf pr op W m c v t.
Proof. intros E. exists n. intros k Hk. exact (proj1 (text_more _ _ (obj_more n k Hk)) m c v t E). Qed.
Lemma shows_one m c v t t' : shows pd pf pr op W m c v t -> shows pd pf pr op W m c v t' -> t = t'.
Proof. intros (N & E) (N' & E'). specialize (E (Nat.max N N') ltac:(lia)). specialize (E' (Nat.max N N') ltac:(lia)). congruence. Qed.
End More.

(** The text of an object shows every named field of its class, in the context updated by its class. *)
Theorem field_shown pd pf pr op W B cB fsB d c a t n m dv : W B = Some (cB, fsB) -> for_objects d ->
  shows pd pf pr op W d c (VObj B a) t -> In (FField n m dv) fsB ->
  exists tf pre post, shows pd pf pr op W m (get_updated_context cB (VObj B a) c) (field_value n dv a) tf /\ t = B ++ "(" ++ pre ++ n ++ "=" ++ tf ++ post.
Proof.
  intros Hw Hd (N & E) I. specialize (E (S N) ltac:(lia)).
  assert (E2 : obj_text pd pf pr op W (S N) B a c = Ok t) by (destruct d; try contradiction; exact E). clear E. cbn [Show.obj_text] in E2. rewrite Hw in E2.
  destruct (fields_text pd pf pr op (obj_text pd pf pr op W N) fsB (get_updated_context cB (VObj B a) c) a) as [ts|] eqn:F; [|discriminate]. cbn [rbind] in E2.
  destruct (fields_text_in _ _ _ _ _ _ _ _ _ _ F I) as (x & Ex & Ix). cbn [Show.field_text] in Ex.
  destruct (text pd pf pr op (obj_text pd pf pr op W N) m (get_updated_context cB (VObj B a) c) (field_value n dv a)) as [tf|] eqn:Et; [|discriminate]. cbn [rbind] in Ex.
  destruct (join_in x ts Ix) as (pre & post & J). exists tf, pre, (post ++ ")"). split; [exact (show_enough _ _ _ _ _ N m _ _ _ Et)|].
  rewrite J in E2. assert (x = n ++ "=" ++ tf)%string by congruence. subst x.
  assert (T : t = (B ++ "(" ++ (pre ++ (n ++ "=" ++ tf) ++ post) ++ ")")%string) by congruence. subst t. now rewrite !app_str_assoc.
Qed.
