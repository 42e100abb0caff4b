(** Lemmas: [repr] of objects with lazy containers in field lists. *)
From Verif Require Import Base IntCodec BitStringIO Stream MinMax Marshal Repr Lazy LazySpec LazyShow LazyTree LazyTreeSpec LazyTreeFacts.
From Coq Require Import ZArith List Bool String Lia.
Import ListNotations.
Open Scope string_scope.
Open Scope list_scope.
Open Scope Z_scope.

Lemma app_str_assoc (a b c : string) : ((a ++ b) ++ c)%string = (a ++ b ++ c)%string.
Proof. induction a as [|x a IH]; cbn; [reflexivity|]. now rewrite IH. Qed.
Lemma join_two sep xs : forall ys, xs <> [] -> ys <> [] -> join sep (xs ++ ys) = (join sep xs ++ sep ++ join sep ys)%string.
Proof.
  induction xs as [|x r IH]; intros ys Hx Hy; [congruence|]. destruct r as [|x' r].
  - cbn [app]. destruct ys as [|y ys]; [congruence|]. reflexivity.
  - change (join sep ((x :: x' :: r) ++ ys)) with (x ++ sep ++ join sep ((x' :: r) ++ ys))%string.
    rewrite IH; [|discriminate|exact Hy]. change (join sep (x :: x' :: r)) with (x ++ sep ++ join sep (x' :: r))%string. now rewrite !app_str_assoc.
Qed.

Section Show.
Variables (percent_d percent_f : Z -> string) (py_repr : value -> res string) (o : lobj).
Notation irepr := (items_repr percent_d percent_f py_repr o).

Lemma items_repr_app i1 : forall k i2, irepr k (i1 ++ i2) = let* x := irepr k i1 in let* y := irepr (k + List.length i1)%nat i2 in Ok (x ++ y).
Proof.
  induction i1 as [|i r IH]; intros k i2; cbn [app items_repr List.length].
  - cbn. rewrite Nat.add_0_r. now destruct (irepr k i2).
  - destruct (item_repr percent_d percent_f py_repr o k i) as [x|e]; cbn [rbind]; [|reflexivity]. rewrite IH.
    replace (k + S (List.length r))%nat with (S k + List.length r)%nat by lia.
    destruct (irepr (S k) r) as [y|e]; cbn [rbind]; [|reflexivity]. now destruct (irepr _ i2).
Qed.
Lemma items_repr_length l : forall k ts, irepr k l = Ok ts -> List.length ts = List.length l.
Proof.
  induction l as [|i r IH]; intros k ts; cbn [items_repr].
  - intros [= <-]. reflexivity.
  - destruct (item_repr percent_d percent_f py_repr o k i) as [x|e]; cbn [rbind]; [|discriminate].
    destruct (irepr (S k) r) as [y|e] eqn:E; cbn [rbind]; [|discriminate]. intros [= <-]. cbn. f_equal. eauto.
Qed.
Lemma leaves_nonempty t : no_empty_list t -> leaves t <> [].
Proof.
  induction t as [i|l H] using tree_ind'; [discriminate|]. cbn [no_empty_list leaves]. intros [N F]. destruct H as [|x r H _]; [congruence|].
  cbn in F. destruct F as [F _]. specialize (H F). cbn [flat_map]. now destruct (leaves x).
Qed.

(** The texts of the members of a field list. *)
Fixpoint texts (l : list tree) (k : nat) : res (list string) :=
  match l with
  | [] => Ok []
  | x :: r => let* y := text_tree percent_d percent_f py_repr o x k in let* ys := texts r (k + width x)%nat in Ok (y :: ys)
  end.
Lemma text_list l k : text_tree percent_d percent_f py_repr o (TList l) k = let* ts := texts l k in Ok (join ", " ts).
Proof.
  assert (E : forall k, (fix go (l : list tree) (k : nat) : res (list string) :=
                    match l with
                    | [] => Ok []
                    | x :: r => let* y := text_tree percent_d percent_f py_repr o x k in let* ys := go r (k + width x)%nat in Ok (y :: ys)
                    end) l k = texts l k).
  { induction l as [|x r IH]; intros k'; cbn [texts]; [reflexivity|].
    destruct (text_tree percent_d percent_f py_repr o x k'); cbn [rbind]; [|reflexivity]. now rewrite IH. }
  cbn [text_tree]. now rewrite E.
Qed.

Definition same_text (a b : res (list string)) : Prop :=
  match a, b with
  | Ok x, Ok y => join ", " x = join ", " y /\ (x = [] <-> y = [])
  | Err e, Err e' => e = e'
  | _, _ => False
  end.
Lemma same_texts l : Forall (fun t => forall k, text_tree percent_d percent_f py_repr o t k = let* ts := irepr k (leaves t) in Ok (join ", " ts)) l ->
  fold_right (fun t P => no_empty_list t /\ P) True l -> forall k, same_text (texts l k) (irepr k (flat_map leaves l)).
Proof.
  induction 1 as [|x r H _ IH]; intros F k; [cbn; tauto|]. cbn [fold_right] in F. destruct F as [Fx Fr]. cbn [flat_map texts].
  rewrite items_repr_app, H, <- width_leaves. specialize (IH Fr (k + width x)%nat).
  destruct (irepr k (leaves x)) as [tx|e] eqn:Ex; cbn [rbind]; [|reflexivity].
  apply items_repr_length in Ex. pose proof (leaves_nonempty _ Fx) as Nx.
  assert (Tx : tx <> []) by (intros ->; destruct (leaves x); [congruence|discriminate Ex]). clear Ex.
  destruct (texts r (k + width x)) as [tr|e], (irepr (k + width x) (flat_map leaves r)) as [ts|e']; cbn [rbind same_text] in *; try contradiction; [|exact IH].
  destruct IH as [J N]. split.
  - destruct tr as [|z tr].
    + rewrite (proj1 N eq_refl), app_nil_r. reflexivity.
    + assert (ts <> []) by (intros ->; discriminate (proj2 N eq_refl)). rewrite join_two by assumption. rewrite <- J. reflexivity.
  - split; [discriminate|]. intros A. apply app_eq_nil in A. now destruct A.
Qed.
Lemma text_leaves t : no_empty_list t -> forall k, text_tree percent_d percent_f py_repr o t k = let* ts := irepr k (leaves t) in Ok (join ", " ts).
Proof.
  induction t as [i|l H] using tree_ind'; intros N k.
  - cbn [text_tree leaves items_repr]. now destruct (item_repr percent_d percent_f py_repr o k i).
  - rewrite text_list. cbn [leaves]. cbn [no_empty_list] in N. destruct N as [_ F].
    assert (G : Forall (fun t => forall k, text_tree percent_d percent_f py_repr o t k = let* ts := irepr k (leaves t) in Ok (join ", " ts)) l).
    { clear k. induction H as [|x r H _ IH]; constructor; cbn [fold_right] in F; destruct F as [Fx Fr]; auto. }
    pose proof (same_texts l G F k) as S. unfold same_text in S.
    destruct (texts l k), (irepr k (flat_map leaves l)); cbn [rbind]; try contradiction; [now destruct S as [-> _]|now rewrite S].
Qed.

Lemma texts_app l1 : forall k l2, texts (l1 ++ l2) k = let* x := texts l1 k in let* y := texts l2 (k + width (TList l1))%nat in Ok (x ++ y).
Proof.
  induction l1 as [|t r IH]; intros k l2; cbn [app texts].
  - cbn. rewrite Nat.add_0_r. now destruct (texts l2 k).
  - destruct (text_tree percent_d percent_f py_repr o t k) as [x|e]; cbn [rbind]; [|reflexivity]. rewrite IH.
    replace (k + width (TList (t :: r)))%nat with (k + width t + width (TList r))%nat by (cbn; lia).
    destruct (texts r (k + width t)) as [y|e]; cbn [rbind]; [|reflexivity]. now destruct (texts l2 _).
Qed.
Lemma texts_nonempty l k ts : texts l k = Ok ts -> l <> [] -> ts <> [].
Proof.
  destruct l as [|x r]; [congruence|]. cbn [texts]. destruct (text_tree percent_d percent_f py_repr o x k); cbn [rbind]; [|discriminate].
  destruct (texts r _); cbn [rbind]; [|discriminate]. intros [= <-] _. discriminate.
Qed.
End Show.

Lemma repr_leaves pd pf pr cls t o : no_empty_list t -> tree_repr pd pf pr cls t o = lazy_repr pd pf pr cls (leaves t) o.
Proof. intros N. unfold tree_repr, lazy_repr. rewrite text_leaves by exact N. now destruct (items_repr pd pf pr o 0 (leaves t)). Qed.

Lemma empty_shows pd pf pr cls pre post o text : pre <> [] -> post <> [] -> tree_repr pd pf pr cls (TList (pre ++ post)) o = Ok text ->
  exists a b, text = (cls ++ "(" ++ a ++ ", " ++ b ++ ")")%string
    /\ tree_repr pd pf pr cls (TList (pre ++ TList [] :: post)) o = Ok (cls ++ "(" ++ a ++ ", , " ++ b ++ ")")%string.
Proof.
  intros Np Nq. unfold tree_repr. rewrite !text_list, !texts_app. cbn [texts]. rewrite text_list. cbn [texts rbind].
  destruct (texts pd pf pr o pre 0) as [x|e] eqn:Ex; cbn [rbind]; [|discriminate].
  replace (0 + width (TList pre) + width (TList []))%nat with (0 + width (TList pre))%nat by (cbn; lia).
  destruct (texts pd pf pr o post _) as [y|e] eqn:Ey; cbn [rbind]; [|discriminate]. intros [= <-].
  pose proof (texts_nonempty _ _ _ _ _ _ _ Ex Np) as Nx. pose proof (texts_nonempty _ _ _ _ _ _ _ Ey Nq) as Ny.
  exists (join ", " x), (join ", " y). rewrite !join_two by (assumption || discriminate). cbn [rbind]. split; [now rewrite !app_str_assoc|].
  f_equal. destruct y as [|y0 y]; [congruence|].
  change (join ", " (join ", " [] :: y0 :: y)) with ("" ++ ", " ++ join ", " (y0 :: y))%string. now rewrite !app_str_assoc.
Qed.
