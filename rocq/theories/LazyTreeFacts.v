(** Lemmas: field lists around lazy containers make no difference. *)
From Verif Require Import Base IntCodec BitStringIO Stream MinMax Marshal MarshalInd FieldSpec Lazy LazySpec LazyTree LazyTreeSpec LazyFacts ArrayFacts PolyFacts.
From Coq Require Import ZArith List Bool String Lia.
Import ListNotations.
Open Scope Z_scope.

(** Induction over declarations. *)
Lemma tree_ind' (P : tree -> Prop) : (forall i, P (TItem i)) -> (forall l, Forall P l -> P (TList l)) -> forall t, P t.
Proof.
  intros HI HL. fix IH 1. intros [i|l]; [apply HI|]. apply HL. induction l as [|x r IHr]; constructor; [apply IH|exact IHr].
Qed.

Lemma width_leaves t : width t = List.length (leaves t).
Proof.
  induction t as [i|l H] using tree_ind'; [reflexivity|]. cbn [width leaves]. induction H as [|x r H _ IH]; [reflexivity|].
  cbn [fold_right flat_map]. now rewrite app_length, H, IH.
Qed.

Lemma owner_app n i1 : forall k i2, owner k (i1 ++ i2) n = match owner k i1 n with Some o => Some o | None => owner (k + List.length i1) i2 n end.
Proof.
  induction i1 as [|[f|fs] r IH]; intros k i2; cbn [app owner List.length].
  - now rewrite Nat.add_0_r.
  - rewrite IH. now replace (k + S (List.length r))%nat with (S k + List.length r)%nat by lia.
  - destruct (existsb _ fs); [reflexivity|]. rewrite IH. now replace (k + S (List.length r))%nat with (S k + List.length r)%nat by lia.
Qed.
Lemma tree_owner_leaves n t : forall k, tree_owner t k n = owner k (leaves t) n.
Proof.
  induction t as [i|l H] using tree_ind'; intros k.
  - destruct i as [f|fs]; cbn [tree_owner leaves owner]; [reflexivity|]. now destruct (existsb _ fs).
  - cbn [tree_owner leaves]. revert k. induction H as [|x r H _ IH]; intros k; [reflexivity|]. cbn [flat_map].
    rewrite owner_app, H, width_leaves. destruct (owner k (leaves x) n); [reflexivity|apply IH].
Qed.
Lemma tree_class_leaves t : tree_class_attrs t = flat_map item_class_attrs (leaves t).
Proof.
  induction t as [i|l H] using tree_ind'; [symmetry; apply app_nil_r|]. cbn [tree_class_attrs leaves].
  induction H as [|x r H _ IH]; [reflexivity|]. cbn [flat_map]. now rewrite flat_map_app, H, IH.
Qed.
Lemma prepare_leaves kw t : forall a, prepare_tree kw a t = fold_left (prepare_item kw) (leaves t) a.
Proof.
  induction t as [i|l H] using tree_ind'; intros a; [reflexivity|]. cbn [prepare_tree leaves]. revert a.
  induction H as [|x r H _ IH]; intros a; [reflexivity|]. cbn [fold_left flat_map]. now rewrite fold_left_app, H, IH.
Qed.
Lemma tree_new_leaves t kw : tree_new t kw = lazy_new (leaves t) kw.
Proof. unfold tree_new, lazy_new. now rewrite prepare_leaves, tree_class_leaves. Qed.

Section Class.
Variables (h : host) (cls : name) (cctx : option ctx).

Lemma read_items_app c i1 : forall k i2 st, read_items h cls cctx c k (i1 ++ i2) st
  = (do read_items h cls cctx c k i1 ;; read_items h cls cctx c (k + List.length i1) i2) st.
Proof.
  induction i1 as [|i r IH]; intros k i2 st; cbn [app read_items List.length].
  - rewrite Nat.add_0_r. reflexivity.
  - unfold sbind. destruct (read_item h cls cctx c k i st) as [[[]|e] st']; [|reflexivity]. rewrite IH. unfold sbind.
    now replace (k + S (List.length r))%nat with (S k + List.length r)%nat by lia.
Qed.
Lemma read_tree_leaves c t : forall k st, read_tree h cls cctx c t k st = read_items h cls cctx c k (leaves t) st.
Proof.
  induction t as [i|l H] using tree_ind'; intros k st.
  - cbn [read_tree leaves read_items]. unfold sbind, sret. now destruct (read_item h cls cctx c k i st) as [[[]|e] st'].
  - cbn [read_tree leaves]. revert k st. induction H as [|x r H _ IH]; intros k st; [reflexivity|]. cbn [flat_map].
    rewrite read_items_app. unfold sbind. rewrite H, width_leaves. destruct (read_items h cls cctx c k (leaves x) st) as [[[]|e] st']; [apply IH|reflexivity].
Qed.
Lemma tree_read_leaves t c s : tree_read h cls cctx t c s = lazy_read h cls cctx (leaves t) c s.
Proof. unfold tree_read, lazy_read. now rewrite read_tree_leaves, tree_new_leaves. Qed.

Lemma write_items_app i1 : forall k i2 st, write_items h cls cctx k (i1 ++ i2) st
  = (do write_items h cls cctx k i1 ;; write_items h cls cctx (k + List.length i1) i2) st.
Proof.
  induction i1 as [|i r IH]; intros k i2 st; cbn [app write_items List.length].
  - rewrite Nat.add_0_r. reflexivity.
  - unfold sbind. destruct (write_item h cls cctx k i st) as [[[]|e] st']; [|reflexivity]. rewrite IH. unfold sbind.
    now replace (k + S (List.length r))%nat with (S k + List.length r)%nat by lia.
Qed.
Lemma write_tree_leaves t : forall k st, write_tree h cls cctx t k st = write_items h cls cctx k (leaves t) st.
Proof.
  induction t as [i|l H] using tree_ind'; intros k st.
  - cbn [write_tree leaves write_items]. unfold sbind, sret. now destruct (write_item h cls cctx k i st) as [[[]|e] st'].
  - cbn [write_tree leaves]. revert k st. induction H as [|x r H _ IH]; intros k st; [reflexivity|]. cbn [flat_map].
    rewrite write_items_app. unfold sbind. rewrite H, width_leaves. destruct (write_items h cls cctx k (leaves x) st) as [[[]|e] st']; [apply IH|reflexivity].
Qed.

Lemma use_tree_leaves t u o : use_tree h cls cctx t u o = use_lazy h cls cctx (leaves t) u o.
Proof.
  destruct u as [n|n v|]; cbn [use_tree use_lazy].
  - unfold tree_get, lazy_get. now rewrite tree_owner_leaves.
  - unfold tree_set, lazy_set. now rewrite tree_owner_leaves, tree_class_leaves.
  - unfold tree_to_bytes, lazy_to_bytes. now rewrite write_tree_leaves.
Qed.
Lemma history_leaves t us : forall o, history_tree h cls cctx t us o = history_lazy h cls cctx (leaves t) us o.
Proof.
  induction us as [|u r IH]; intros o; [reflexivity|]. cbn [history_tree history_lazy]. rewrite use_tree_leaves.
  destruct (use_lazy h cls cctx (leaves t) u o). now rewrite IH.
Qed.
End Class.

Lemma fold_add l : forall x, fold_left Z.add l x = x + fold_left Z.add l 0.
Proof. induction l as [|y r IH]; intros x; cbn [fold_left]; [lia|]. rewrite IH, (IH (0 + y)). lia. Qed.
Lemma items_sizeof_app a i1 i2 : items_sizeof (i1 ++ i2) a = let* x := items_sizeof i1 a in let* y := items_sizeof i2 a in Ok (x + y).
Proof.
  induction i1 as [|[f|fs] r IH]; cbn [app items_sizeof].
  - cbn. now destruct (items_sizeof i2 a).
  - destruct (sizeof_field f a) as [x|e]; cbn; [|reflexivity]. rewrite IH. destruct (items_sizeof r a) as [y|e]; cbn; [|reflexivity].
    destruct (items_sizeof i2 a) as [z|e]; cbn; [|reflexivity]. f_equal. lia.
  - destruct (lazy_size fs) as [x|e]; cbn; [|reflexivity]. rewrite IH. destruct (items_sizeof r a) as [y|e]; cbn; [|reflexivity].
    destruct (items_sizeof i2 a) as [z|e]; cbn; [|reflexivity]. f_equal. lia.
Qed.
Lemma sizeof_tree_leaves a t : sizeof_tree t a = items_sizeof (leaves t) a.
Proof.
  induction t as [i|l H] using tree_ind'.
  - destruct i as [f|fs]; cbn [sizeof_tree leaves items_sizeof]; [destruct (sizeof_field f a)|destruct (lazy_size fs)]; cbn; try reflexivity; f_equal; lia.
  - cbn [sizeof_tree leaves]. induction H as [|x r H _ IH]; [reflexivity|]. cbn [flat_map]. rewrite items_sizeof_app, H, <- IH.
    destruct (items_sizeof (leaves x) a) as [y|e]; [|reflexivity].
    match goal with |- _ = rbind _ (fun _ => rbind (rbind ?X _) _) => destruct X as [z|e] end; cbn [rbind fold_left]; [|reflexivity]. f_equal. apply fold_add.
Qed.
Lemma tree_sizeof_leaves t o : tree_sizeof t o = lazy_sizeof (leaves t) o.
Proof. unfold tree_sizeof, lazy_sizeof. now rewrite sizeof_tree_leaves. Qed.

(** ** The class without laziness *)
Lemma class_plain t : class_attrs_f (plain_tree t) = class_attrs (map eager (leaves t)).
Proof.
  induction t as [i|l H] using tree_ind'; [symmetry; apply app_nil_r|]. cbn [plain_tree class_attrs_f leaves].
  induction H as [|x r H _ IH]; [reflexivity|]. cbn [map flat_map]. unfold class_attrs in *. now rewrite map_app, flat_map_app, H, IH.
Qed.
Lemma prepare_plain kw t : forall a, prepare_instance kw a (plain_tree t) = fold_left (prepare_instance kw) (map eager (leaves t)) a.
Proof.
  induction t as [i|l H] using tree_ind'; intros a; [reflexivity|]. cbn [plain_tree prepare_instance leaves]. revert a.
  induction H as [|x r H _ IH]; intros a; [reflexivity|]. cbn [map fold_left flat_map]. now rewrite map_app, fold_left_app, H, IH.
Qed.
Lemma read_plain h cls cctx c t : forall st, read_field h cls cctx (plain_tree t) c st = read_fields h cls cctx (map eager (leaves t)) c st.
Proof.
  induction t as [i|l H] using tree_ind'; intros st.
  - cbn [plain_tree leaves map]. rewrite read_fields_cons. unfold sbind. now destruct (read_field h cls cctx (eager i) c st) as [[[]|e] st'].
  - cbn [plain_tree leaves]. rewrite read_group. revert st. induction H as [|x r H _ IH]; intros st; [reflexivity|]. cbn [map flat_map].
    rewrite map_app, read_fields_app, read_fields_cons. unfold sbind. rewrite H.
    destruct (read_fields h cls cctx (map eager (leaves x)) c st) as [[[]|e] st']; [apply IH|reflexivity].
Qed.
Lemma write_plain h a t : forall out, write_field h (plain_tree t) a out = write_fields h (map eager (leaves t)) a out.
Proof.
  induction t as [i|l H] using tree_ind'; intros st.
  - cbn [plain_tree leaves map write_fields]. unfold sbind, sret. now destruct (write_field h (eager i) a st) as [[[]|e] st'].
  - cbn [plain_tree leaves]. rewrite write_group. revert st. induction H as [|x r H _ IH]; intros st; [reflexivity|]. cbn [map flat_map write_fields].
    rewrite map_app, write_fields_app. unfold sbind. rewrite H.
    destruct (write_fields h (map eager (leaves x)) a st) as [[[]|e] st']; [apply IH|reflexivity].
Qed.

Lemma class_plain_fields t : class_attrs (plain_fields t) = class_attrs (map eager (leaves t)).
Proof. destruct t as [i|l]; [reflexivity|]. exact (class_plain (TList l)). Qed.
Lemma new_plain_fields t kw : new_attrs (plain_fields t) kw = new_attrs (map eager (leaves t)) kw.
Proof.
  unfold new_attrs. rewrite class_plain_fields. destruct t as [i|l]; [reflexivity|]. exact (prepare_plain kw (TList l) _).
Qed.
Lemma read_plain_fields h cls cctx t c st : read_fields h cls cctx (plain_fields t) c st = read_fields h cls cctx (map eager (leaves t)) c st.
Proof. destruct t as [i|l]; [reflexivity|]. exact (read_plain h cls cctx c (TList l) st). Qed.
Lemma write_plain_fields h t a out : write_fields h (plain_fields t) a out = write_fields h (map eager (leaves t)) a out.
Proof. destruct t as [i|l]; [reflexivity|]. rewrite <- (write_plain h a (TList l)). cbn [plain_tree]. now rewrite write_group. Qed.

Lemma read_plain_struct h cls cctx t c s : read h (MStruct cls cctx (plain_fields t)) c s = read h (MStruct cls cctx (map eager (leaves t))) c s.
Proof. now rewrite !read_struct, read_plain_fields, new_plain_fields. Qed.
Lemma history_plain h cls cctx t us : forall a, history_eager h cls cctx (plain_fields t) us a = history_eager h cls cctx (map eager (leaves t)) us a.
Proof.
  assert (U : forall u a, use_eager h cls cctx (plain_fields t) u a = use_eager h cls cctx (map eager (leaves t)) u a).
  { intros u a. destruct u as [n|n v|]; cbn [use_eager]; [reflexivity| |].
    - unfold assign_attr. now rewrite class_plain_fields.
    - unfold write_to_string. rewrite !write_struct. destruct (String.eqb cls cls); [|reflexivity]. now rewrite write_plain_fields. }
  induction us as [|u r IH]; intros a; [reflexivity|]. cbn [history_eager]. rewrite U. destruct (use_eager _ _ _ _ u a). now rewrite IH.
Qed.
