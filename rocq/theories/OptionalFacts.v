(** Lemmas for C18: structs with an optional field among their fields. *)
From Verif Require Import Base IntCodec Stream Marshal MarshalInd.
From Coq Require Import ZArith List Bool String Lia.
Import ListNotations.
Open Scope Z_scope.

Lemma write_fields_absent h fs1 f fs2 a : (forall out, write_field h f a out = (Ok tt, out)) -> forall out,
  write_fields h (fs1 ++ f :: fs2) a out = write_fields h (fs1 ++ fs2) a out.
Proof.
  intros E. induction fs1 as [|g r IH]; intros out; cbn [app write_fields]; unfold sbind.
  - now rewrite E.
  - destruct (write_field h g a out) as [[[]|e] out1]; [apply IH|reflexivity].
Qed.
Lemma write_fields_alike h fs1 f g fs2 a : (forall out, write_field h f a out = write_field h g a out) -> forall out,
  write_fields h (fs1 ++ f :: fs2) a out = write_fields h (fs1 ++ g :: fs2) a out.
Proof.
  intros E. induction fs1 as [|k r IH]; intros out; cbn [app write_fields]; unfold sbind.
  - now rewrite E.
  - destruct (write_field h k a out) as [[[]|e] out1]; [apply IH|reflexivity].
Qed.
Lemma sizeof_fields_absent fs1 f fs2 a : sizeof_field f a = Ok 0 -> forall z,
  (let* l := sizeof_fields (fs1 ++ f :: fs2) a in Ok (fold_left Z.add l z))
  = let* l := sizeof_fields (fs1 ++ fs2) a in Ok (fold_left Z.add l z).
Proof.
  intros E. induction fs1 as [|g r IH]; intros z; cbn [app sizeof_fields].
  - rewrite E. cbn [rbind]. destruct (sizeof_fields fs2 a); cbn [rbind fold_left]; [now rewrite Z.add_0_r|reflexivity].
  - destruct (sizeof_field g a) as [x|e]; cbn [rbind]; [|reflexivity]. specialize (IH (z + x)).
    destruct (sizeof_fields (r ++ f :: fs2) a), (sizeof_fields (r ++ fs2) a); cbn [rbind fold_left] in *; exact IH.
Qed.
Lemma sizeof_fields_alike fs1 f g fs2 a : sizeof_field f a = sizeof_field g a ->
  sizeof_fields (fs1 ++ f :: fs2) a = sizeof_fields (fs1 ++ g :: fs2) a.
Proof. intros E. induction fs1 as [|k r IH]; cbn [app sizeof_fields]; [now rewrite E|now rewrite IH]. Qed.
Lemma read_fields_alike h cls cctx c fs1 f g fs2 : (forall st, read_field h cls cctx f c st = read_field h cls cctx g c st) -> forall st,
  read_fields h cls cctx (fs1 ++ f :: fs2) c st = read_fields h cls cctx (fs1 ++ g :: fs2) c st.
Proof.
  intros E. induction fs1 as [|k r IH]; intros st; cbn [app]; rewrite !read_fields_cons; unfold sbind.
  - now rewrite E.
  - destruct (read_field h cls cctx k c st) as [[[]|e] st1]; [apply IH|reflexivity].
Qed.

Lemma absent_like_undeclared h cls cctx fs1 n m pred d fs2 a : field_value n d a = VNone ->
  (forall out, write h (MStruct cls cctx (fs1 ++ FOpt n m pred d :: fs2)) (VObj cls a) out
               = write h (MStruct cls cctx (fs1 ++ fs2)) (VObj cls a) out)
  /\ sizeof (MStruct cls cctx (fs1 ++ FOpt n m pred d :: fs2)) (VObj cls a) = sizeof (MStruct cls cctx (fs1 ++ fs2)) (VObj cls a).
Proof.
  intros E. split.
  - intros out. rewrite !write_struct, String.eqb_refl. apply write_fields_absent. intros o. cbn [write_field]. now rewrite E.
  - rewrite !sizeof_struct. apply sizeof_fields_absent. cbn [sizeof_field attrs_of]. now rewrite E.
Qed.
Lemma present_like_plain h cls cctx fs1 n m pred d fs2 a : field_value n d a <> VNone ->
  (forall out, write h (MStruct cls cctx (fs1 ++ FOpt n m pred d :: fs2)) (VObj cls a) out
               = write h (MStruct cls cctx (fs1 ++ FField n m d :: fs2)) (VObj cls a) out)
  /\ sizeof (MStruct cls cctx (fs1 ++ FOpt n m pred d :: fs2)) (VObj cls a) = sizeof (MStruct cls cctx (fs1 ++ FField n m d :: fs2)) (VObj cls a).
Proof.
  intros E. split.
  - intros out. rewrite !write_struct, String.eqb_refl. apply write_fields_alike. intros o. cbn [write_field].
    destruct (field_value n d a); [congruence|reflexivity..].
  - rewrite !sizeof_struct. erewrite sizeof_fields_alike; [reflexivity|]. cbn [sizeof_field attrs_of].
    destruct (field_value n d a); [congruence|reflexivity..].
Qed.
Lemma prepare_alike kwargs fs1 n m pred d fs2 : forall a,
  fold_left (prepare_instance kwargs) (fs1 ++ FOpt n m pred d :: fs2) a = fold_left (prepare_instance kwargs) (fs1 ++ FField n m d :: fs2) a.
Proof. intros a. rewrite !fold_left_app. reflexivity. Qed.
Lemma always_like_plain h cls cctx fs1 n m pred d fs2 c s : (forall obj c', pred obj c' = RRet (Ok true)) ->
  read h (MStruct cls cctx (fs1 ++ FOpt n m pred d :: fs2)) c s = read h (MStruct cls cctx (fs1 ++ FField n m d :: fs2)) c s.
Proof.
  intros E. rewrite !read_struct. unfold new_attrs.
  rewrite (read_fields_alike h cls cctx c fs1 (FOpt n m pred d) (FField n m d)).
  2:{ intros [s1 a]. cbn [read_field]. rewrite E. reflexivity. }
  rewrite prepare_alike. unfold class_attrs. rewrite !flat_map_app. reflexivity.
Qed.
