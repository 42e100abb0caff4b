(** Proofs for the text of Buffer objects. *)
From Verif Require Import Base Marshal BitFacts BufferTypes BufferTypesSpec BufferTypesFacts BufferText BufferTextSpec.
From Coq Require Import ZArith List Bool String Sorted Lia.
Import ListNotations.
Open Scope string_scope.
Open Scope list_scope.

Section Calc.
Variable calc : world -> list fid -> res (option Z).

Lemma history_sorted w : history calc w -> forall i c fs, class_no w i c -> y_fields c = Some fs ->
  StronglySorted (fun f g => exists n m, called w f n /\ called w g m /\ String.ltb n m = true) fs.
Proof.
  induction 1 as [|w t H IH P]; intros i c fs Hc F; [unfold class_no in Hc; destruct i; discriminate|].
  assert (Old : class_no w i c -> StronglySorted (fun f g => exists n m, called (snd (define calc t w)) f n /\ called (snd (define calc t w)) g m /\ String.ltb n m = true) fs).
  { intros O. specialize (IH i c fs O F). destruct (define_keeps calc t w) as [K _]. clear - IH K.
    induction IH as [|f l S IH A]; constructor; [exact IH|]. eapply Forall_impl; [|exact A]. intros g (n & m & X & Y & Z). exists n, m. auto. }
  unfold class_no in Hc, Old. destruct (define_cases calc t w) as [(_ & E)|[(_ & s & E & _)|(_ & e & E)]]; rewrite E in *; cbn [snd w_classes] in *; try (apply Old; exact Hc).
  - destruct (Nat.lt_ge_cases i (List.length (w_classes w))) as [L|L].
    + apply Old. rewrite nth_error_app1 in Hc by exact L. exact Hc.
    + rewrite nth_error_app2 in Hc by exact L. destruct (i - List.length (w_classes w))%nat as [|k]; [|destruct k; discriminate].
      injection Hc as <-. discriminate.
  - destruct (Nat.lt_ge_cases i (List.length (w_classes w))) as [L|L].
    + apply Old. rewrite nth_error_app1 in Hc by exact L. exact Hc.
    + rewrite nth_error_app2 in Hc by exact L. destruct (i - List.length (w_classes w))%nat as [|k]; [|destruct k; discriminate].
      injection Hc as <-. injection F as <-. exact (claim_sorted _ _ (w_names w) (dir_sorted (new_mro w t))).
Qed.

Lemma sorted_names w fs : StronglySorted (fun f g => exists n m, called w f n /\ called w g m /\ String.ltb n m = true) fs ->
  (forall f, In f fs -> exists n, called w f n) -> names_of_fields w fs (map (field_name w) fs).
Proof.
  intros S N. split.
  - clear N. induction S as [|f l S IH A]; cbn [map]; constructor; [exact IH|]. apply Forall_forall. intros x I. apply in_map_iff in I.
    destruct I as (g & <- & I). rewrite Forall_forall in A. destruct (A g I) as (n & m & X & Y & Z). rewrite (called_name w f n X), (called_name w g m Y). exact Z.
  - intros n. rewrite in_map_iff. split.
    + intros (f & <- & I). exists f. split; [exact I|]. destruct (N f I) as (n & C). rewrite (called_name w f n C). exact C.
    + intros (f & I & C). exists f. split; [apply called_name; exact C|exact I].
Qed.

Variable default : fid -> value.
Lemma object_values w i c o : history calc w -> class_no w i c -> object_of default w c o ->
  forall n f, In f (all_fields w c) -> called w f n -> exists v, has_value w c o n v.
Proof.
  intros H Hc O. induction O as [kw o K|o m x O IH]; intros n f I C.
  - destruct (construct_spec default w i c kw (history_inv calc w H) Hc) as [(_ & o' & E & V)|(_ & E)]; [|congruence].
    rewrite K in E. injection E as <-. destruct (V n (ex_intro _ f (conj I C))) as (v & A & _). exists v. exact A.
  - unfold has_value, obj_attr in *. destruct (String.eqb_spec m n) as [->|N].
    + exists x. rewrite lookup_set_same. reflexivity.
    + rewrite lookup_set_other by congruence. exact (IH n f I C).
Qed.

Variable modname : string.
Variable show : value -> res string.
Variable show_field : fid -> string.
Lemma concat_listed : forall names texts, List.length names = List.length texts ->
  String.concat ", " (map (fun p => (fst p ++ "=" ++ snd p)%string) (combine names texts)) = listed (combine names texts).
Proof.
  induction names as [|n names IH]; intros [|t texts] L; try discriminate; [reflexivity|]. injection L as L. specialize (IH texts L).
  cbn [combine map]. destruct (combine names texts) as [|p r] eqn:E; [reflexivity|]. cbn [map] in *. cbn [String.concat listed fst snd]. cbn [String.concat] in IH.
  rewrite IH. assert (A : forall a b d : string, ((a ++ b) ++ d = a ++ b ++ d)%string) by (induction a as [|x a Ia]; intros; cbn; [reflexivity|rewrite Ia; reflexivity]).
  rewrite A, A. reflexivity.
Qed.

Lemma texts_spec w c o : forall fs, (forall f, In f fs -> exists v, has_value w c o (field_name w f) v) ->
  match field_texts show show_field w c o fs with
  | Ok ts => exists texts, Forall2 (fun n t => exists v, has_value w c o n v /\ show v = Ok t) (map (field_name w) fs) texts
       /\ ts = map (fun p => (fst p ++ "=" ++ snd p)%string) (combine (map (field_name w) fs) texts)
  | Err e => exists before n v after, map (field_name w) fs = before ++ n :: after
       /\ Forall (fun m => exists x t, has_value w c o m x /\ show x = Ok t) before /\ has_value w c o n v /\ show v = Err e
  end.
Proof.
  induction fs as [|f fs IH]; intros A; cbn [field_texts].
  - exists []. split; constructor.
  - destruct (A f (or_introl eq_refl)) as (v & V). unfold field_text. unfold has_value in V. rewrite V.
    destruct (show v) as [t|e] eqn:S; cbn [rbind].
    + specialize (IH (fun g I => A g (or_intror I))). destruct (field_texts show show_field w c o fs) as [ts|e]; cbn [rbind].
      * destruct IH as (texts & F & ->). exists (t :: texts). split; [|reflexivity]. cbn [map]. constructor; [exists v; auto|exact F].
      * destruct IH as (b & n & x & a & E & F & X & Y). exists (field_name w f :: b), n, x, a. cbn [map app]. rewrite E. split; [reflexivity|]. split; [|auto].
        constructor; [exists v, t; auto|exact F].
    + exists [], (field_name w f), v, (map (field_name w) fs). cbn [map app]. split; [reflexivity|]. split; [constructor|]. auto.
Qed.

Lemma Forall2_len {A B} (R : A -> B -> Prop) l m : Forall2 R l m -> List.length l = List.length m.
Proof. induction 1; cbn; congruence. Qed.

Lemma repr_spec w i c fs o : history calc w -> class_no w i c -> y_fields c = Some fs -> object_of default w c o ->
  exists names, names_of_fields w fs names
  /\ match buffer_repr modname show show_field w c o with
     | Ok text => exists texts, Forall2 (fun n t => exists v, has_value w c o n v /\ show v = Ok t) names texts
         /\ text = (modname ++ "." ++ y_name c ++ "(" ++ listed (combine names texts) ++ ")")%string
     | Err e => exists before n v after, names = before ++ n :: after
         /\ Forall (fun m => exists x t, has_value w c o m x /\ show x = Ok t) before /\ has_value w c o n v /\ show v = Err e
     end.
Proof.
  intros H Hc F O. destruct (i_own w (history_inv calc w H) i c fs Hc F) as [_ T].
  assert (N : forall f, In f fs -> exists n, called w f n) by (intros f I; destruct (T f I) as (_ & n & d & C & _); eauto).
  exists (map (field_name w) fs). split; [apply sorted_names; [exact (history_sorted w H i c fs Hc F)|exact N]|].
  assert (FA : first_some y_fields (mro_of w c) = Some fs) by (unfold mro_of; cbn [first_some]; rewrite F; reflexivity).
  assert (A : forall f, In f fs -> In f (all_fields w c)).
  { intros f I. unfold all_fields. apply in_flat_map. exists c. split; [left; reflexivity|]. unfold fields_attr. rewrite FA. exact I. }
  assert (V : forall f, In f fs -> exists v, has_value w c o (field_name w f) v).
  { intros f I. destruct (N f I) as (n & C). rewrite (called_name w f n C). exact (object_values w i c o H Hc O n f (A f I) C). }
  pose proof (texts_spec w c o fs V) as S. unfold buffer_repr. rewrite FA. destruct (field_texts show show_field w c o fs) as [ts|e]; cbn [rbind]; [|exact S].
  destruct S as (texts & S & ->). exists texts. split; [exact S|]. rewrite concat_listed; [reflexivity|]. apply (Forall2_len _ _ _ S).
Qed.
Lemma repr_same w c fs o o' : y_fields c = Some fs -> (forall f, In f fs -> obj_attr w c o (field_name w f) = obj_attr w c o' (field_name w f)) ->
  buffer_repr modname show show_field w c o = buffer_repr modname show show_field w c o'.
Proof.
  intros F S. unfold buffer_repr, mro_of. cbn [first_some]. rewrite F.
  assert (E : field_texts show show_field w c o fs = field_texts show show_field w c o' fs); [|rewrite E; reflexivity].
  clear F. induction fs as [|f fs IH]; [reflexivity|]. cbn [field_texts]. unfold field_text. rewrite (S f (or_introl eq_refl)).
  rewrite IH by (intros g I; apply S; right; exact I). reflexivity.
Qed.
End Calc.
