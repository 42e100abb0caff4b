(** Writing only appends (C25). *)
From Verif Require Import Base BaseProofs IntCodec BitStringIO Stream MinMax Marshal MarshalInd MarshalSpec.
From Coq Require Import ZArith List Bool String Lia ZifyBool ZifyNat.
Import ListNotations.
Open Scope Z_scope.

Definition appends {A} (w : stM (list Z) A) : Prop :=
  exists r suf, forall out, w out = (r, out ++ suf).

Lemma appends_sret {A} (a : A) : appends (sret a).
Proof. exists (Ok a), []. intros out. now rewrite app_nil_r. Qed.
Lemma appends_sraise {A} e : appends (@sraise (list Z) A e).
Proof. exists (Err e), []. intros out. now rewrite app_nil_r. Qed.
Lemma appends_slift {A} (r : res A) : appends (slift r).
Proof. exists r, []. intros out. now rewrite app_nil_r. Qed.
Lemma appends_out b : appends (out_write b).
Proof. exists (Ok tt), b. reflexivity. Qed.
Lemma appends_out_value v : appends (out_write_value v).
Proof. destruct v; try apply appends_sraise. apply appends_out. Qed.
Lemma appends_bind {A B} (m : stM (list Z) A) (f : A -> stM (list Z) B) :
  appends m -> (forall a, appends (f a)) -> appends (sbind m f).
Proof.
  intros (r & suf & H) F. destruct r as [a|e].
  - destruct (F a) as (r' & suf' & G). exists r', (suf ++ suf'). intros out.
    unfold sbind. now rewrite H, G, app_assoc.
  - exists (Err e), suf. intros out. unfold sbind. now rewrite H.
Qed.
Lemma appends_foreach {A} (l : list A) f : (forall x, appends (f x)) -> appends (sforeach l f).
Proof.
  intros F. induction l; cbn; [apply appends_sret|]. apply appends_bind; auto.
Qed.

Lemma appends_bits size a bs : appends (write_bit_container size a bs).
Proof.
  apply appends_bind; [apply appends_slift|]. intros b0.
  destruct (sforeach bs (write_bitfield a) b0) as [[u|e] b1]; [apply appends_out|apply appends_sraise].
Qed.

Lemma write_appends_all h :
  (forall m v, appends (write h m v)) /\ (forall f a, appends (write_field h f a)).
Proof.
  apply marshal_field_ind; intros; cbn [write write_field];
    repeat first [ apply appends_sret | apply appends_sraise | apply appends_slift | apply appends_out
                 | apply appends_out_value | apply appends_bits
                 | apply appends_bind; [|intro] | apply appends_foreach; intro
                 | solve [auto] ].
  - destruct v; try apply appends_sraise. destruct (struct_pack_int h f z); [apply appends_out|apply appends_sraise].
  - destruct v; try apply appends_sraise.
    + destruct (double_of_int _); [|apply appends_sraise]. destruct (struct_pack_float _ _ _); [apply appends_out|apply appends_sraise].
    + destruct (struct_pack_float h f pattern); [apply appends_out|apply appends_sraise].
  - destruct (_ <? _); [|apply appends_sret]. destruct p as [| | |[]|[]| |]; apply appends_sraise || apply appends_out.
  - destruct v; try apply appends_sraise.
    change (appends (write h (MStruct cls cctx fs) (VObj cls0 attrs))). rewrite write_struct.
    destruct (String.eqb _ _); [|apply appends_sraise].
    induction H; cbn; [apply appends_sret|]. apply appends_bind; auto.
  - destruct v; try apply appends_sraise.
    change (appends (write h (MSel key mapping d) (VObj cls attrs))). rewrite write_sel.
    clear - H0 H1. induction mapping as [|[k m] r IH]; cbn.
    + destruct d; [apply H1|apply appends_sraise].
    + inversion H0; subst. destruct m; auto. destruct (String.eqb _ _); auto.
  - destruct v; try apply appends_sraise.
    change (appends (write h (MFunSel choices func mm) (VObj cls attrs))). rewrite write_funsel.
    clear - H. induction H as [|m r Hm _ IH]; cbn; [apply appends_sraise|].
    destruct m; auto. destruct (String.eqb _ _); auto.
  - destruct (field_value n d a); auto using appends_sret.
  - change (appends (write_field h (FGroup fs) a)). rewrite write_group. induction H; cbn; [apply appends_sret|]. apply appends_bind; auto.
Qed.

Lemma write_appends h m v : exists r suf, forall out, write h m v out = (r, out ++ suf).
Proof. apply (proj1 (write_appends_all h)). Qed.

Lemma write_any_out h m v out0 r out1 : write h m v out0 = (r, out1) ->
  out1 = out0 ++ bytes_of h m v /\ forall out, write h m v out = (r, out ++ bytes_of h m v).
Proof.
  intros E. destruct (write_appends h m v) as (r' & suf & H). rewrite H in E. injection E as -> <-.
  unfold bytes_of. rewrite H. auto.
Qed.

(** When the write of the fields of a struct fails, the fields before the failing one were written
    completely, and nothing of the fields after it. *)
Lemma write_fields_crash h a fs : forall out e out',
  write_fields h fs a out = (Err e, out') ->
  exists fs1 f fs2 mid, fs = fs1 ++ f :: fs2
    /\ write_fields h fs1 a out = (Ok tt, mid) /\ write_field h f a mid = (Err e, out').
Proof.
  induction fs as [|f fs IH]; intros out e out' E; [discriminate|].
  cbn [write_fields] in E. unfold sbind in E.
  destruct (write_field h f a out) as [[[]|e0] mid] eqn:F.
  - destruct (IH _ _ _ E) as (fs1 & g & fs2 & mid' & -> & E1 & E2).
    exists (f :: fs1), g, fs2, mid'. repeat split; auto.
    cbn [write_fields]. unfold sbind. now rewrite F.
  - injection E as -> <-. exists [], f, fs, out. repeat split; auto.
Qed.
