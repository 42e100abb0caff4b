(** Proofs for the texts of references. *)
From Verif Require Import Base RefText RefTextSpec.
From Coq Require Import ZArith List Bool String Ascii Lia.
Import ListNotations.
Open Scope string_scope.
Open Scope list_scope.

Scheme expression_mut := Induction for expression Sort Prop
  with expressions_mut := Induction for expressions Sort Prop.

Lemma app_assoc_s (a b c : string) : (((a ++ b) ++ c) = (a ++ (b ++ c)))%string.
Proof. induction a as [|x a IH]; cbn; [reflexivity|rewrite IH; reflexivity]. Qed.
Lemma app_inv_s (a b c : string) : (a ++ b = a ++ c)%string -> b = c.
Proof. induction a as [|x a IH]; cbn; [auto|]. intros H. injection H as H. auto. Qed.

(** What may come behind an expression. *)
Definition stop (s : string) : Prop :=
  match s with EmptyString => True | String c _ => c = ","%char \/ c = ")"%char \/ c = " "%char end.

Lemma chars_stop p : p ","%char = false -> p ")"%char = false -> p " "%char = false ->
  forall a b s t, all_chars p a -> all_chars p b -> stop s -> stop t -> (a ++ s = b ++ t)%string -> a = b /\ s = t.
Proof.
  intros P1 P2 P3. assert (N : forall c r, p c = true -> stop (String c r) -> False).
  { intros c r T [->|[-> | ->]]; congruence. }
  induction a as [|x a IH]; intros [|y b] s t A B S T; cbn [append]; intros E.
  - auto.
  - exfalso. subst s. destruct B as [B _]. exact (N y _ B S).
  - exfalso. subst t. destruct A as [A _]. exact (N x _ A T).
  - destruct A as [A1 A2], B as [B1 B2]. injection E as -> E. destruct (IH b s t A2 B2 S T E) as [-> ->]. auto.
Qed.
Lemma quoted_stop : forall a b s t, identifier a -> identifier b -> (a ++ String "'" s = b ++ String "'" t)%string -> a = b /\ s = t.
Proof.
  induction a as [|x a IH]; intros [|y b] s t A B; cbn [append]; intros E.
  - injection E as ->. auto.
  - exfalso. destruct B as [B _]. injection E as <- _. discriminate.
  - exfalso. destruct A as [A _]. injection E as -> _. discriminate.
  - destruct A as [A1 A2], B as [B1 B2]. injection E as -> E. destruct (IH b s t A2 B2 E) as [-> ->]. auto.
Qed.

Lemma number_stop a b s t : number_text a -> number_text b -> stop s -> stop t -> (a ++ s = b ++ t)%string -> a = b /\ s = t.
Proof.
  assert (W : forall a, number_text a -> all_chars number_char a).
  { intros x (c & r & D & R & [->| ->]); cbn [all_chars].
    - split; [unfold number_char; rewrite D; reflexivity|exact R].
    - split; [reflexivity|]. split; [unfold number_char; rewrite D; reflexivity|exact R]. }
  intros A B. apply (chars_stop number_char); auto.
Qed.

Section Text.
Variable broken : rshape -> string.
Variable quote : string -> string.
Variable generator function : string.
Hypothesis quotes : forall n, identifier n -> quote n = String "'" (n ++ "'").
Notation text := (ref_text broken quote generator function).

Lemma first_char a : expression a -> exists c r, text a = String c r /\ c <> ")"%char /\ c <> ","%char.
Proof.
  assert (D : forall c, digit c = true -> c <> ")"%char /\ c <> ","%char) by (intros c H; split; intros ->; discriminate).
  intros H. destruct H as [t (c & r & G & _ & [->| ->])|n I|n I|a A|o a b A B|a A|a A|l L|l L| |]; cbn [ref_text append]; eexists _, _; (split; [reflexivity|]).
  1: exact (D c G). all: split; discriminate.
Qed.

Lemma list_text_cons x l : args_text (map text (x :: l)) = (text x ++ match l with [] => "" | _ => ", " ++ args_text (map text l) end)%string.
Proof.
  unfold args_text. destruct l as [|y l]; cbn [map String.concat]; [|reflexivity].
  induction (text x) as [|c r IH]; cbn; [reflexivity|congruence].
Qed.

Lemma text_inj : forall a, expression a -> forall b, expression b -> forall s t, stop s -> stop t -> (text a ++ s = text b ++ t)%string -> a = b /\ s = t.
Proof.
  apply (expression_mut
    (fun a _ => forall b, expression b -> forall s t, stop s -> stop t -> (text a ++ s = text b ++ t)%string -> a = b /\ s = t)
    (fun l _ => forall m, expressions m -> forall s t, (args_text (map text l) ++ String ")" s = args_text (map text m) ++ String ")" t)%string -> l = m /\ s = t)).
  - intros t N b B. destruct B as [t' N'|n I|n I|a A|o a b A B|a A|a A|l L|l L| |]; intros s u S U E.
    + cbn [ref_text] in E. destruct (number_stop t t' s u N N' S U E) as [-> ->]. auto.
    + exfalso. destruct N as (c & r & D & _ & [->| ->]); cbn [ref_text append] in E; injection E; intros; subst; discriminate.
    + exfalso. destruct N as (c & r & D & _ & [->| ->]); cbn [ref_text append] in E; injection E; intros; subst; discriminate.
    + exfalso. destruct N as (c & r & D & _ & [->| ->]); cbn [ref_text append] in E; injection E; intros; subst; discriminate.
    + exfalso. destruct N as (c & r & D & _ & [->| ->]); cbn [ref_text append] in E; injection E; intros; subst; discriminate.
    + exfalso. destruct N as (c & r & D & _ & [->| ->]); cbn [ref_text append] in E; injection E; intros; subst; discriminate.
    + exfalso. destruct N as (c & r & D & _ & [->| ->]); cbn [ref_text append] in E; injection E; intros; subst; discriminate.
    + exfalso. destruct N as (c & r & D & _ & [->| ->]); cbn [ref_text append] in E; injection E; intros; subst; discriminate.
    + exfalso. destruct N as (c & r & D & _ & [->| ->]); cbn [ref_text append] in E; injection E; intros; subst; discriminate.
    + exfalso. destruct N as (c & r & D & _ & [->| ->]); cbn [ref_text append] in E; injection E; intros; subst; discriminate.
    + exfalso. destruct N as (c & r & D & _ & [->| ->]); cbn [ref_text append] in E; injection E; intros; subst; discriminate.
  - intros n I b B. destruct B as [t' N'|m J|m J|a A|o a b A B|a A|a A|l L|l L| |]; intros s u S U E; try (exfalso; cbn [ref_text append] in E; discriminate).
    + exfalso. destruct N' as (c & r & D & _ & [->| ->]); cbn [ref_text append] in E; injection E; intros; subst; discriminate.
    + cbn [ref_text] in E. rewrite !quotes in E by assumption. cbn [append] in E. injection E as E. rewrite !app_assoc_s in E. cbn [append] in E.
      destruct (quoted_stop n m _ _ I J E) as [-> K]. injection K as ->. auto.
  - intros n I b B. destruct B as [t' N'|m J|m J|a A|o a b A B|a A|a A|l L|l L| |]; intros s u S U E; try (exfalso; cbn [ref_text append] in E; discriminate).
    + exfalso. destruct N' as (c & r & D & _ & [->| ->]); cbn [ref_text append] in E; injection E; intros; subst; discriminate.
    + cbn [ref_text] in E. rewrite !quotes in E by assumption. cbn [append] in E. injection E as E. rewrite !app_assoc_s in E. cbn [append] in E.
      destruct (quoted_stop n m _ _ I J E) as [-> K]. injection K as ->. auto.
  - intros x X IH b B. destruct B as [t' N'|m J|m J|a A|o a b A B|a A|a A|l L|l L| |]; intros s u S U E; try (exfalso; cbn [ref_text append] in E; discriminate).
    + exfalso. destruct N' as (c & r & D & _ & [->| ->]); cbn [ref_text append] in E; injection E; intros; subst; discriminate.
    + cbn [ref_text append] in E. injection E as E. rewrite !app_assoc_s in E. cbn [append] in E.
      destruct (IH a A (String ")" s) (String ")" u)) as [-> K]; [right; left; reflexivity|right; left; reflexivity|exact E|]. injection K as ->. auto.
  - intros o x y X IHx Y IHy b B. destruct B as [t' N'|m J|m J|a A|o' a b A B|a A|a A|l L|l L| |]; intros s u S U E; try (exfalso; cbn [ref_text append] in E; discriminate).
    + exfalso. destruct N' as (c & r & D & _ & [->| ->]); cbn [ref_text append] in E; injection E; intros; subst; discriminate.
    + cbn [ref_text append] in E. injection E as E. rewrite !app_assoc_s in E. cbn [append] in E.
      eapply IHx in E; [|exact A|right; right; reflexivity|right; right; reflexivity]. destruct E as [-> K]. injection K as K. rewrite !app_assoc_s in K. cbn [append] in K.
      assert (O : o = o' /\ (text y ++ String ")" s = text b ++ String ")" u)%string).
      { rewrite !app_assoc_s in K. cbn [append] in K. destruct o, o'; cbn [op_symbol append] in K; try discriminate K; (split; [reflexivity|]); injection K as K; exact K. }
      destruct O as [-> K2]. destruct (IHy b B (String ")" s) (String ")" u)) as [-> K3]; [right; left; reflexivity|right; left; reflexivity|exact K2|].
      injection K3 as ->. auto.
  - intros x X IH b B. destruct B as [t' N'|m J|m J|a A|o a b A B|a A|a A|l L|l L| |]; intros s u S U E; try (exfalso; cbn [ref_text append] in E; discriminate).
    + exfalso. destruct N' as (c & r & D & _ & [->| ->]); cbn [ref_text append] in E; injection E; intros; subst; discriminate.
    + cbn [ref_text append] in E. injection E as E. rewrite !app_assoc_s in E. cbn [append] in E.
      destruct (IH a A (String ")" s) (String ")" u)) as [-> K]; [right; left; reflexivity|right; left; reflexivity|exact E|]. injection K as ->. auto.
  - intros x X IH b B. destruct B as [t' N'|m J|m J|a A|o a b A B|a A|a A|l L|l L| |]; intros s u S U E; try (exfalso; cbn [ref_text append] in E; discriminate).
    + exfalso. destruct N' as (c & r & D & _ & [->| ->]); cbn [ref_text append] in E; injection E; intros; subst; discriminate.
    + cbn [ref_text append] in E. injection E as E. rewrite !app_assoc_s in E. cbn [append] in E.
      destruct (IH a A (String ")" s) (String ")" u)) as [-> K]; [right; left; reflexivity|right; left; reflexivity|exact E|]. injection K as ->. auto.
  - intros x X IH b B. destruct B as [t' N'|m J|m J|a A|o a b A B|a A|a A|l L|l L| |]; intros s u S U E; try (exfalso; cbn [ref_text append] in E; discriminate).
    + exfalso. destruct N' as (c & r & D & _ & [->| ->]); cbn [ref_text append] in E; injection E; intros; subst; discriminate.
    + cbn [ref_text append] in E. injection E as E. rewrite !app_assoc_s in E. cbn [append] in E. destruct (IH l L s u E) as [-> ->]. auto.
  - intros x X IH b B. destruct B as [t' N'|m J|m J|a A|o a b A B|a A|a A|l L|l L| |]; intros s u S U E; try (exfalso; cbn [ref_text append] in E; discriminate).
    + exfalso. destruct N' as (c & r & D & _ & [->| ->]); cbn [ref_text append] in E; injection E; intros; subst; discriminate.
    + cbn [ref_text append] in E. injection E as E. rewrite !app_assoc_s in E. cbn [append] in E. destruct (IH l L s u E) as [-> ->]. auto.
  - intros b B. destruct B as [t' N'|m J|m J|a A|o a b A B|a A|a A|l L|l L| |]; intros s u S U E; try (exfalso; cbn [ref_text append] in E; discriminate).
    + exfalso. destruct N' as (c & r & D & _ & [->| ->]); cbn [ref_text append] in E; injection E; intros; subst; discriminate.
    + cbn [ref_text append] in E. injection E as E. auto.
  - intros b B. destruct B as [t' N'|m J|m J|a A|o a b A B|a A|a A|l L|l L| |]; intros s u S U E; try (exfalso; cbn [ref_text append] in E; discriminate).
    + exfalso. destruct N' as (c & r & D & _ & [->| ->]); cbn [ref_text append] in E; injection E; intros; subst; discriminate.
    + cbn [ref_text append] in E. injection E as E. auto.
  - intros m M. destruct M as [|b m B M]; intros s t E.
    + unfold args_text in E. cbn in E. injection E as ->. auto.
    + exfalso. rewrite list_text_cons, app_assoc_s in E. destruct (first_char b B) as (c & r & T & N & _). rewrite T in E. unfold args_text in E. cbn in E. injection E as <- _. congruence.
  - intros a l A IHa L IHl m M. destruct M as [|b m B M]; intros s t E.
    + exfalso. rewrite list_text_cons, app_assoc_s in E. destruct (first_char a A) as (c & r & T & N & _). rewrite T in E. unfold args_text in E. cbn in E. injection E as -> _. congruence.
    + rewrite !list_text_cons, !app_assoc_s in E.
      destruct (IHa b B (match l with [] => "" | _ => ", " ++ args_text (map text l) end ++ String ")" s)%string (match m with [] => "" | _ => ", " ++ args_text (map text m) end ++ String ")" t)%string) as [-> K].
      * destruct l; cbn; auto.
      * destruct m; cbn; auto.
      * exact E.
      * destruct l as [|l0 l], m as [|m0 m]; try (cbn in K; discriminate K).
        -- cbn in K. injection K as ->. auto.
        -- rewrite !app_assoc_s in K. cbn [append] in K. injection K as K. destruct (IHl (m0 :: m) M s t K) as [-> ->]. auto.
Qed.
Lemma expression_text a b : expression a -> expression b -> text a = text b -> a = b.
Proof.
  intros A B E. apply (text_inj a A b B "" "" Logic.I Logic.I). rewrite E. reflexivity.
Qed.
Lemma args_separated l : separated (map text l) (args_text (map text l)).
Proof.
  unfold args_text. induction l as [|a l IH]; [constructor|]. destruct l as [|b l]; [constructor|]. cbn [map String.concat] in *. apply (s_more (text a) (text b) (map text l)). exact IH.
Qed.
Lemma concat_separated l : separated l (args_text l).
Proof.
  unfold args_text. induction l as [|a l IH]; [constructor|]. destruct l as [|b l]; [constructor|]. cbn [String.concat] in *. apply (s_more a b l). exact IH.
Qed.
End Text.
