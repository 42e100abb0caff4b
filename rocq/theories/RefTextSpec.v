(** Specification for the texts of references. *)
From Verif Require Import Base RefText.
From Coq Require Import ZArith List Bool String Ascii.
Import ListNotations.
Open Scope string_scope.
Open Scope list_scope.

Definition between (lo hi : nat) (c : ascii) : bool := (lo <=? nat_of_ascii c)%nat && (nat_of_ascii c <=? hi)%nat.
Definition digit (c : ascii) : bool := between 48 57 c.
(** 0-9, A-Z, _, a-z *)
Definition word_char (c : ascii) : bool := digit c || between 65 90 c || Ascii.eqb c "_" || between 97 122 c.
Definition number_char (c : ascii) : bool := digit c || Ascii.eqb c "." || Ascii.eqb c "e" || Ascii.eqb c "+" || Ascii.eqb c "-".
Fixpoint all_chars (p : ascii -> bool) (s : string) : Prop :=
  match s with EmptyString => True | String c r => p c = true /\ all_chars p r end.
(** The name of an attribute. *)
Definition identifier (s : string) : Prop := all_chars word_char s.
(** The text of an int or of a finite float. *)
Definition number_text (s : string) : Prop :=
  exists c r, digit c = true /\ all_chars number_char r /\ (s = String c r \/ s = String "-" (String c r)).

(** The expressions a user writes: numbers, fields, self.x, negation, binary operators, num_ref, len_ref,
    min_ref, max_ref, input_buffer_length, total_size. *)
Inductive expression : rshape -> Prop :=
| x_number : forall t, number_text t -> expression (TConst (Ok t))
| x_field : forall n, identifier n -> expression (TField n)
| x_self : forall n, identifier n -> expression (TSelf n)
| x_neg : forall a, expression a -> expression (TNeg a)
| x_bin : forall o a b, expression a -> expression b -> expression (TBin o a b)
| x_num : forall a, expression a -> expression (TNum a)
| x_len : forall a, expression a -> expression (TLen a)
| x_min : forall l, expressions l -> expression (TMin l)
| x_max : forall l, expressions l -> expression (TMax l)
| x_input : expression TInputLen
| x_total : expression TTotal
with expressions : list rshape -> Prop :=
| x_nil : expressions []
| x_cons : forall a l, expression a -> expressions l -> expressions (a :: l).

(** Python's notation, with all parentheses; [None] for the operators that are shown as functions. *)
Definition infix (o : rop) : option string :=
  match o with
  | OAdd => Some "+" | OSub => Some "-" | OLe => Some "<=" | OLt => Some "<" | OGe => Some ">=" | OGt => Some ">"
  | OEq => Some "==" | ONe => Some "!=" | OMul | OTrueDiv | OFloorDiv => None
  end.
(** [s] is "l1, l2, ..., ln". *)
Inductive separated : list string -> string -> Prop :=
| s_none : separated [] ""
| s_one : forall a, separated [a] a
| s_more : forall a b l s, separated (b :: l) s -> separated (a :: b :: l) (a ++ ", " ++ s).
