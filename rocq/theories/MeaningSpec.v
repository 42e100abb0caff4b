(** Specification vocabulary: what the references that a user writes mean. *)
From Verif Require Import Base Marshal Range RangeRef IoBuffer RefEngine RefSpec BufferModel BufferSpec.
From Coq Require Import ZArith List Bool String.
Import ListNotations.
Open Scope Z_scope.

(** [number q v]: the value [v] is the number of bytes that is [q] bits: an int, or a fraction. *)
Inductive number : Z -> rv -> Prop :=
| num_int n : number (8 * n) (RVal (VInt n))
| num_frac q : number q (RFrac q).
(** The same, in the form that results of computations have: an int whenever it is one. *)
Inductive result_number : Z -> rv -> Prop :=
| res_int n : result_number (8 * n) (RVal (VInt n))
| res_frac q : q mod 8 <> 0 -> result_number q (RFrac q).
Inductive truth (P : Prop) : rv -> Prop :=
| truth_yes : P -> truth P (RVal (VInt 1))
| truth_no : ~ P -> truth P (RVal (VInt 0)).

(** Arithmetic on numbers of bytes, given in bits: the product of [p/8] and [q/8] bytes is [p*q/64]
    bytes, so [p*q/8] bits; the quotient is rounded down to whole bytes. *)
Inductive op_says : numop -> Z -> Z -> rv -> Prop :=
| os_add p q v : result_number (p + q) v -> op_says OpAdd p q v
| os_sub p q v : result_number (p - q) v -> op_says OpSub p q v
| os_mul p q x v : p * q = 8 * x -> result_number x v -> op_says OpMul p q v
| os_div p q n v : q <> 0 -> (0 < q -> n * q <= p < (n + 1) * q) -> (q < 0 -> (n + 1) * q < p <= n * q) ->
    result_number (8 * n) v -> op_says OpFloorDiv p q v
| os_le p q v : truth (p <= q) v -> op_says OpLe p q v
| os_lt p q v : truth (p < q) v -> op_says OpLt p q v
| os_ge p q v : truth (p >= q) v -> op_says OpGe p q v
| os_gt p q v : truth (p > q) v -> op_says OpGt p q v
| os_eq p q v : truth (p = q) v -> op_says OpEq p q v
| os_ne p q v : truth (p <> q) v -> op_says OpNe p q v.

(** Values of different sorts are never equal; two texts, or two byte strings, are if they are the same. *)
Inductive sort : Type := SNone | SNumber | SText | SBytes | SList | SObject.
Definition sort_of (v : rv) : option sort :=
  match v with
  | RVal VNone => Some SNone
  | RVal (VInt _) | RVal (VFloat _) | RFrac _ => Some SNumber
  | RVal (VStr _) => Some SText
  | RVal (VBytes _) => Some SBytes
  | RVal (VList _) => Some SList
  | RVal (VObj _ _) => Some SObject
  | _ => None
  end.
Inductive same : rv -> rv -> Prop -> Prop :=
| same_not x y i j : sort_of x = Some i -> sort_of y = Some j -> i <> j -> same x y False
| same_none : same (RVal VNone) (RVal VNone) True
| same_text l l' : same (RVal (VStr l)) (RVal (VStr l')) (l = l')
| same_bytes l l' : same (RVal (VBytes l)) (RVal (VBytes l')) (l = l').

Inductive bound : option Z -> rv -> Prop :=
| bound_none : bound None (RVal VNone)
| bound_num q v : number q v -> bound (Some q) v.

Inductive long : Z -> rv -> Prop :=
| long_bytes l : long (zlen l) (RVal (VBytes l))
| long_str l : long (zlen l) (RVal (VStr l))
| long_list l : long (zlen l) (RVal (VList l))
| long_ranges l : long (zlen l) (RRanges l)
| long_buf b : long (blen b) (RBuf b).

(** [says u vs v]: with the values [vs] of its arguments the reference [u] has the value [v]. *)
Inductive says : uref -> list rv -> rv -> Prop :=
| sa_const v : says (UConst v) [] v
| sa_num op a b x y p q v : number p x -> number q y -> op_says op p q v -> says (UNum op a b) [x; y] v
| sa_eq a b x y P v : same x y P -> truth P v -> says (UNum OpEq a b) [x; y] v
| sa_ne a b x y P v : same x y P -> truth (~ P) v -> says (UNum OpNe a b) [x; y] v
| sa_neg a x p v : number p x -> result_number (- p) v -> says (UNeg a) [x] v
| sa_cast a x : says (UCast a) [x] x
| sa_len a x n : long n x -> says (ULen a) [x] (RVal (VInt n))
(** one of two or more arguments, and no argument is smaller (greater) *)
| sa_min l xs ps p v : (2 <= List.length xs)%nat -> Forall2 number ps xs -> In p ps -> (forall q, In q ps -> p <= q) ->
    result_number p v -> says (UMin l) xs v
| sa_max l xs ps p v : (2 <= List.length xs)%nat -> Forall2 number ps xs -> In p ps -> (forall q, In q ps -> q <= p) ->
    result_number p v -> says (UMax l) xs v
(** the bytes from [start] up to [stop]; from the beginning, or to the end, if there is no number *)
| sa_slice a b x y start stop : bound start x -> bound stop y ->
    (forall p, start = Some p -> 0 <= p) ->
    (forall q, stop = Some q -> match start with Some p => p | None => 0 end <= q) ->
    says (UByteSlice a b) [x; y] (RRanges [mkR (match start with Some p => p | None => 0 end) stop])
| sa_byte a x p : number p x -> 0 <= p -> says (UByteNum a) [x] (RRanges [mkR p (Some (p + 8))])
| sa_list l ls : ls <> [] -> says (UList l) (map RRanges ls) (RRanges (List.concat ls))
| sa_func g l vs v : g vs = Ok v -> says (UFunc g l) vs v.

(** [fails u vs e]: with these values of its arguments the reference raises [e]: None has no operators but the
    comparisons with == and !=; numbers and texts do not mix (only the product is defined); nothing is divided
    by zero; a number or None has no length and no elements; positions do not end before they start, and are
    not negative. *)
Inductive text : rv -> Prop := text_str l : text (RVal (VStr l)) | text_bytes l : text (RVal (VBytes l)).
Inductive number_or_none : rv -> Prop := nn_none : number_or_none (RVal VNone) | nn_num p v : number p v -> number_or_none v.
Inductive fails : uref -> list rv -> exn -> Prop :=
| fa_none op a b x y : op <> OpEq -> op <> OpNe -> x = RVal VNone \/ y = RVal VNone -> fails (UNum op a b) [x; y] TypeError
| fa_text op a b x y p : op <> OpEq -> op <> OpNe -> op <> OpMul -> number p x /\ text y \/ text x /\ number p y ->
    fails (UNum op a b) [x; y] TypeError
| fa_zero a b x y p : number p x -> number 0 y -> fails (UNum OpFloorDiv a b) [x; y] ZeroDivisionError
| fa_neg a x : x = RVal VNone \/ text x -> fails (UNeg a) [x] TypeError
| fa_len a x : number_or_none x -> fails (ULen a) [x] TypeError
| fa_min l xs : Forall number_or_none xs -> (List.length xs <= 1)%nat \/ In (RVal VNone) xs -> fails (UMin l) xs TypeError
| fa_max l xs : Forall number_or_none xs -> (List.length xs <= 1)%nat \/ In (RVal VNone) xs -> fails (UMax l) xs TypeError
| fa_negative a b x y p stop : number p x -> bound stop y -> p < 0 -> fails (UByteSlice a b) [x; y] AssertionError
| fa_backwards a b x y start q : bound start x -> number q y -> q < match start with Some p => p | None => 0 end ->
    fails (UByteSlice a b) [x; y] AssertionError
| fa_byte a x p : number p x -> p < 0 -> fails (UByteNum a) [x] AssertionError
| fa_no_byte a x : x = RVal VNone \/ text x -> fails (UByteNum a) [x] TypeError
| fa_func g l vs e : g vs = Err e -> fails (UFunc g l) vs e.

(** The references whose value depends on nothing but their arguments; the arguments, in order. *)
Definition arguments (u : uref) : option (list arg) :=
  match u with
  | UConst _ => Some []
  | UNum _ a b | UByteSlice a b => Some [a; b]
  | UNeg a | UCast a | ULen a | UByteNum a => Some [a]
  | UMin l | UMax l | UList l | UFunc _ l => Some l
  | _ => None
  end.

Section Eval.
Variable C : cls.
(** Evaluating arguments in order: a constant is its own value. *)
Inductive args_have : list arg -> memory -> bst -> list rv -> memory -> bst -> Prop :=
| ah_nil m s : args_have [] m s [] m s
| ah_const v l m s vs m' s' : args_have l m s vs m' s' -> args_have (AConst v :: l) m s (v :: vs) m' s'
| ah_ref r l m s v m1 s1 vs m' s' : eval rid_eqb (nodes C) r m s (Ok v) m1 s1 -> args_have l m1 s1 vs m' s' ->
    args_have (ARef r :: l) m s (v :: vs) m' s'.
(** ... up to the first one that raises. *)
Inductive args_raise : list arg -> memory -> bst -> exn -> memory -> bst -> Prop :=
| ar_const v l m s e m' s' : args_raise l m s e m' s' -> args_raise (AConst v :: l) m s e m' s'
| ar_here r l m s e m' s' : eval rid_eqb (nodes C) r m s (Err e) m' s' -> args_raise (ARef r :: l) m s e m' s'
| ar_later r l m s v m1 s1 e m' s' : eval rid_eqb (nodes C) r m s (Ok v) m1 s1 -> args_raise l m1 s1 e m' s' ->
    args_raise (ARef r :: l) m s e m' s'.
End Eval.

(** The values that do not count as true. *)
Inductive counts_as_false : rv -> Prop :=
| cf_none : counts_as_false (RVal VNone)
| cf_zero : counts_as_false (RVal (VInt 0))
| cf_float : counts_as_false (RVal (VFloat 0))
| cf_negative_zero : counts_as_false (RVal (VFloat (2 ^ 63)))
| cf_bytes : counts_as_false (RVal (VBytes []))
| cf_str : counts_as_false (RVal (VStr []))
| cf_list : counts_as_false (RVal (VList []))
| cf_ranges : counts_as_false (RRanges [])
| cf_buf b : blen b = 0 -> counts_as_false (RBuf b).
