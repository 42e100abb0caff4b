(** Specification vocabulary for sizes: which values a definition reports the size of exactly,
    and which definitions have honest size bounds. *)
From Verif Require Import Base IntCodec Stream MinMax Marshal.
From Coq Require Import ZArith List Bool String.
Import ListNotations.
Open Scope Z_scope.

(** What may stand in front of a string or an array as its size: an integer, or a reader that
    occupies no bytes (a constant, a function, a reference to an earlier field). *)
Definition size_prefix (m : marshal) : Prop :=
  match m with MInt _ | MConst _ | MCall _ | MPtr _ => True | _ => False end.

(** [fits strict m v]: no part of [v] is bigger than the space its definition declares - padded
    strings are not longer than their size and mapped values have the size the mapping
    declares.  With [strict], also: fixed-size arrays have the declared number of elements and
    objects of a function selector are within the bounds given to it. *)
Fixpoint fits (strict : bool) (m : marshal) (v : value) {struct m} : Prop :=
  match m with
  | MInt _ | MFloat _ | MConst _ | MCall _ | MPtr _ => True
  | MVarStr sz _ _ => size_prefix sz
  | MPadStr size padding d =>
      forall st n, _strip v d padding = Ok st -> py_len st = Ok n -> n <= size
  | MBytePad size _ => 0 <= size
  | MVarArr sz el | MSumArr sz el =>
      size_prefix sz /\ forall l, py_iter v = Ok l -> Forall (fits strict el) l
  | MFixArr n el =>
      forall l, py_iter v = Ok l -> Forall (fits strict el) l /\ (strict = true -> zlen l = n)
  | MMap tbl m' =>
      forall w, dict_get tbl v = Ok w ->
        fits strict m' w /\ exists mm, min_max m' = Ok mm /\ sizeof m' w = Ok (mm_min mm)
  | MStruct cls _ fs =>
      forall a, v = VObj cls a ->
        (fix go (fs : list field) : Prop :=
           match fs with [] => True | f :: r => fits_field strict f a /\ go r end) fs
  | MSel _ mapping default =>
      (fix go (l : list (value * marshal)) : Prop :=
         match l with [] => True | (_, m') :: r => fits strict m' v /\ go r end) mapping
      /\ match default with None => True | Some d => fits strict d v end
  | MFunSel choices _ mm =>
      (fix go (l : list marshal) : Prop :=
         match l with [] => True | m' :: r => fits strict m' v /\ go r end) choices
      /\ (strict = true -> forall n, sizeof m v = Ok n -> mm_min mm <= n <= mm_max mm)
  end
with fits_field (strict : bool) (f : field) (a : attrs) {struct f} : Prop :=
  match f with
  | FField n m d => fits strict m (field_value n d a)
  | FAnon m => fits strict m VNone
  | FConst _ m k => fits strict m k
  | FOpt n m _ d => field_value n d a <> VNone -> fits strict m (field_value n d a)
  | FGroup fs =>
      (fix go (fs : list field) : Prop :=
         match fs with [] => True | f :: r => fits_field strict f a /\ go r end) fs
  | FBits _ | FPosBits _ _ => True
  end.

(** [honest m]: every size prefix is an integer that is stored in front of the data, declared
    counts and sizes are not negative, and no selector chooses by a key (whose bounds are the
    sum, not the range, of the alternatives' bounds). *)
Fixpoint honest (m : marshal) : Prop :=
  match m with
  | MInt _ | MFloat _ | MConst _ | MCall _ | MPtr _ => True
  | MVarStr sz _ _ => exists f, sz = MInt f
  | MPadStr size _ _ | MBytePad size _ => 0 <= size
  | MVarArr sz el | MSumArr sz el => (exists f, sz = MInt f) /\ honest el
  | MFixArr n el => 0 <= n /\ honest el
  | MMap _ m' => honest m'
  | MStruct _ _ fs =>
      (fix go (fs : list field) : Prop :=
         match fs with [] => True | f :: r => honest_field f /\ go r end) fs
  | MSel _ _ _ => False
  | MFunSel _ _ mm => 0 <= mm_min mm /\ 0 <= mm_max mm
  end
with honest_field (f : field) : Prop :=
  match f with
  | FField _ m _ | FAnon m | FConst _ m _ | FOpt _ m _ _ => honest m
  | FGroup fs =>
      (fix go (fs : list field) : Prop :=
         match fs with [] => True | f :: r => honest_field f /\ go r end) fs
  | FBits bs => 0 <= bits_size bs
  | FPosBits size _ => 0 <= size
  end.

(** A size is within reported bounds; a maximum of [sys.maxsize] means "unbounded". *)
Definition within (n : Z) (mm : minmax) : Prop :=
  mm_min mm <= n /\ (n <= mm_max mm \/ mm_is_unbounded mm = true).
