(** Model of writing objects whose class is not the declared one.  A Struct class writes whatever object it is given by
    the fields of the object's own class (struct/__init__.py:171-174, type(obj)._container_), and so do selectors
    (struct/selector.py:24-25, 62-63); [Marshal.write] covers only objects of the declared class.  [sizeof] of a Struct
    class goes by the declared class (struct/__init__.py:187-189), that of selectors by the class of the object
    (struct/selector.py:50-51, 83-84).

    Here the classes of the program are given by [W]: the name of a Struct class and its fields (its _container_).  The
    number [n] bounds the depth of objects inside objects. *)
From Verif Require Import Base IntCodec BitStringIO Stream MinMax Marshal.
From Coq Require Import ZArith List Bool String.
Import ListNotations.
Open Scope Z_scope.

Definition world : Type := name -> option (list field).

Section Poly.
Variable h : host.
Variable W : world.

(** sizeof, given [so], the sizeof of objects by their own class. *)
Section Size.
Variable so : name -> attrs -> res Z.
Fixpoint dsize (m : marshal) (v : value) {struct m} : res Z :=
  match m with
  | MInt _ | MFloat _ | MConst _ | MCall _ | MPtr _ | MPadStr _ _ _ | MBytePad _ _ | MMap _ _ => sizeof m v   (* base.py:145-146, mapping.py:10 *)
  | MVarStr sz padding d =>                               (* string.py:58-59 *)
      let* a := dsize sz v in
      let* st := _strip v d padding in
      let* n := py_len st in Ok (a + n)
  | MVarArr sz el =>                                      (* array.py:36-37 *)
      let* n := py_len v in
      let* a := dsize sz (VInt n) in
      let* l := py_iter v in
      let* sizes := rmap_list (dsize el) l in
      Ok (a + fold_left Z.add sizes 0)
  | MFixArr _ el =>
      let* n := py_len v in
      let* l := py_iter v in
      let* sizes := rmap_list (dsize el) l in
      Ok (0 + fold_left Z.add sizes 0)
  | MSumArr sz el =>                                      (* array.py:73-75 *)
      let* l := py_iter v in
      let* sizes := rmap_list (dsize el) l in
      let sum_size := fold_left Z.add sizes 0 in
      let* a := dsize sz (VInt sum_size) in
      Ok (a + sum_size)
  | MStruct _ _ fs =>                                     (* struct/__init__.py:187-189: cls._container_ *)
      let* sizes := (fix go (fs : list field) : res (list Z) :=
                       match fs with
                       | [] => Ok []
                       | f :: r => let* x := dsize_field f (attrs_of v) in
                                   let* xs := go r in Ok (x :: xs)
                       end) fs in
      Ok (fold_left Z.add sizes 0)
  | MSel _ _ _ | MFunSel _ _ _ =>                         (* struct/selector.py:50-51, 83-84: type(obj) *)
      match v with VObj cls a => so cls a | _ => Err AttributeError end
  end
with dsize_field (f : field) (a : attrs) {struct f} : res Z :=
  match f with
  | FField n m d => dsize m (field_value n d a)           (* struct/__init__.py:38-39 *)
  | FAnon m => dsize m VNone
  | FConst _ m k => dsize m k
  | FOpt n m _ d =>                                       (* struct/optional.py:18-22 *)
      match field_value n d a with
      | VNone => Ok 0
      | v => dsize m v
      end
  | FGroup fs =>                                          (* struct/__init__.py:105-106 *)
      let* sizes := (fix go (fs : list field) : res (list Z) :=
                       match fs with
                       | [] => Ok []
                       | f' :: r => let* x := dsize_field f' a in
                                    let* xs := go r in Ok (x :: xs)
                       end) fs in
      Ok (fold_left Z.add sizes 0)
  | FBits bs => Ok (bits_size bs)
  | FPosBits size _ => Ok size
  end.
Fixpoint dsize_fields (fs : list field) (a : attrs) : res (list Z) :=
  match fs with
  | [] => Ok []
  | f :: r => let* x := dsize_field f a in let* xs := dsize_fields r a in Ok (x :: xs)
  end.
End Size.

(** type(obj).sizeof(obj) *)
Fixpoint obj_size (n : nat) (cls : name) (a : attrs) : res Z :=
  match n with
  | O => Err Diverges
  | S k => match W cls with
           | Some fs => let* sizes := dsize_fields (obj_size k) fs a in Ok (fold_left Z.add sizes 0)
           | None => Err AttributeError
           end
  end.

(** write_to_stream, given [wo], which writes an object by its own class. *)
Section Write.
Variable wo : name -> attrs -> stM (list Z) unit.
Variable so : name -> attrs -> res Z.
Fixpoint dwrite (m : marshal) (v : value) {struct m} : stM (list Z) unit :=
  match m with
  | MInt _ | MFloat _ | MConst _ | MCall _ | MPtr _ | MPadStr _ _ _ | MBytePad _ _ => write h m v
  | MVarStr sz padding d =>                               (* string.py:50-53 *)
      stripped <- slift (_strip v d padding) ;;
      n <- slift (py_len stripped) ;;
      do dwrite sz (VInt n) ;;
      out_write_value stripped
  | MVarArr sz el =>                                      (* array.py:31-34 *)
      n <- slift (py_len v) ;;
      do dwrite sz (VInt n) ;;
      l <- slift (py_iter v) ;;
      sforeach l (dwrite el)
  | MFixArr _ el =>                                       (* array.py:31-34 with ConstReader *)
      n <- slift (py_len v) ;;
      l <- slift (py_iter v) ;;
      sforeach l (dwrite el)
  | MSumArr sz el =>                                      (* array.py:67-71 *)
      l <- slift (py_iter v) ;;
      sizes <- slift (rmap_list (dsize so el) l) ;;
      do dwrite sz (VInt (fold_left Z.add sizes 0)) ;;
      sforeach l (dwrite el)
  | MMap tbl m' =>                                        (* mapping.py:19-21 *)
      w <- slift (dict_get tbl v) ;;
      dwrite m' w
  | MStruct _ _ _                                         (* struct/__init__.py:171-174 *)
  | MSel _ _ _ | MFunSel _ _ _ =>                         (* struct/selector.py:24-25, 62-63 *)
      match v with VObj cls a => wo cls a | _ => sraise AttributeError end
  end.
Fixpoint dwrite_field (f : field) (a : attrs) {struct f} : stM (list Z) unit :=
  match f with
  | FField n m d => dwrite m (field_value n d a)          (* struct/__init__.py:29-30 *)
  | FAnon m => dwrite m VNone
  | FConst _ m k => dwrite m k                            (* struct/const.py:28-29 *)
  | FOpt n m _ d =>                                       (* struct/optional.py:9-12 *)
      match field_value n d a with
      | VNone => sret tt
      | v => dwrite m v
      end
  | FGroup fs =>                                          (* struct/__init__.py:98-100 *)
      (fix go (fs : list field) : stM (list Z) unit :=
         match fs with
         | [] => sret tt
         | f' :: r => do dwrite_field f' a ;; go r
         end) fs
  | FBits bs => write_bit_container (bits_size bs) a bs
  | FPosBits size bs => write_bit_container size a bs
  end.
Fixpoint dwrite_fields (fs : list field) (a : attrs) : stM (list Z) unit :=
  match fs with
  | [] => sret tt
  | f :: r => do dwrite_field f a ;; dwrite_fields r a
  end.
End Write.

(** type(obj).write_to_stream(obj, stream) *)
Fixpoint obj_write (n : nat) (cls : name) (a : attrs) : stM (list Z) unit :=
  match n with
  | O => sraise Diverges
  | S k => match W cls with
           | Some fs => dwrite_fields (obj_write k) (obj_size k) fs a
           | None => sraise AttributeError
           end
  end.

(** marshal.write_to_stream(obj, stream) and marshal.sizeof(obj) *)
Definition pwrite (n : nat) (m : marshal) (v : value) : stM (list Z) unit := dwrite (obj_write n) (obj_size n) m v.
Definition psize (n : nat) (m : marshal) (v : value) : res Z := dsize (obj_size n) m v.
End Poly.
