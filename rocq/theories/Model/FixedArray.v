(** Arrays of a size fixed at compile time: fixed_array_base1D.hpp and fixed_array_base2D.hpp.
    The object is the array data_[N] itself; the template arguments are carried as the size field of [arr] and the
    dimensions of [arr2], which no function below changes.  Alignment is not modelled. *)
From Verif Require Import Base.Outcome Base.ZList Model.Index Model.Slice Model.Array1D Model.Array2D Model.Store1D.

Section Fixed.
Context {V : Type} (zero : V).  (* zero: value-initialised element, and Zero<T> *)
Implicit Types (a : arr V) (A : src1 V) (c : cfg).

(** fixed_array_base1D.hpp 25: default constructor, value_type has the initialiser T val_{} (strict_val.hpp 269). *)
Definition fx_new (n : Z) : arr V := mkarr (repeat zero (Z.to_nat n)) n.
(** fixed_array_base1D.hpp 85-94: from a value. *)
Definition fx_new_fill (n : Z) (x : V) : outcome (arr V) := arr_set_all x (fx_new n).
(** fixed_array_base1D.hpp 97-102: from an initializer list; 127-132: from any one-dimensional object. *)
Definition fx_of_src c (n : Z) A : outcome (arr V) :=
  check_debug c (Ok (n =? ssize A)) ;;; b <- copy A (buf (fx_new n)) ;; Ok (mkarr b n).
Definition fx_of_list c (n : Z) (l : list V) : outcome (arr V) := fx_of_src c n (src_of_list l).
(** fixed_array_base1D.hpp 105-111 with algorithm.hpp 34-39: from an iterator pair into the sequence l (positions pb
    and pe of it); with pe < pb (checks disabled) the loop runs past the end of the sequence. *)
Definition fx_of_iter c (n : Z) (l : list V) (pb pe : Z) : outcome (arr V) :=
  d <- lsub pe pb ;; check_debug c (Ok (d =? n)) ;;; check_debug c (Ok (pb <=? pe)) ;;;
  if pe <? pb then UB else
  b <- for_ pb pe (fun p b => v <- oget l p ;; oset b (p - pb) v) (buf (fx_new n)) ;; Ok (mkarr b n).
(** fixed_array_base1D.hpp 114-117: copy constructor. *)
Definition fx_copy a : outcome (arr V) := b <- copy (src_of_arr a) (buf (fx_new (an a))) ;; Ok (mkarr b (an a)).
(** fixed_array_base1D.hpp 120-124: move constructor: copy, then the source is set to zero; (new, source). *)
Definition fx_move a : outcome (arr V * arr V) :=
  a' <- noexcept (fx_copy a) ;; s <- noexcept (arr_set_all zero a) ;; Ok (a', s).
(** fixed_array_base1D.hpp 135-139: operator=(x). *)
Definition fx_set_all (x : V) a : outcome (arr V) := arr_set_all x a.
(** fixed_array_base1D.hpp 142-148: operator=(initializer list). *)
Definition fx_assign_list c (l : list V) a : mut (arr V) := arr_assign c (src_of_list l) a.
(** fixed_array_base1D.hpp 151-158: operator=(const FixedArrayBase1D&) from another object of the same type: no check;
    from itself it does nothing. *)
Definition fx_assign_same (s a : arr V) : mut (arr V) :=
  with_buf a (assign_loop (an s) (fun _ => sun (src_of_arr s)) (buf a)).
(** fixed_array_base1D.hpp 161-169: operator=(FixedArrayBase1D&&) from another object; (this, source). *)
Definition fx_move_assign a (s : arr V) : outcome (arr V * arr V) :=
  match fx_assign_same s a with
  | MOk a' => s' <- noexcept (arr_set_all zero s) ;; Ok (a', s')
  | MFail _ _ => Fail Terminate
  | MUB => UB
  end.
(** fixed_array_base1D.hpp 172-178: operator=(OneDimBaseType const&). *)
Definition fx_assign c A a : mut (arr V) := arr_assign c A a.
(** std::swap on two different fixed arrays: T t(move(a)); a = move(b); b = move(t). *)
Definition fx_swap a b : outcome (arr V * arr V) :=
  ' p <- fx_move a ;; ' q <- fx_move_assign (snd p) b ;; ' r <- fx_move_assign (snd q) (fst p) ;; Ok (fst q, fst r).
(** ... and on the same one: the middle assignment is a self-assignment. *)
Definition fx_swap_self a : outcome (arr V) :=
  ' p <- fx_move a ;; ' r <- fx_move_assign (snd p) (fst p) ;; Ok (fst r).

(** Programs over several fixed arrays; the arrays may have different sizes, that is different types. *)
Inductive fop :=
| FNew (n : Z) | FNewFill (n : Z) (x : V) | FNewList (n : Z) (l : list V) | FNewCopy (j : Z) | FNewMove (j : Z)
| FNewFrom (n j : Z) | FNewIter (n j p q : Z)
| FSetAll (i : Z) (x : V) | FAssignList (i : Z) (l : list V) | FAssign (i j : Z) | FMoveAssign (i j : Z) | FSwap (i j : Z)
| FWrite (i : Z) (ix : idx) (x : V) | FRead (i : Z) (ix : idx) | FSize (i : Z).

(** Overload resolution by the static sizes: with equal sizes the copy or move functions of the same type are chosen,
    otherwise the functions taking any one-dimensional object. *)
Definition fstep c (st : list (arr V)) (o : fop) : res (list (arr V)) V :=
  match o with
  | FNew n => push st (Ok (fx_new n))
  | FNewFill n x => push st (fx_new_fill n x)
  | FNewList n l => push st (fx_of_list c n l)
  | FNewCopy j => with1 st j (fun b => push st (fx_copy b))
  | FNewMove j => with1 st j (fun b =>
      match fx_move b with Ok (a, b') => Next (zupd st j b' ++ [a]) Done | Fail f => Next st (Failed f) | UB => Crash end)
  | FNewFrom n j => with1 st j (fun b => push st (if n =? an b then fx_copy b else fx_of_src c n (src_of_arr b)))
  | FNewIter n j p q => with1 st j (fun b => push st (fx_of_iter c n (buf b) p q))
  | FSetAll i x => with1 st i (fun a => put st i (fx_set_all x a))
  | FAssignList i l => with1 st i (fun a => put_mut st i (fx_assign_list c l a))
  | FAssign i j => with2 st i j (fun a b =>
      if i =? j then Next st Done
      else put_mut st i (if an a =? an b then fx_assign_same b a else fx_assign c (src_of_arr b) a))
  | FMoveAssign i j => with2 st i j (fun a b =>
      if i =? j then Next st Done
      else if an a =? an b then
        match fx_move_assign a b with
        | Ok (a', b') => Next (zupd (zupd st i a') j b') Done | Fail f => Next st (Failed f) | UB => Crash end
      else put_mut st i (fx_assign c (src_of_arr b) a))
  | FSwap i j => with2 st i j (fun a b =>
      if i =? j then put st i (fx_swap_self a)
      else if an a =? an b then
        match fx_swap a b with
        | Ok (a', b') => Next (zupd (zupd st i a') j b') Done | Fail f => Next st (Failed f) | UB => Crash end
      else Next st Done)  (* does not compile for different sizes *)
  | FWrite i ix x => with1 st i (fun a => put st i (arr_write c ix x a))
  | FRead i ix => with1 st i (fun a => seen st Value (sub1 c (src_of_arr a) ix))
  | FSize i => with1 st i (fun a => Next st (Number (an a)))
  end.

(** fixed_array_base2D.hpp 29, 84-93: default constructor and from a value. *)
Definition fx2_new (m n : Z) : arr2 V := mkarr2 m n (fx_new (m * n)).
Definition fx2_set_all (x : V) (a : arr2 V) : outcome (arr2 V) := arr2_set_all x a.
(** fixed_array_base2D.hpp 96-104: from a nested initializer list. *)
Definition fx2_of_list c (m n : Z) (L : list (list V)) : outcome (arr2 V) :=
  check_debug c (Ok (valid_list2 L)) ;;;
  let (nr, nc) := list2_sizes L in
  check_debug c (Ok (m =? nr)) ;;; check_debug c (Ok (n =? nc)) ;;;
  b <- copy_list2 n 0 L (buf (fx_new (m * n))) ;; Ok (mkarr2 m n (mkarr b (m * n))).
(** fixed_array_base2D.hpp 107-112: from a two-dimensional object (two-index copy, algorithm.hpp 77-84). *)
Definition fx2_of_src c (m n : Z) (A : src2 V) : outcome (arr2 V) :=
  check_debug c (Ok (same_size2 m n (s2rows A) (s2cols A))) ;;;
  b <- copy2 A n (buf (fx_new (m * n))) ;; Ok (mkarr2 m n (mkarr b (m * n))).
(** fixed_array_base2D.hpp 36-37, 43-44: defaulted copy and move functions act on data1D_. *)
Definition fx2_copy (a : arr2 V) : outcome (arr2 V) := d <- fx_copy (dat a) ;; Ok (mkarr2 (drows a) (dcols a) d).
Definition fx2_move (a : arr2 V) : outcome (arr2 V * arr2 V) :=
  ' p <- fx_move (dat a) ;; Ok (mkarr2 (drows a) (dcols a) (fst p), mkarr2 (drows a) (dcols a) (snd p)).
Definition fx2_assign_same (s a : arr2 V) : mut (arr2 V) :=
  mbind (fx_assign_same (dat s) (dat a)) (fun d => MOk (mkarr2 (drows a) (dcols a) d)) (fun d => mkarr2 (drows a) (dcols a) d).
Definition fx2_move_assign (a s : arr2 V) : outcome (arr2 V * arr2 V) :=
  ' p <- fx_move_assign (dat a) (dat s) ;; Ok (mkarr2 (drows a) (dcols a) (fst p), mkarr2 (drows s) (dcols s) (snd p)).
(** ... with the object itself as source: data1D_ guards against it. *)
Definition fx2_move_assign_self (a : arr2 V) : arr2 V := a.
(** fixed_array_base2D.hpp 123-130: operator=(nested initializer list). *)
Definition fx2_assign_list c (L : list (list V)) (a : arr2 V) : mut (arr2 V) :=
  match fx2_of_list c (drows a) (dcols a) L with
  | Ok t => fx2_assign_same t a
  | Fail f => MFail f a
  | UB => MUB
  end.
(** fixed_array_base2D.hpp 133-139: operator=(TwoDimBaseType const&). *)
Definition fx2_assign c (A : src2 V) (a : arr2 V) : mut (arr2 V) := arr2_assign c A a.
End Fixed.
Arguments FNew {V}. Arguments FNewFill {V}. Arguments FNewList {V}. Arguments FNewCopy {V}. Arguments FNewMove {V}.
Arguments FNewFrom {V}. Arguments FNewIter {V}. Arguments FSetAll {V}. Arguments FAssignList {V}. Arguments FAssign {V}.
Arguments FMoveAssign {V}. Arguments FSwap {V}. Arguments FWrite {V}. Arguments FRead {V}. Arguments FSize {V}.
