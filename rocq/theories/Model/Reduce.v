(** Reductions, searches and selections: array_ops.hpp.
    Arrays are read through linear access, A.un(i), as the code does; [flat2] gives the linear access of a two-dimensional
    object.  Arithmetic and comparison of the element type are parameters (the template parameter T of Strict<T>).
    A.empty() is size() == 0. *)
From Verif Require Import Base.Outcome Base.ZList Model.Index Model.Slice Model.Array1D Model.Array2D Model.View2D Model.Expr.

Definition flat2 {V} (A : src2 V) : src1 V := mksrc1 (s2size A) (s2lin A).

(** The common shape of sum, prod, min, max: first element, then op(s, A.un(i)) for i = 1, 2, ...; empty arrays give
    the default. *)
Definition r_fold {V} (op : V -> V -> outcome V) (A : src1 V) (empty_default : V) : outcome V :=
  if ssize A =? 0 then Ok empty_default
  else s <- sun A 0 ;; for_ 1 (ssize A) (fun i s => x <- sun A i ;; op s x) s.
(** array_ops.hpp 312-322. *)
Definition r_sum {V} (add : V -> V -> outcome V) (A : src1 V) (d : V) : outcome V := r_fold add A d.
(** array_ops.hpp 325-335. *)
Definition r_prod {V} (mul : V -> V -> outcome V) (A : src1 V) (d : V) : outcome V := r_fold mul A d.
(** array_ops.hpp 338-344; value_type_cast<Base>(A.size()) is [cast]. *)
Definition r_mean {V} (add div : V -> V -> outcome V) (cast : Z -> outcome V) (zero : V) (A : src1 V) (d : V) : outcome V :=
  if ssize A =? 0 then Ok d else s <- r_sum add A zero ;; n <- cast (ssize A) ;; div s n.
(** strict_math.hpp 35-44: mins, maxs. *)
Definition mins {V} (ltb : V -> V -> bool) (x y : V) : V := if ltb x y then x else y.
Definition maxs {V} (gtb : V -> V -> bool) (x y : V) : V := if gtb x y then x else y.
(** array_ops.hpp 347-370: min_elem = mins(A.un(i), min_elem). *)
Definition r_min {V} (ltb : V -> V -> bool) (A : src1 V) (d : V) : outcome V := r_fold (fun m x => Ok (mins ltb x m)) A d.
Definition r_max {V} (gtb : V -> V -> bool) (A : src1 V) (d : V) : outcome V := r_fold (fun m x => Ok (maxs gtb x m)) A d.
(** array_ops.hpp 373-385 (min_index, better = <) and 407-419 (max_index, better = >), one dimension. *)
Definition r_best_index {V} (better : V -> V -> bool) (A : src1 V) (d : Z * V) : outcome (Z * V) :=
  if ssize A =? 0 then Ok d
  else x0 <- sun A 0 ;;
       for_ 1 (ssize A) (fun i m => x <- sun A i ;; Ok (if better x (snd m) then (i, x) else m)) (0, x0).
(** array_ops.hpp 388-404, 422-438, two dimensions. *)
Definition r_best_index2 {V} (better : V -> V -> bool) (A : src2 V) (d : Z * Z * V) : outcome (Z * Z * V) :=
  if s2size A =? 0 then Ok d
  else x0 <- s2un A 0 0 ;;
       for_ 0 (s2rows A) (fun i m =>
         for_ 0 (s2cols A) (fun j m => x <- s2un A i j ;; Ok (if better x (snd m) then (i, j, x) else m)) m) (0, 0, x0).

(** array_ops.hpp 686-698: any_of; 731-743: all_of; 654-661: none_of.  The predicate may itself report. *)
Fixpoint any_loop {V} (k : nat) (i : Z) (f : V -> outcome bool) (A : src1 V) : outcome bool :=
  match k with
  | O => Ok false
  | S k' => x <- sun A i ;; b <- f x ;; if b then Ok true else any_loop k' (i + 1) f A
  end.
Fixpoint all_loop {V} (k : nat) (i : Z) (f : V -> outcome bool) (A : src1 V) : outcome bool :=
  match k with
  | O => Ok true
  | S k' => x <- sun A i ;; b <- f x ;; if b then all_loop k' (i + 1) f A else Ok false
  end.
Definition r_any {V} (f : V -> outcome bool) (A : src1 V) (d : bool) : outcome bool :=
  if ssize A =? 0 then Ok d else any_loop (Z.to_nat (ssize A)) 0 f A.
Definition r_all {V} (f : V -> outcome bool) (A : src1 V) (d : bool) : outcome bool :=
  if ssize A =? 0 then Ok d else all_loop (Z.to_nat (ssize A)) 0 f A.
(** The inner call any_of(A, f) has the default argument false. *)
Definition r_none {V} (f : V -> outcome bool) (A : src1 V) (d : bool) : outcome bool :=
  if ssize A =? 0 then Ok d else b <- r_any f A false ;; Ok (negb b).
(** array_ops.hpp 664-673, 701-715, 746-760: two arrays.  The pair of elements is formed by the expression of both;
    [same] is same_size(A1, A2) (array_auxiliary.hpp 30-48). *)
Definition pair_src {U V} (A : src1 U) (B : src1 V) : src1 (U * V) := mksrc1 (ssize A) (fun i => u <- sun A i ;; v <- sun B i ;; Ok (u, v)).
Definition r_any2 {U V} (c : cfg) (same : bool) (f : U -> V -> outcome bool) (A : src1 U) (B : src1 V) (d : bool) : outcome bool :=
  check_debug c (Ok same) ;;; r_any (fun p => f (fst p) (snd p)) (pair_src A B) d.
Definition r_all2 {U V} (c : cfg) (same : bool) (f : U -> V -> outcome bool) (A : src1 U) (B : src1 V) (d : bool) : outcome bool :=
  check_debug c (Ok same) ;;; r_all (fun p => f (fst p) (snd p)) (pair_src A B) d.
Definition r_none2 {U V} (c : cfg) (same : bool) (f : U -> V -> outcome bool) (A : src1 U) (B : src1 V) (d : bool) : outcome bool :=
  check_debug c (Ok same) ;;; if ssize A =? 0 then Ok d else b <- r_any2 c same f A B false ;; Ok (negb b).
(** array_ops.hpp 638-641, 675-678, 718-722: comparison with a value; 597-635: has_zero, all_zeros, all_pos, all_neg,
    all_non_pos, all_non_neg; 441-465: all_finite, has_inf, has_nan test emptiness first and then call with default false. *)
Definition r_any_val {V} (eqb : V -> V -> bool) (x : V) (A : src1 V) (d : bool) : outcome bool := r_any (fun y => Ok (eqb y x)) A d.
Definition r_all_val {V} (eqb : V -> V -> bool) (x : V) (A : src1 V) (d : bool) : outcome bool := r_all (fun y => Ok (eqb y x)) A d.
Definition r_none_val {V} (eqb : V -> V -> bool) (x : V) (A : src1 V) (d : bool) : outcome bool := r_none (fun y => Ok (eqb y x)) A d.
Definition r_all_test {V} (f : V -> bool) (A : src1 V) (d : bool) : outcome bool :=
  if ssize A =? 0 then Ok d else r_all (fun y => Ok (f y)) A false.
Definition r_any_test {V} (f : V -> bool) (A : src1 V) (d : bool) : outcome bool :=
  if ssize A =? 0 then Ok d else r_any (fun y => Ok (f y)) A false.

(** array_ops.hpp 468-477: dot_prod, one dimension. *)
Definition r_dot {V} (c : cfg) (add mul : V -> V -> outcome V) (zero : V) (A B : src1 V) (d : V) : outcome V :=
  check_debug c (Ok (ssize A =? ssize B)) ;;;
  if ssize A =? 0 then Ok d else P <- x_bin c mul A B ;; r_sum add P zero.
(** Two dimensions. *)
Definition r_dot2 {V} (c : cfg) (add mul : V -> V -> outcome V) (zero : V) (A B : src2 V) (d : V) : outcome V :=
  check_debug c (Ok (same_size2 (s2rows A) (s2cols A) (s2rows B) (s2cols B))) ;;;
  if s2size A =? 0 then Ok d else P <- x_bin2 c mul A B ;; r_sum add (flat2 P) zero.
(** array_ops.hpp 481-487: norm_inf; 490-496: norm1; 499-505: norm1_scaled; 508-514: norm2; 517-524: norm2_scaled. *)
Definition r_norm_inf {V} (gtb : V -> V -> bool) (abs : V -> V) (zero : V) (A : src1 V) (d : V) : outcome V :=
  if ssize A =? 0 then Ok d else r_max gtb (x_un (fun x => Ok (abs x)) A) zero.
Definition r_norm1 {V} (add : V -> V -> outcome V) (abs : V -> V) (zero : V) (A : src1 V) (d : V) : outcome V :=
  if ssize A =? 0 then Ok d else r_sum add (x_un (fun x => Ok (abs x)) A) zero.
Definition r_norm1_scaled {V} (add div : V -> V -> outcome V) (cast : Z -> outcome V) (abs : V -> V) (zero : V) (A : src1 V) (d : V) : outcome V :=
  if ssize A =? 0 then Ok d else r_mean add div cast zero (x_un (fun x => Ok (abs x)) A) zero.
Definition r_norm2 {V} (c : cfg) (add mul : V -> V -> outcome V) (sqrt : V -> V) (zero : V) (A : src1 V) (d : V) : outcome V :=
  if ssize A =? 0 then Ok d else s <- r_dot c add mul zero A A zero ;; Ok (sqrt s).
Definition r_norm2_scaled {V} (c : cfg) (add mul div : V -> V -> outcome V) (cast : Z -> outcome V) (sqrt : V -> V) (zero : V) (A : src1 V) (d : V) : outcome V :=
  if ssize A =? 0 then Ok d else s <- r_norm2 c add mul sqrt zero A zero ;; n <- cast (ssize A) ;; div s (sqrt n).
(** array_ops.hpp 526-536: norm_lp; pow_int(A, lp) maps pows_int (modelled in ScalarOps) and pows is std::pow, both parameters. *)
Definition r_norm_lp {V} (c : cfg) (add div : V -> V -> outcome V) (cast : Z -> outcome V) (one : V) (abs : V -> V) (powi : V -> Z -> outcome V) (pow : V -> V -> V) (zero : V)
  (A : src1 V) (lp : Z) (d : V) : outcome V :=
  check_debug c (Ok (0 <? lp)) ;;;
  if ssize A =? 0 then Ok d
  else s <- r_sum add (x_un (fun x => Ok (abs x)) (x_un (fun x => powi x lp) A)) zero ;; k <- cast lp ;; e <- div one k ;; Ok (pow s e).
(** array_ops.hpp 539-548: norm_lp_scaled. *)
Definition r_norm_lp_scaled {V} (c : cfg) (add div : V -> V -> outcome V) (cast : Z -> outcome V) (one : V) (abs : V -> V) (powi : V -> Z -> outcome V) (pow : V -> V -> V) (zero : V)
  (A : src1 V) (lp : Z) (d : V) : outcome V :=
  check_debug c (Ok (0 <? lp)) ;;;
  if ssize A =? 0 then Ok d
  else s <- r_norm_lp c add div cast one abs powi pow zero A lp zero ;; n <- cast (ssize A) ;; k <- cast lp ;; e <- div one k ;; div s (pow n e).

(** array_ops.hpp 550-561: polynomial by Horner's rule; the loop runs from size - 2 down to 0. *)
Fixpoint horner_loop {V} (k : nat) (add mul : V -> V -> outcome V) (A : src1 V) (x s : V) : outcome V :=
  match k with
  | O => Ok s
  | S k' => a <- sun A (Z.of_nat k') ;; p <- mul s x ;; t <- add a p ;; horner_loop k' add mul A x t
  end.
Definition r_poly {V} (c : cfg) (add mul : V -> V -> outcome V) (A : src1 V) (x d : V) : outcome V :=
  if ssize A =? 0 then Ok d
  else s <- sub1 c A (FromLast 0) ;; n <- lsub (ssize A) 2 ;; horner_loop (Z.to_nat (n + 1)) add mul A x s.
(** array_ops.hpp 578-593: gpolynomial; pows(X.un(i), value_type_cast(powers.un(i))) is the parameter pow. *)
Definition r_gpoly {V} (c : cfg) (add mul : V -> V -> outcome V) (pow : V -> Z -> outcome V) (zero : V) (A X : src1 V) (P : src1 Z) (d : V) : outcome V :=
  check_debug c (Ok ((ssize A =? ssize X) && (ssize X =? ssize P))) ;;;
  if ssize A =? 0 then Ok d
  else check_debug c (r_all (fun p => Ok (0 <=? p)) P false) ;;;
       for_ 0 (ssize X) (fun i z => a <- sun A i ;; x <- sun X i ;; p <- sun P i ;; q <- pow x p ;; t <- mul a q ;; add z t) zero.
(** array_ops.hpp 564-575: polynomial with powers. *)
Definition r_poly_powers {V} (c : cfg) (add mul : V -> V -> outcome V) (pow : V -> Z -> outcome V) (zero : V) (A : src1 V) (x : V) (P : src1 Z) (d : V) : outcome V :=
  check_debug c (Ok (ssize A =? ssize P)) ;;;
  if ssize A =? 0 then Ok d
  else check_debug c (r_all (fun p => Ok (0 <=? p)) P false) ;;;
       X <- x_const1 c (ssize A) x ;; r_gpoly c add mul pow zero A X P zero.

(** array_ops.hpp 813-820: in_cond_range of a one-dimensional object o over the storage b: the indices, in increasing
    order, at which f holds, then a slice by that vector. *)
Fixpoint select_loop {V} (k : nat) (i : Z) (f : V -> outcome bool) (rd : Z -> outcome V) : outcome (list Z) :=
  match k with
  | O => Ok []
  | S k' => x <- rd i ;; b <- f x ;; r <- select_loop k' (i + 1) f rd ;; Ok (if b then i :: r else r)
  end.
Definition r_in_cond {V} (c : cfg) (f : V -> outcome bool) (o : obj) (b : list V) : outcome obj :=
  n <- o_size o ;; I <- x_irange c n ;; is <- select_loop (Z.to_nat (ssize I)) 0 f (o_get c o b) ;; o_slice1 c o (Vec is).
(** array_ops.hpp 778-809: in_open_range (strict = true), in_closed_range. *)
Definition r_in_open {V} (c : cfg) (ltb leb : V -> V -> bool) (low high : V) (o : obj) (b : list V) : outcome obj :=
  check_debug c (Ok (leb low high)) ;;; r_in_cond c (fun x => Ok (ltb low x && ltb x high)) o b.
Definition r_in_closed {V} (c : cfg) (leb : V -> V -> bool) (low high : V) (o : obj) (b : list V) : outcome obj :=
  check_debug c (Ok (leb low high)) ;;; r_in_cond c (fun x => Ok (leb low x && leb x high)) o b.
(** array_ops.hpp 826-832: for_each on a modifiable object: f changes the element it is given. *)
Definition r_for_each {V} (c : cfg) (f : V -> outcome V) (o : obj) (b : list V) : mut (list V) :=
  match o_size o with
  | Ok n => mfor 0 n (fun i b => commit b (p <- o_lin c o i ;; x <- oget b p ;; y <- f x ;; oset b p y)) b
  | Fail f => MFail f b
  | UB => MUB
  end.
