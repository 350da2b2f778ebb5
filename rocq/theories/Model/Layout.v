(** Layout of printed arrays: array_IO.hpp 64-97, 199-325.  std::log10 is a parameter of the functions that use it (its contract
    is in Spec/LayoutSpec.v); names, detailed style, column widths.  Output to a stream is the text written.  Random
    expressions (274-276) are not modelled. *)
From Coq Require Import Ascii.
From Flocq Require Import Core BinarySingleNaN.
From Verif Require Import Base.Outcome Base.ZList Model.IntModel Model.ScalarOps Model.Index Model.Array1D Model.Expr Model.Reduce Model.FloatModel.
From Verif Require Import Model.Scalars Model.ArrayIO Model.FloatIO.

(** array_IO.hpp 200-205: count_digit of a floating-point number; the conversion to int is undefined out of range. *)
Definition count_digit {p e} (lg : binary_float p e -> binary_float p e) (x : binary_float p e) : outcome Z :=
  if Beqb x (B754_zero false) then Ok 1 else k <- flt_to_int I32 (lg x) ;; iadd I32 k 1.
(** The same for an integer: std::log10 converts it to double. *)
Definition count_digit_int (lg : flt F64 -> flt F64) (n : Z) : outcome Z :=
  if n =? 0 then Ok 1 else k <- flt_to_int I32 (lg (int_to_flt F64 n)) ;; iadd I32 k 1.
(** array_IO.hpp 208-210. *)
Definition integer_spacing (lg : flt F64 -> flt F64) (t : ity) (x : Z) : outcome Z :=
  d <- count_digit_int lg x ;; iadd I32 d (if signed t then 2 else 1).
(** array_IO.hpp 213. *)
Definition boolean_spacing : Z := 6.
(** array_IO.hpp 216-218; [prec] is format.precision<T>(). *)
Definition floating_spacing {p e} (lg : binary_float p e -> binary_float p e) (prec : nat) (x : binary_float p e) : outcome Z :=
  d <- count_digit lg x ;; w <- iadd I32 d (Z.of_nat prec) ;; iadd I32 w 2.
(** array_IO.hpp 221-225: a negative number of blanks would become a huge unsigned one, std::string then throws. *)
Definition smart_spaces (lg : flt F64 -> flt F64) (maxi i : Z) : outcome text :=
  max_digits <- count_digit_int lg maxi ;; ind_digits <- count_digit_int lg i ;;
  w <- iadd I32 1 max_digits ;; n <- isub I32 w ind_digits ;;
  if n <? 0 then Fail Throw else Ok (repeat sp (Z.to_nat n)).

(** array_IO.hpp 231-233, 304-306. *)
Definition heading (name : text) : text := match name with [] => [] | _ => name ++ [":"%char; nl] end.
(** array_IO.hpp 235-237, 308-310. *)
Definition brackets (detailed empty : bool) : text := if detailed && empty then ["["%char; "]"%char; nl] else [].
(** Text written by a loop over the elements with their indexes. *)
Fixpoint written {A} (f : Z -> A -> outcome text) (i : Z) (l : list A) : outcome text :=
  match l with [] => Ok [] | x :: l' => s <- f i x ;; r <- written f (i + 1) l' ;; Ok (s ++ r) end.

Section P.
Context (lg : flt F64 -> flt F64) {V : Type} (shown : V -> text).
(** array_IO.hpp 228-264: ostream_base_print in one dimension; [row] and [detailed] are the state of array_format (64-97). *)
Definition print_one (row detailed : bool) (name : text) (l : list V) : outcome text :=
  let n := zlen l in
  body <- written (fun i x =>
            if row then
              let post := if i =? n - 1 then [] else [sp; sp] in
              Ok ((if detailed then "["%char :: udec i ++ ["]"; " "; "="; " "]%char else []) ++ shown x ++ post)
            else if detailed then
              s <- smart_spaces lg n i ;; Ok ("["%char :: udec i ++ ["]"; " "; "="]%char ++ s ++ shown x ++ [nl])
            else Ok (shown x ++ [nl])) 0 l ;;
  Ok (heading name ++ brackets detailed (n =? 0) ++ body ++ (if row then [nl] else [])).
(** array_IO.hpp 301-325: two dimensions.  [width] is set_width_if_needed (283-299) for this matrix: evaluated for each element,
    None where no width is set.  A negative width has no effect. *)
Definition print_two (width : outcome (option Z)) (detailed : bool) (name : text) (cols : Z) (M : list (list V)) : outcome text :=
  body <- written (fun i r =>
            s <- written (fun j x =>
                   let post := if j =? cols - 1 then [] else [sp; sp] in
                   label <- (if detailed then s <- smart_spaces lg (zlen M) i ;;
                               Ok ("["%char :: udec i ++ [","; " "]%char ++ udec j ++ ["]"; " "; "="]%char ++ s) else Ok []) ;;
                   w <- width ;;
                   Ok (label ++ pad (match w with Some k => Z.to_nat k | None => O end) (shown x) ++ post)) 0 r ;;
            Ok (s ++ [nl])) 0 M ;;
  Ok (heading name ++ brackets detailed (zlen (concat M) =? 0) ++ body).
End P.

(** array_IO.hpp 267-325 for the three kinds of element: max_if_needed, set_width_if_needed, printing. *)
Definition print_ints (lg : flt F64 -> flt F64) (t : ity) (detailed : bool) (name : text) (cols : Z) (M : list (list Z)) : outcome text :=
  max_abs <- r_max Z.gtb (x_un (abss t) (src_of_list (concat M))) 0 ;;
  print_two lg (show t) (w <- integer_spacing lg t max_abs ;; Ok (Some w)) detailed name cols M.
Definition print_bools (lg : flt F64 -> flt F64) (detailed : bool) (name : text) (cols : Z) (M : list (list bool)) : outcome text :=
  print_two lg show_bool (Ok (Some boolean_spacing)) detailed name cols M.
(** [lgd] is std::log10 for double, [lg] the one for the element type; [sci] and [digits] are the state of format.
    Babs is abss up to the sign of zero, which neither the maximum nor count_digit sees. *)
Definition print_floats {p e} (lgd : flt F64 -> flt F64) (lg : binary_float p e -> binary_float p e) (sci : bool) (digits : nat)
  (detailed : bool) (name : text) (cols : Z) (M : list (list (binary_float p e))) : outcome text :=
  max_abs <- r_max (fun x y => Bltb y x) (src_of_list (map (@Babs p e) (concat M))) (B754_zero false) ;;
  print_two lgd (show_float p e sci digits) (if sci then Ok None else w <- floating_spacing lg digits max_abs ;; Ok (Some w)) detailed name cols M.
