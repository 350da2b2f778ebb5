(** Util/random.hpp: random numbers and arrays.
    The engine (std::mt19937 seeded from std::random_device) has an arbitrary state type, every generator an arbitrary initial
    state; the distributions are parameters: [draw low high s] is dst(gen), giving the value and the next state.  [pre] is what
    the standard requires of the bounds given to the constructor of the distribution; otherwise the behaviour is undefined. *)
From Flocq Require Import BinarySingleNaN.
From Verif Require Import Base.Outcome Base.ZList Model.IntModel Model.Index Model.Slice Model.Array1D Model.Array2D Model.View2D Model.Expr Model.SortModel.

Section R.
Context {V St : Type} (leb : V -> V -> bool) (is0 : V -> bool) (pre : V -> V -> bool) (draw : V -> V -> St -> V * St).
Implicit Types (b : list V) (s : St).

(** random.hpp 151, 166, 181: constructor of Generator, std::mt19937 gen and the distribution dst{l, h}. *)
Definition generator (low high : V) s : outcome St := if pre low high then Ok s else UB.
(** random.hpp 214-219 (called from 322-331): rands. *)
Definition rands (c : cfg) (low high : V) s : outcome V :=
  check_debug c (Ok (leb low high)) ;;; g <- generator low high s ;; Ok (fst (draw low high g)).
(** random.hpp 227-229: for(auto& x : A) x = g.random(). *)
Fixpoint fill_at b (ps : list Z) (low high : V) s : outcome (list V * St) :=
  match ps with [] => Ok (b, s) | p :: ps' => let r := draw low high s in b' <- oset b p (fst r) ;; fill_at b' ps' low high (snd r) end.
(** random.hpp 222-230: random(A, low, high). *)
Definition random_fill (c : cfg) (o : obj) (low high : V) s b : outcome (list V) :=
  check_debug c (Ok (leb low high)) ;;; g <- generator low high s ;;
  n <- o_size o ;; ps <- range_positions c o (Z.to_nat n) 0 ;; ' r <- fill_at b ps low high g ;; Ok (fst r).
(** random.hpp 360-381: random(A, B, ..., low, high): one generator each, from left to right; on a failure the arrays before
    it are filled already (not returned here). *)
Fixpoint random_fills (c : cfg) (As : list (obj * St * list V)) (low high : V) : outcome (list (list V)) :=
  match As with
  | [] => Ok []
  | (o, s, b) :: As' => b' <- random_fill c o low high s b ;; bs <- random_fills c As' low high ;; Ok (b' :: bs)
  end.

(** random.hpp 258-262 (also 274-279, 290-296, 307-313): while(true) until a draw differs from zero; [None]: still running after
    [fuel] draws. *)
Fixpoint next_not0 (fuel : nat) (low high : V) s : option (V * St) :=
  match fuel with
  | O => None
  | S f => let r := draw low high s in if is0 (fst r) then next_not0 f low high (snd r) else Some r
  end.
(** random.hpp 254-255, 269-270. *)
Definition not0_checks (c : cfg) (low high : V) : outcome unit :=
  check_debug c (Ok (leb low high)) ;;; check_debug c (Ok (negb (is0 low && is0 high))).
(** random.hpp 252-263: rands_not0. *)
Definition rands_not0 (c : cfg) (fuel : nat) (low high : V) s : outcome (option V) :=
  not0_checks c low high ;;; g <- generator low high s ;; Ok (option_map fst (next_not0 fuel low high g)).
(** random.hpp 266-281: random_not0(A, low, high). *)
Fixpoint fill_not0_at (fuel : nat) b (ps : list Z) (low high : V) s : outcome (option (list V)) :=
  match ps with
  | [] => Ok (Some b)
  | p :: ps' => match next_not0 fuel low high s with
                | None => Ok None
                | Some r => b' <- oset b p (fst r) ;; fill_not0_at fuel b' ps' low high (snd r)
                end
  end.
Definition random_not0_fill (c : cfg) (fuel : nat) (o : obj) (low high : V) s b : outcome (option (list V)) :=
  not0_checks c low high ;;; g <- generator low high s ;;
  n <- o_size o ;; ps <- range_positions c o (Z.to_nat n) 0 ;; fill_not0_at fuel b ps low high g.

(** random.hpp 233-239: the expression random(n, low, high): its size and the generator stored in it.  const1D(n, Zero) checks
    n; its elements are never used (here low stands for the zero). *)
Definition random_expr (c : cfg) (n : Z) (low high : V) s : outcome (Z * St) :=
  check_debug c (Ok (leb low high)) ;;; g <- generator low high s ;; A <- x_const1 c n low ;; Ok (ssize A, g).
(** random.hpp 242-248: random(m, n, low, high): rows, columns, number of elements and the generator. *)
Definition random_expr2 (c : cfg) (m n : Z) (low high : V) s : outcome (Z * Z * Z * St) :=
  check_debug c (Ok (leb low high)) ;;; g <- generator low high s ;; A <- x_const2 c m n low ;; Ok (s2rows A, s2cols A, s2size A, g).
(** random.hpp 237: reading an element draws the next number whatever the index (the lambda ignores its argument; the generator is mutable). *)
Fixpoint read_elements (k : nat) (low high : V) s : list V * St :=
  match k with O => ([], s) | S k' => let r := draw low high s in let q := read_elements k' low high (snd r) in (fst r :: fst q, snd q) end.
(** Array1D A = E: elements 0, 1, ... are read in order; the values and the generator afterwards. *)
Definition eval_expr (E : Z * St) (low high : V) : list V * St := read_elements (Z.to_nat (fst E)) low high (snd E).
(** An operator on two copies of the expression: Expr/types.hpp 400-414 (copy constructor), so that each operand has its own generator
    in the same state. *)
Fixpoint read_twice (f : V -> V -> V) (k : nat) (low high : V) s1 s2 : list V :=
  match k with
  | O => []
  | S k' => let r1 := draw low high s1 in let r2 := draw low high s2 in f (fst r1) (fst r2) :: read_twice f k' low high (snd r1) (snd r2)
  end.
Definition eval_self (f : V -> V -> V) (E : Z * St) (low high : V) : list V := read_twice f (Z.to_nat (fst E)) low high (snd E) (snd E).

(** random.hpp 393-422: random_not0(A, B, ..., low, high), one generator each, from left to right. *)
Fixpoint random_not0_fills (c : cfg) (fuel : nat) (As : list (obj * St * list V)) (low high : V) : outcome (option (list (list V))) :=
  match As with
  | [] => Ok (Some [])
  | (o, s, b) :: As' =>
      r <- random_not0_fill c fuel o low high s b ;;
      match r with
      | None => Ok None
      | Some b' => bs <- random_not0_fills c fuel As' low high ;; Ok (option_map (cons b') bs)
      end
  end.
(** random.hpp 284-298: the expression random_not0(n, low, high). *)
Definition random_not0_expr (c : cfg) (n : Z) (low high : V) s : outcome (Z * St) :=
  not0_checks c low high ;;; g <- generator low high s ;; A <- x_const1 c n low ;; Ok (ssize A, g).
(** random.hpp 301-315: random_not0(m, n, low, high). *)
Definition random_not0_expr2 (c : cfg) (m n : Z) (low high : V) s : outcome (Z * Z * Z * St) :=
  not0_checks c low high ;;; g <- generator low high s ;; A <- x_const2 c m n low ;; Ok (s2rows A, s2cols A, s2size A, g).
(** random.hpp 290-296, 307-313: reading an element draws until a number is not zero; [None]: some read is still running after [fuel] draws. *)
Fixpoint read_not0 (fuel k : nat) (low high : V) s : option (list V * St) :=
  match k with
  | O => Some ([], s)
  | S k' => match next_not0 fuel low high s with
            | None => None
            | Some r => match read_not0 fuel k' low high (snd r) with None => None | Some q => Some (fst r :: fst q, snd q) end
            end
  end.
Definition eval_not0_expr (fuel : nat) (E : Z * St) (low high : V) : option (list V * St) := read_not0 fuel (Z.to_nat (fst E)) low high (snd E).
End R.

(** std::uniform_int_distribution: a <= b. *)
Definition pre_int (a b : Z) : bool := a <=? b.
(** std::uniform_real_distribution: a <= b and b - a does not exceed the largest number. *)
Definition pre_real {prec emax} {Hp : FLX.Prec_gt_0 prec} {He : Prec_lt_emax prec emax} (a b : binary_float prec emax) : bool :=
  Bleb a b && is_finite (Bminus mode_NE b a).
(** random.hpp 164-176: Generator<bool>: even numbers give false. *)
Definition draw_bool {St} (draw : Z -> Z -> St -> Z * St) (low high : bool) (s : St) : bool * St :=
  let r := draw (Z.b2z low) (Z.b2z high) s in (negb (Z.rem (fst r) 2 =? 0), snd r).
(** random.hpp 194-211: Generator<__float128> converts the bounds to double ([sd]) and the numbers back ([sq]). *)
Definition draw_quad {D Q St} (sd : Q -> D) (sq : D -> Q) (draw : D -> D -> St -> D * St) (low high : Q) (s : St) : Q * St :=
  let r := draw (sd low) (sd high) s in (sq (fst r), snd r).
Definition pre_quad {D Q} (sd : Q -> D) (pre : D -> D -> bool) (low high : Q) : bool := pre (sd low) (sd high).
(** strict_val.hpp 254-265 (sd, sq): conversion of floating-point formats, rounding to nearest. *)
Definition convert {p1 e1} (p2 e2 : Z) {Hp : FLX.Prec_gt_0 p2} {He : Prec_lt_emax p2 e2} (x : binary_float p1 e1) : binary_float p2 e2 :=
  match x with
  | B754_zero s => B754_zero s
  | B754_infinity s => B754_infinity s
  | B754_nan => B754_nan
  | B754_finite s m e _ => binary_normalize p2 e2 Hp He mode_NE (if s then Z.neg m else Z.pos m) e s
  end.
(** random.hpp 334-337: default bounds 0 and 1 (false and true). *)
Definition rands01 {St} (draw : Z -> Z -> St -> Z * St) (c : cfg) (s : St) : outcome Z := rands Z.leb pre_int draw c 0 1 s.
Definition rands_bool {St} (draw : Z -> Z -> St -> Z * St) (c : cfg) (s : St) : outcome bool :=
  rands (fun a b => implb a b) (fun a b => implb a b) (draw_bool draw) c false true s.
