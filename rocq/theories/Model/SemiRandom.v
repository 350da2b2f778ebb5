(** Util/semi_random.hpp: the linear congruential generator SemiGenerator and the functions built on it.
    [tm] is the value of __TIME__[7], the last digit of the time of compilation ('0' .. '9', any char in the theorems). *)
From Verif Require Import Base.Outcome Base.ZList Model.IntModel Model.StableOps.

(** semi_random.hpp 156-162: constructor of SemiGenerator, the initial value of previous_. *)
Definition sg_init (tm seed : Z) : outcome Z :=
  a <- imul U32 (icast U32 tm) 100000 ;; b <- imul U32 seed 100000 ;; iadd U32 a b.

(** semi_random.hpp 180-190: generate(), with modulus_, multiplier_ and increment_; returns the new previous_. *)
Definition sg_generate (c : cfg) (prev : Z) : outcome Z :=
  a <- imul U32 8 prev ;; b <- iadd U32 a 13 ;; imod c U32 b 10000000.

(** semi_random.hpp 164-177: random() for an integer type; returns the value and the new previous_. *)
Definition sg_random (c : cfg) (t : ity) (low high prev : Z) : outcome (Z * Z) :=
  r <- sg_generate c prev ;;
  if (low =? 0) && (high =? 1)
  then r2 <- sg_generate c r ;; Ok (if r2 <? r then 0 else 1, r2)
  else d <- isub t high low ;; w <- iadd t d 1 ;; m <- imod c t (icast t r) w ;; v <- iadd t low m ;; Ok (v, r).
(** ... for bool. *)
Definition sg_random_bool (c : cfg) (prev : Z) : outcome (bool * Z) :=
  r <- sg_generate c prev ;; r2 <- sg_generate c r ;; Ok (negb (r2 <? r), r2).
(** ... for a floating type. *)
Definition sg_random_num {V} (N : num V) (c : cfg) (low high : V) (prev : Z) : outcome (V * Z) :=
  r <- sg_generate c prev ;;
  Ok (nadd N low (nmul N (ndiv N (nofZ N r) (nofZ N 10000000)) (nsub N high low)), r).

(** semi_random.hpp 194-199: semi_rands. *)
Definition semi_rands (c : cfg) (t : ity) (tm low high seed : Z) : outcome Z :=
  check_debug c (Ok (low <=? high)) ;;;
  p <- sg_init tm seed ;; ' r <- sg_random c t low high p ;; Ok (fst r).
Definition semi_rands_num {V} (N : num V) (c : cfg) (tm : Z) (low high : V) (seed : Z) : outcome V :=
  check_debug c (Ok (nle N low high)) ;;;
  p <- sg_init tm seed ;; ' r <- sg_random_num N c low high p ;; Ok (fst r).

(** semi_random.hpp 208-210 and 218-219, 228-229 (copying the expression into an array): the elements receive successive draws in
    increasing order of the index. *)
Definition sg_fill {V} (rnd : Z -> outcome (V * Z)) (n : Z) (b : list V) (prev : Z) : outcome (list V * Z) :=
  for_ 0 n (fun i s => ' r <- rnd (snd s) ;; b' <- oset (fst s) i (fst r) ;; Ok (b', snd r)) (b, prev).
(** semi_random.hpp 202-211: semi_random(A, low, high, seed) on the elements [l] of A. *)
Definition semi_random_fill (c : cfg) (t : ity) (tm low high seed : Z) (l : list Z) : outcome (list Z) :=
  check_debug c (Ok (low <=? high)) ;;;
  s <- iadd U32 seed (icast U32 (zlen l)) ;;
  p <- sg_init tm s ;; ' r <- sg_fill (sg_random c t low high) (zlen l) l p ;; Ok (fst r).
(** semi_random.hpp 214-230: the expressions semi_random(n, ...) and semi_random(m, n, ...): [k] is n in both; every read of an
    element, whatever its index, is the next draw of the generator stored in the expression.  State after the reads so far. *)
Definition semi_expr_init (c : cfg) (tm low high seed k : Z) : outcome Z :=
  check_debug c (Ok (low <=? high)) ;;; s <- iadd U32 seed (icast U32 k) ;; sg_init tm s.
Definition semi_expr_un (c : cfg) (t : ity) (low high : Z) (prev i : Z) : outcome (Z * Z) := sg_random c t low high prev.

(** semi_random.hpp 240-244 (also 257-262, 275-279, 293-297): while(true) until a draw differs from zero.  [fuel] bounds the number of iterations;
    [None] means that the loop is still running after that many. *)
Fixpoint not0_loop (rnd : Z -> outcome (Z * Z)) (fuel : nat) (prev : Z) : outcome (option (Z * Z)) :=
  match fuel with
  | O => Ok None
  | S f => ' r <- rnd prev ;; if negb (fst r =? 0) then Ok (Some r) else not0_loop rnd f (snd r)
  end.
(** semi_random.hpp 234-245: semi_rands_not0. *)
Definition semi_rands_not0 (c : cfg) (t : ity) (fuel : nat) (tm low high seed : Z) : outcome (option Z) :=
  check_debug c (Ok (low <=? high)) ;;;
  check_debug c (Ok (negb ((low =? 0) && (high =? 0)))) ;;;
  p <- sg_init tm seed ;; r <- not0_loop (sg_random c t low high) fuel p ;; Ok (option_map fst r).
(** semi_random.hpp 248-264: semi_random_not0(A, low, high, seed); [fuel] iterations per element. *)
Fixpoint not0_fill (rnd : Z -> outcome (Z * Z)) (fuel : nat) (k : nat) (i : Z) (b : list Z) (prev : Z) : outcome (option (list Z)) :=
  match k with
  | O => Ok (Some b)
  | S k' => r <- not0_loop rnd fuel prev ;;
            match r with
            | None => Ok None
            | Some (v, p) => b' <- oset b i v ;; not0_fill rnd fuel k' (i + 1) b' p
            end
  end.
Definition semi_random_not0 (c : cfg) (t : ity) (fuel : nat) (tm low high seed : Z) (l : list Z) : outcome (option (list Z)) :=
  check_debug c (Ok (low <=? high)) ;;;
  check_debug c (Ok (negb ((low =? 0) && (high =? 0)))) ;;;
  s <- iadd U32 seed (icast U32 (zlen l)) ;; p <- sg_init tm s ;;
  not0_fill (sg_random c t low high) fuel (length l) 0 l p.
(** semi_random.hpp 267-299: the expressions semi_random_not0(n, ...) and semi_random_not0(m, n, ...): [k] is n in both. *)
Definition semi_not0_expr_init (c : cfg) (tm low high seed k : Z) : outcome Z :=
  check_debug c (Ok (low <=? high)) ;;; check_debug c (Ok (negb ((low =? 0) && (high =? 0)))) ;;;
  s <- iadd U32 seed (icast U32 k) ;; sg_init tm s.
(** Reading [k] elements of it (Array1D A = E), each with its own loop of at most [fuel] iterations. *)
Fixpoint semi_not0_read (rnd : Z -> outcome (Z * Z)) (fuel k : nat) (prev : Z) : outcome (option (list Z)) :=
  match k with
  | O => Ok (Some [])
  | S k' => r <- not0_loop rnd fuel prev ;;
            match r with None => Ok None | Some (v, p) => l <- semi_not0_read rnd fuel k' p ;; Ok (option_map (cons v) l) end
  end.
(** semi_random.hpp 194-199 with 319-322: semi_rands<bool>(seed), between false and true. *)
Definition semi_rands_bool (c : cfg) (tm seed : Z) : outcome bool :=
  check_debug c (Ok true) ;;; p <- sg_init tm seed ;; ' r <- sg_random_bool c p ;; Ok (fst r).
(** semi_random.hpp 202-211 with 360-366: semi_random(A) for arrays of bool. *)
Definition semi_fill_bool (c : cfg) (tm seed : Z) (l : list bool) : outcome (list bool) :=
  check_debug c (Ok true) ;;; s <- iadd U32 seed (icast U32 (zlen l)) ;;
  p <- sg_init tm s ;; ' r <- sg_fill (sg_random_bool c) (zlen l) l p ;; Ok (fst r).
(** semi_random.hpp 360-366: semi_random(A, B, ...) on arrays of one integer type: bounds 0 and 1, seed 1 for each. *)
Fixpoint semi_fills (c : cfg) (t : ity) (tm : Z) (ls : list (list Z)) : outcome (list (list Z)) :=
  match ls with [] => Ok [] | l :: ls' => r <- semi_random_fill c t tm 0 1 1 l ;; rs <- semi_fills c t tm ls' ;; Ok (r :: rs) end.
(** semi_random.hpp 214-230, 370-495: reading the elements [is] of the expression semi_random(n, ...) one after the other; the values read and the generator. *)
Fixpoint semi_reads (c : cfg) (t : ity) (low high : Z) (is : list Z) (prev : Z) : outcome (list Z * Z) :=
  match is with
  | [] => Ok ([], prev)
  | i :: is' => ' r <- semi_expr_un c t low high prev i ;; ' q <- semi_reads c t low high is' (snd r) ;; Ok (fst r :: fst q, snd q)
  end.
