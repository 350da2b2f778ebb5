(** Scalar functions: StrictCommon/strict_math.hpp and StrictCommon/strict_val_ops.hpp, integer instances,
    and the generic fast_pows_int. *)
From Verif Require Import Base.Outcome Model.IntModel.

(** strict_math.hpp 19-22, signs. *)
Definition signs (x : Z) : Z := Z.b2z (0 <? x) - Z.b2z (x <? 0).
(** strict_math.hpp 25-32, abss. *)
Definition abss (t : ity) (x : Z) : outcome Z :=
  if signed t then (if 0 <? x then Ok x else ineg t x) else Ok x.
(** strict_math.hpp 35-38, mins; 41-44, maxs. *)
Definition mins (x y : Z) : Z := if x <? y then x else y.
Definition maxs (x y : Z) : Z := if y <? x then x else y.
(** strict_math.hpp 255-258, squares; 261-264, cubes. *)
Definition squares (t : ity) (x : Z) : outcome Z := imul t x x.
Definition cubes (t : ity) (x : Z) : outcome Z := s <- imul t x x ;; imul t s x.

(** strict_math.hpp 267-282, pows on integers.  The C++ loop is [for(;;)]; [fuel] bounds the number of
    iterations, and running out of fuel is reported as UB (for a negative exponent with checks disabled the
    C++ loop never ends: pr stays -1).  [pows] provides 64 iterations, enough for every exponent of every type. *)
Fixpoint pows_loop (t : ity) (fuel : nat) (res pr xr : Z) : outcome Z :=
  match fuel with
  | O => UB
  | S fuel' =>
      res' <- (if Z.odd pr then imul t res xr else Ok res) ;;
      let pr' := pr / 2 in
      if pr' =? 0 then Ok res'
      else xr' <- imul t xr xr ;; pows_loop t fuel' res' pr' xr'
  end.
Definition pows (c : cfg) (t : ity) (x pw : Z) : outcome Z :=
  check_debug c (Ok (0 <=? pw)) ;;; pows_loop t 64 1 pw x.

(** strict_val_ops.hpp 24-28, factorial.  The recursion depth is n; [fuel] = n + 1 calls.  Recursion on a
    negative argument (only possible when the check is disabled) never reaches 0: reported as UB. *)
Fixpoint factorial_rec (c : cfg) (fuel : nat) (n : Z) : outcome Z :=
  match fuel with
  | O => UB
  | S fuel' =>
      check_debug c (Ok (-1 <? n)) ;;;
      if n =? 0 then Ok 1
      else m <- lsub n 1 ;; r <- factorial_rec c fuel' m ;; lmul n r
  end.
Definition factorial (c : cfg) (n : Z) : outcome Z := factorial_rec c (S (Z.to_nat n)) n.

(** strict_val_ops.hpp 31-42, binom_coeff.  The loop condition [f1 <= d1 + d2] is re-evaluated each time (the
    addition cannot overflow when n - k did not); the body runs d2 = k times; [++f1, ++f2] may overflow. *)
Fixpoint binom_loop (c : cfg) (fuel : nat) (lim prod f1 f2 : Z) : outcome Z :=
  if f1 <=? lim then
    match fuel with
    | O => UB
    | S fuel' =>
        p <- lmul prod f1 ;; q <- ldiv c p f2 ;;
        f1' <- ladd f1 1 ;; f2' <- ladd f2 1 ;;
        binom_loop c fuel' lim q f1' f2'
    end
  else Ok prod.
Definition binom_coeff (c : cfg) (n k : Z) : outcome Z :=
  check_debug c (Ok (-1 <? k)) ;;;
  check_debug c (Ok (k <=? n)) ;;;
  d1 <- lsub n k ;;
  f1 <- ladd d1 1 ;;
  lim <- ladd d1 k ;;
  binom_loop c (Z.to_nat k) lim 1 f1 1.

(** strict_val_ops.hpp 45-60, clamps on integers; std::clamp has the precondition lo <= hi (violating it is UB). *)
Definition clamps (c : cfg) (x low high : Z) : outcome Z :=
  check_debug c (Ok (low <=? high)) ;;;
  if high <? low then UB
  else Ok (if x <? low then low else if high <? x then high else x).

(** strict_val_ops.hpp 93-97, in_open; 106-110, in_closed. *)
Definition in_open (c : cfg) (x low high : Z) : outcome bool :=
  check_debug c (Ok (low <=? high)) ;;; Ok ((low <? x) && (x <? high)).
Definition in_closed (c : cfg) (x low high : Z) : outcome bool :=
  check_debug c (Ok (low <=? high)) ;;; Ok ((low <=? x) && (x <=? high)).

(** strict_val_ops.hpp 69-84, fast_pows_int, over an arbitrary multiplication (Strict<T> with T floating in the
    code).  [power] is the 64-bit |p|.  The second component counts the multiplications performed (ghost). *)
Section FastPow.
Context {M : Type} (mul : M -> M -> M) (one : M) (inv : M -> M).
Fixpoint fast_pow_loop (fuel : nat) (res : M) (power : Z) (x : M) (cnt : Z) : outcome (M * Z) :=
  match fuel with
  | O => UB
  | S fuel' =>
      let res' := if Z.odd power then mul res x else res in
      let cnt' := if Z.odd power then cnt + 1 else cnt in
      let power' := power / 2 in
      if power' =? 0 then Ok (res', cnt')
      else fast_pow_loop fuel' res' power' (mul x x) (cnt' + 1)
  end.
Definition fast_pows_int (x : M) (p : Z) : outcome (M * Z) :=
  power <- abss I64 p ;;
  rc <- fast_pow_loop 64 one power x 0 ;;
  Ok (if 0 <=? p then fst rc else inv (fst rc), snd rc).
End FastPow.
