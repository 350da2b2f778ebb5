(** Floating-point helpers: StrictCommon/strict_val_ops.hpp 119-208, array_stable_ops.hpp, Util/error_tools.hpp.
    The arithmetic of the element type is a parameter [num]; Model/FloatModel.v gives the IEEE instance, the proofs also
    use exact arithmetic.  The volatile temporaries of the code are why every operation below rounds separately; the
    model assumes the same of the remaining operations (no excess precision, no contraction of a*b+c). *)
From Verif Require Import Base.Outcome Base.ZList Model.IntModel Model.Index Model.Array1D Model.Array2D Model.View2D Model.Expr Model.Reduce.

(** Operators of Strict<T> for a floating T: strict_val.hpp 128-190, 382-413, 480-515; fmas, strict_math.hpp 299-310;
    nofZ is strict_cast / value_type_cast from an integer. *)
Record num (V : Type) := mknum {
  nadd : V -> V -> V; nsub : V -> V -> V; nmul : V -> V -> V; ndiv : V -> V -> V; nfma : V -> V -> V -> V; nneg : V -> V;
  nlt : V -> V -> bool; nle : V -> V -> bool; neqb : V -> V -> bool;
  nzero : V; none_ : V; nofZ : Z -> V }.
Arguments mknum {V}.
Arguments nadd {V}. Arguments nsub {V}. Arguments nmul {V}. Arguments ndiv {V}. Arguments nfma {V}. Arguments nneg {V}.
Arguments nlt {V}. Arguments nle {V}. Arguments neqb {V}.
Arguments nzero {V}. Arguments none_ {V}. Arguments nofZ {V}.

Section STABLE.
Context {V : Type} (N : num V) (c : cfg).
Implicit Types (A : src1 V) (x y : V).

(** strict_val.hpp 505-515: x > y is y < x, x >= y is y <= x. *)
Definition ngt x y : bool := nlt N y x.
Definition nge x y : bool := nle N y x.
(** strict_math.hpp 25-32: abss. *)
Definition nabs x : V := if ngt x (nzero N) then x else nneg N x.
(** strict_math.hpp 35-44: mins, maxs. *)
Definition nmins x y : V := if nlt N x y then x else y.
Definition nmaxs x y : V := if ngt x y then x else y.
(** strict_math.hpp 49-52: invs. *)
Definition ninvs x : V := ndiv N (none_ N) x.

(** strict_val_ops.hpp 119-128: two_sums. *)
Definition two_sums x y : V * V :=
  let r := nadd N x y in
  let z := nsub N r x in
  let rz := nsub N r z in
  let yz := nsub N y z in
  let xrz := nsub N x rz in
  (r, nadd N xrz yz).

(** strict_val_ops.hpp 131-136: two_prods. *)
Definition two_prods x y : V * V :=
  let r := nmul N x y in (r, nfma N x y (nneg N r)).

(** strict_val_ops.hpp 139-208: pow_prods, over the product splitting [tp] (two_prods in the code).  temp holds rtemp
    (from 0) and stemp (from sz).  The two branches at 188-204 compute the same sum_loc. *)
Definition pow_prods_tp (tp : V -> V -> V * V) (x : V) (pw : Z) : outcome (V * V) :=
  check_debug c (Ok (-1 <? pw)) ;;;
  if pw =? 0 then Ok (none_ N, nzero N)
  else if pw =? 1 then Ok (x, nzero N)
  else if pw =? 2 then Ok (tp x x)
  else if pw =? 3 then
    let (r, s) := tp x x in let (rp1, sp1) := tp r x in Ok (rp1, nadd N (nmul N x s) sp1)
  else if pw =? 4 then
    let (r, s) := tp x x in let (r2, s2) := tp r r in
    Ok (r2, nadd N (nmul N (nmul N (nofZ N 2) r) s) s2)
  else if pw =? 5 then
    let (r, s) := tp x x in let (r2, s2) := tp r r in let (rp1, sp1) := tp r2 x in
    Ok (rp1, nadd N (nadd N (nmul N (nmul N (nmul N (nofZ N 2) x) r) s) (nmul N x s2)) sp1)
  else
    let (r, s) := tp x x in
    let n := Z.quot pw 2 in
    sz <- lsub n 1 ;; k <- lmul 2 sz ;;
    temp <- alloc (nzero N) c k ;;
    temp <- oset temp 0 (none_ N) ;;
    temp <- oset temp 1 r ;;
    temp <- for_ 2 sz (fun i temp =>
              p <- oget temp (i - 1) ;;
              let (rcur, scur) := tp p r in
              temp <- oset temp i rcur ;; oset temp (sz + (i - 2)) scur) temp ;;
    p <- oget temp (sz - 1) ;;
    let (rn_m1, sn_m1) := tp p r in
    temp <- oset temp (sz + (sz - 2)) sn_m1 ;;
    let (rn, sn) := tp rn_m1 r in
    temp <- oset temp (sz + (sz - 1)) sn ;;
    sum_loc <- for_ 0 sz (fun i sum =>
                 a <- oget temp i ;; b <- oget temp (sz + (sz - 1 - i)) ;; Ok (nadd N sum (nmul N a b))) (nzero N) ;;
    if Z.rem pw 2 =? 0 then
      Ok (rn, nadd N (nmul N (nmul N (nofZ N n) rn_m1) s) sum_loc)
    else
      let (rn_p1, sn_p1) := tp rn x in
      Ok (rn_p1, nadd N (nadd N (nmul N (nmul N (nmul N (nofZ N n) x) rn_m1) s) (nmul N x sum_loc)) sn_p1).
Definition pow_prods (x : V) (pw : Z) : outcome (V * V) := pow_prods_tp two_prods x pw.

(** array_stable_ops.hpp 99-111: the loop body of stable_sum on (s, c). *)
Definition sum_step (sc : V * V) (xi : V) : V * V :=
  let (s, co) := sc in
  let t := nadd N s xi in
  if nge (nabs s) (nabs xi) then
    let z := nsub N s t in (t, nadd N co (nadd N z xi))
  else
    let z := nsub N xi t in (t, nadd N co (nadd N z s)).
(** array_stable_ops.hpp 89-114: stable_sum; A.un(i) is read once per element. *)
Definition stable_sum A (d : V) : outcome V :=
  if ssize A =? 0 then Ok d
  else ' sc <- for_ 0 (ssize A) (fun i sc => xi <- sun A i ;; Ok (sum_step sc xi)) (nzero N, nzero N) ;;
       Ok (nadd N (fst sc) (snd sc)).

(** array_stable_ops.hpp 117-144: semi_stable_sum. *)
Definition block_size : Z := 64.
Definition semi_stable_sum A (d : V) : outcome V :=
  if ssize A =? 0 then Ok d
  else
    nblocks <- ldiv c (ssize A) block_size ;; rem <- lmod c (ssize A) block_size ;;
    sb <- arr_new (nzero N) c nblocks ;;
    sb <- for_ 0 nblocks (fun i sb =>
            for_ 0 block_size (fun j sb =>
              check_debug c (Ok (valid_index (an sb) i)) ;;;
              p <- lmul i block_size ;; q <- ladd p j ;; a <- sun A q ;;
              v <- oget (buf sb) i ;; b <- oset (buf sb) i (nadd N v a) ;; Ok (mkarr b (an sb))) sb) sb ;;
    r <- for_ 0 rem (fun i r => m <- lsub (ssize A) 1 ;; p <- lsub m i ;; a <- sun A p ;; Ok (nadd N r a)) (nzero N) ;;
    if an sb =? 0 then Ok r
    else t <- stable_sum (src_of_arr sb) (nzero N) ;; Ok (nadd N t r).

(** array_stable_ops.hpp 147-169: stable_prod.  The lambda given to generate keeps prod_temp between its calls; the
    expression is evaluated inside stable_sum, element by element from the first. *)
Definition stable_prod A (d : V) : outcome V :=
  if ssize A =? 0 then Ok d
  else
    m <- lsub (ssize A) 1 ;;
    res <- arr_new (nzero N) c m ;;
    p0 <- sun A 0 ;;
    ' rp <- for_ 1 (ssize A) (fun i rp =>
              a <- sun A i ;; k <- lsub i 1 ;; b <- oset (buf (fst rp)) k (snd (two_prods (snd rp) a)) ;;
              a' <- sun A i ;; Ok (mkarr b (an (fst rp)), nmul N (snd rp) a')) (res, p0) ;;
    let (res, p) := rp in
    m' <- lsub (ssize A) 1 ;; _ <- x_irange c m' ;;
    off <- (if m' =? 0 then Ok (nzero N)
            else ' st <- for_ 0 m' (fun i st =>
                           k <- lsub (an res) 1 ;; k <- lsub k i ;; r <- oget (buf res) k ;;
                           let t := nmul N (snd st) r in
                           q <- lsub (ssize A) 1 ;; q <- lsub q i ;; a <- sun A q ;;
                           Ok (sum_step (fst st) t, nmul N (snd st) a)) ((nzero N, nzero N), none_ N) ;;
                 Ok (nadd N (fst (fst st)) (snd (fst st)))) ;;
    Ok (nadd N p off).

(** array_stable_ops.hpp 172-178: stable_mean. *)
Definition stable_mean A (d : V) : outcome V :=
  if ssize A =? 0 then Ok d else s <- stable_sum A (nzero N) ;; Ok (ndiv N s (nofZ N (ssize A))).

(** array_stable_ops.hpp 181-199: stable_dot_prod; [same] is same_size(A1, A2). *)
Definition stable_dot (same : bool) A (B : src1 V) (d : V) : outcome V :=
  check_debug c (Ok same) ;;;
  if ssize A =? 0 then Ok d
  else
    a0 <- sun A 0 ;; b0 <- sun B 0 ;;
    ' ps <- for_ 1 (ssize A) (fun i ps =>
              a <- sun A i ;; b <- sun B i ;;
              let (h, r) := two_prods a b in
              let (p, q) := two_sums (fst ps) h in
              Ok (p, nadd N (snd ps) (nadd N q r))) (two_prods a0 b0) ;;
    Ok (nadd N (fst ps) (snd ps)).
Definition stable_dot_prod A (B : src1 V) (d : V) : outcome V := stable_dot (ssize A =? ssize B) A B d.
(** array_stable_ops.hpp 202-211: semi_stable_dot_prod; A1 * A2 is the expression of Model/Expr.v. *)
Definition semi_stable_dot_prod A (B : src1 V) (d : V) : outcome V :=
  check_debug c (Ok (ssize A =? ssize B)) ;;;
  if ssize A =? 0 then Ok d
  else P <- x_bin c (fun x y => Ok (nmul N x y)) A B ;; semi_stable_sum P (nzero N).

(** array_stable_ops.hpp 214-229: stable_norm1, stable_norm1_scaled. *)
Definition stable_norm1 A (d : V) : outcome V :=
  if ssize A =? 0 then Ok d else stable_sum (x_un (fun x => Ok (nabs x)) A) (nzero N).
Definition stable_norm1_scaled A (d : V) : outcome V :=
  if ssize A =? 0 then Ok d else s <- stable_norm1 A (nzero N) ;; Ok (ndiv N s (nofZ N (ssize A))).
(** array_stable_ops.hpp 232-247: stable_norm2, stable_norm2_scaled, over the square root of the type. *)
Definition stable_norm2 (sqrt : V -> V) A (d : V) : outcome V :=
  if ssize A =? 0 then Ok d else s <- stable_dot_prod A A (nzero N) ;; Ok (sqrt s).
Definition stable_norm2_scaled (sqrt : V -> V) A (d : V) : outcome V :=
  if ssize A =? 0 then Ok d
  else s <- stable_norm2 sqrt A (nzero N) ;; Ok (ndiv N s (sqrt (nofZ N (ssize A)))).

(** array_stable_ops.hpp 308-323: stable_gpolynomial; pow_prod(X, powers): Expr/binary.hpp 551-555 and functors.hpp
    295-310.  coeffs, X and powers have the same size. *)
Definition stable_gpolynomial (coeffs X : src1 V) (powers : src1 Z) (d : V) : outcome V :=
  check_debug c (Ok ((ssize coeffs =? ssize X) && (ssize X =? ssize powers))) ;;;
  if ssize coeffs =? 0 then Ok d
  else
    check_debug c (r_all (fun p => Ok (-1 <? p)) powers false) ;;;
    R <- x_bin c (fun x p => ' rs <- pow_prods x p ;; Ok (fst rs)) X powers ;;
    S <- x_bin c (fun x p => ' rs <- pow_prods x p ;; Ok (snd rs)) X powers ;;
    CP <- x_merge c coeffs coeffs ;;
    RS <- x_merge c R S ;;
    stable_dot_prod CP RS (nzero N).
(** array_stable_ops.hpp 281-291: stable_polynomial(coeffs, x); Start{0} and Incr{1} make the powers a sequence of int. *)
Definition stable_polynomial (coeffs : src1 V) (x : V) (d : V) : outcome V :=
  if ssize coeffs =? 0 then Ok d
  else X <- x_const1 c (ssize coeffs) x ;; P <- x_seq_int c I32 (ssize coeffs) 0 1 ;;
       stable_gpolynomial coeffs X P (nzero N).
(** array_stable_ops.hpp 294-305: stable_polynomial(coeffs, x, powers). *)
Definition stable_polynomial_powers (coeffs : src1 V) (x : V) (powers : src1 Z) (d : V) : outcome V :=
  check_debug c (Ok (ssize coeffs =? ssize powers)) ;;;
  if ssize coeffs =? 0 then Ok d
  else
    check_debug c (r_all (fun p => Ok (-1 <? p)) powers false) ;;;
    X <- x_const1 c (ssize coeffs) x ;; stable_gpolynomial coeffs X powers (nzero N).
(** array_stable_ops.hpp 250-265: stable_norm_lp over std::pow of the type (pows, strict_math.hpp 285-296). *)
Definition stable_norm_lp (pow : V -> V -> V) A (lp : Z) (d : V) : outcome V :=
  check_debug c (Ok (0 <? lp)) ;;;
  if ssize A =? 0 then Ok d
  else
    C <- x_const1 c (ssize A) (none_ N) ;; P <- x_const1 c (ssize A) lp ;;
    s <- stable_gpolynomial C (x_un (fun x => Ok (nabs x)) A) P (nzero N) ;;
    Ok (pow s (ninvs (nofZ N lp))).
(** array_stable_ops.hpp 268-278: stable_norm_lp_scaled. *)
Definition stable_norm_lp_scaled (pow : V -> V -> V) A (lp : Z) (d : V) : outcome V :=
  check_debug c (Ok (0 <? lp)) ;;;
  if ssize A =? 0 then Ok d
  else s <- stable_norm_lp pow A lp (nzero N) ;; Ok (ndiv N s (pow (nofZ N (ssize A)) (ninvs (nofZ N lp)))).

(** error_tools.hpp 33-38 and 41-54: within_tol_abs, within_tol_rel on scalars. *)
Definition within_tol_abs x y tol : outcome bool :=
  check_debug c (Ok (nge tol (nzero N))) ;;; Ok (nle N (nabs (nsub N x y)) tol).
Definition within_tol_rel x y tol near_zero : outcome bool :=
  check_debug c (Ok (nge tol (nzero N))) ;;; check_debug c (Ok (nge near_zero (nzero N))) ;;;
  if nle N (nmaxs (nabs x) (nabs y)) near_zero then Ok true
  else Ok (nle N (ndiv N (nabs (nsub N x y)) (nmaxs (nabs x) (nabs y))) tol).
(** error_tools.hpp 58-84: on arrays (all_of over both). *)
Definition within_tol_abs_arr A (B : src1 V) tol (d : bool) : outcome bool :=
  check_debug c (Ok (ssize A =? ssize B)) ;;;
  if ssize A =? 0 then Ok d else r_all2 c (ssize A =? ssize B) (fun x y => within_tol_abs x y tol) A B false.
Definition within_tol_rel_arr A (B : src1 V) tol near_zero (d : bool) : outcome bool :=
  check_debug c (Ok (ssize A =? ssize B)) ;;;
  if ssize A =? 0 then Ok d else r_all2 c (ssize A =? ssize B) (fun x y => within_tol_rel x y tol near_zero) A B false.
(** error_tools.hpp 163-176: abs_error, rel_error (None is std::nullopt). *)
Definition abs_error approx exact_ : V := nabs (nsub N approx exact_).
Definition rel_error approx exact_ : option V :=
  if neqb N approx (nzero N) || neqb N exact_ (nzero N) then None
  else Some (nabs (ndiv N (nsub N approx exact_) exact_)).
(** array_ops.hpp 481-487: norm_inf = max(abs(A)). *)
Definition norm_inf A (d : V) : outcome V := r_norm_inf ngt nabs (nzero N) A d.
(** error_tools.hpp 180-190 and 193-207: max_abs_error, max_rel_error. *)
Definition max_abs_error A (B : src1 V) (d : V) : outcome V :=
  check_debug c (Ok (ssize A =? ssize B)) ;;;
  if ssize A =? 0 then Ok d
  else D <- x_bin c (fun x y => Ok (nsub N x y)) A B ;; norm_inf D (nzero N).
Definition max_rel_error A (B : src1 V) (d : V) : outcome (option V) :=
  check_debug c (Ok (ssize A =? ssize B)) ;;;
  if ssize A =? 0 then Ok (Some d)
  else
    za <- r_any (fun x => Ok (neqb N x (nzero N))) A false ;;
    zb <- r_any (fun x => Ok (neqb N x (nzero N))) B false ;;
    if za || zb then Ok None
    else D <- x_bin c (fun x y => Ok (nsub N x y)) A B ;; Q <- x_bin c (fun x y => Ok (ndiv N x y)) D B ;;
         r <- norm_inf Q (nzero N) ;; Ok (Some r).
End STABLE.
