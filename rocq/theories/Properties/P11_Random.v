(** Properties C49 and C50: semi-random numbers.  [tm] is the last character of __TIME__. *)
From Coq Require Import ZArith.
From Flocq Require Import Core BinarySingleNaN.
From Verif Require Import Base.Outcome Base.ZList Model.IntModel Model.StableOps Model.FloatModel Model.SemiRandom.
From Verif Require Import Spec.FloatSpec Spec.SemiSpec Spec.Configs Proofs.SemiProofs Proofs.SemiFloat Proofs.RandomMore.
Local Open Scope Z_scope.

(** ** C49 *)
(** In range, for every seed, type and configuration; and never more than 9999999 above the lower bound. *)
Theorem C49_range : forall c t tm seed low high, args_ok t tm seed low high -> width_ok t low high ->
  exists v, semi_rands c t tm low high seed = Ok v /\ low <= v <= high /\ v < low + 10000000.
Proof. exact semi_range. Qed.
Print Assumptions C49_range.

(** The exact value, from the first draw of the generator. *)
Theorem C49_value : forall c t tm seed low high, args_ok t tm seed low high -> width_ok t low high -> ~ unit_range low high ->
  semi_rands c t tm low high seed = Ok (low + draw tm seed 0 mod (high - low + 1)).
Proof. exact semi_value. Qed.
Print Assumptions C49_value.
Theorem C49_unit : forall c t tm seed, args_ok t tm seed 0 1 ->
  semi_rands c t tm 0 1 seed = Ok (if draw tm seed 1 <? draw tm seed 0 then 0 else 1).
Proof. exact semi_unit. Qed.
Print Assumptions C49_unit.

(** Whole arrays: element k is made from draw k. *)
Theorem C49_fill : forall c t tm seed low high l, args_ok t tm seed low high -> width_ok t low high -> ~ unit_range low high ->
  semi_random_fill c t tm low high seed l =
  Ok (map (fun k => low + draw tm (seed_of seed (zlen l)) k mod (high - low + 1)) (seq 0 (length l))).
Proof. exact fill_values. Qed.
Print Assumptions C49_fill.
Theorem C49_fill_unit : forall c t tm seed l, args_ok t tm seed 0 1 ->
  semi_random_fill c t tm 0 1 seed l =
  Ok (map (fun k => let s := seed_of seed (zlen l) in if draw tm s (2 * k + 1) <? draw tm s (2 * k) then 0 else 1) (seq 0 (length l))).
Proof. exact fill_unit. Qed.
Print Assumptions C49_fill_unit.
Theorem C49_fill_range : forall c t tm seed low high l, args_ok t tm seed low high -> width_ok t low high ->
  exists r, semi_random_fill c t tm low high seed l = Ok r /\ length r = length l /\
            forall v, In v r -> low <= v <= high /\ v < low + 10000000.
Proof. exact fill_range. Qed.
Print Assumptions C49_fill_range.

(** Reversed bounds are reported; a range whose size is not a value of the type is undefined behaviour for signed types
    and, for unsigned types (only [0, max]), a remainder by zero, which is reported in checked builds. *)
Theorem C49_reversed : forall c t tm seed low high, checked c = true -> high < low ->
  semi_rands c t tm low high seed = Fail (report c).
Proof. exact semi_reversed. Qed.
Print Assumptions C49_reversed.
Theorem C49_overflow : forall c t tm seed low high, signed t = true -> args_ok t tm seed low high -> ~ width_ok t low high ->
  semi_rands c t tm low high seed = UB.
Proof. exact semi_overflow. Qed.
Print Assumptions C49_overflow.
Theorem C49_unsigned_full : forall c t tm seed, signed t = false -> 0 <= tm < 256 -> 0 <= seed < two32 ->
  semi_rands c t tm 0 (tmax t) seed = if checked c then Fail (report c) else UB.
Proof. exact semi_full. Qed.
Print Assumptions C49_unsigned_full.

(** Raw draws modulo 8 and 128, hence constant values. *)
Theorem C49_draws_mod8 : forall tm seed k, draw tm seed k mod 8 = 5.
Proof. exact draw_8. Qed.
Print Assumptions C49_draws_mod8.
Theorem C49_draws_mod128 : forall tm seed k, (2 <= k)%nat -> draw tm seed k mod 128 = 53.
Proof. exact draw_late. Qed.
Print Assumptions C49_draws_mod128.
Theorem C49_constant : forall c t tm seed low high, args_ok t tm seed low high -> pow2_8 (high - low + 1) -> ~ unit_range low high ->
  semi_rands c t tm low high seed = Ok (low + 5 mod (high - low + 1)).
Proof. exact semi_constant. Qed.
Print Assumptions C49_constant.
Theorem C49_fill_constant : forall c t tm seed low high l, args_ok t tm seed low high -> pow2_8 (high - low + 1) -> ~ unit_range low high ->
  semi_random_fill c t tm low high seed l = Ok (repeat (low + 5 mod (high - low + 1)) (length l)).
Proof. exact fill_constant. Qed.
Print Assumptions C49_fill_constant.
Theorem C49_fill_eventually_constant : forall c t tm seed low high l, args_ok t tm seed low high -> pow2_128 (high - low + 1) -> ~ unit_range low high ->
  exists r, semi_random_fill c t tm low high seed l = Ok r /\ zlen r = zlen l /\
            forall i, 2 <= i < zlen l -> znth r i = Some (low + 53 mod (high - low + 1)).
Proof. exact fill_late. Qed.
Print Assumptions C49_fill_eventually_constant.
(** A seed from which the generator never changes again. *)
Theorem C49_stuck_seed : forall tm k, (2 <= k)%nat -> draw tm (7688013 - tm) k = 2857141.
Proof. exact draws_stuck. Qed.
Print Assumptions C49_stuck_seed.

(** Floating types (any format with at least the precision of float): within the bounds when their difference is finite,
    +infinity when it overflows. *)
Theorem C49_float : forall (prec emax : Z) (Hp : Prec_gt_0 prec) (He : Prec_lt_emax prec emax), 24 <= prec ->
  forall c tm seed (l h : binary_float prec emax), 0 <= tm < 256 -> 0 <= seed < two32 ->
  is_finite l = true -> is_finite h = true -> is_finite (Bminus mode_NE h l) = true -> Bleb l h = true ->
  exists v, semi_rands_num (fnum prec emax) c tm l h seed = Ok v /\ is_finite v = true /\ Bleb l v = true /\ Bleb v h = true.
Proof. exact @semi_float. Qed.
Print Assumptions C49_float.
Theorem C49_float_overflow : forall (prec emax : Z) (Hp : Prec_gt_0 prec) (He : Prec_lt_emax prec emax), 24 <= prec ->
  forall c tm seed (l h : binary_float prec emax), 0 <= tm < 256 -> 0 <= seed < two32 ->
  is_finite l = true -> is_finite h = true -> is_finite (Bminus mode_NE h l) = false -> Bleb l h = true ->
  semi_rands_num (fnum prec emax) c tm l h seed = Ok (B754_infinity false).
Proof. exact @semi_float_overflow. Qed.
Print Assumptions C49_float_overflow.

(** bool: true unless the second number drawn is smaller; arrays filled in one call are equal if their sizes are. *)
Theorem C49_bool : forall c tm seed, 0 <= tm < 256 -> 0 <= seed < two32 -> semi_rands_bool c tm seed = Ok (draw tm seed 0 <=? draw tm seed 1).
Proof. exact semi_bool. Qed.
Print Assumptions C49_bool.
Theorem C49_bool_fill : forall c tm seed l, 0 <= tm < 256 -> 0 <= seed < two32 ->
  semi_fill_bool c tm seed l = Ok (map (fun k => let s := seed_of seed (zlen l) in draw tm s (2 * k) <=? draw tm s (2 * k + 1)) (seq 0 (length l))).
Proof. exact fill_bool. Qed.
Print Assumptions C49_bool_fill.
Theorem C49_same_numbers : forall c t tm l l', 0 <= tm < 256 -> zlen l = zlen l' -> exists r, semi_fills c t tm [l; l'] = Ok [r; r].
Proof. exact fills_same. Qed.
Print Assumptions C49_same_numbers.
(** However many arrays are filled in one call, each gets the numbers of seed 1. *)
Theorem C49_fills : forall c t tm ls, 0 <= tm < 256 ->
  semi_fills c t tm ls = Ok (map (fun l => map (fun k => let s := seed_of 1 (zlen l) in if draw tm s (2 * k + 1) <? draw tm s (2 * k) then 0 else 1) (seq 0 (length l))) ls).
Proof. exact fills_values. Qed.
Print Assumptions C49_fills.
Example C49_bool_case : semi_rands_bool c_dbg 53 7 = Ok false /\ semi_fill_bool c_dbg 53 1 [false; false; false; false; false; false] = Ok [false; true; false; true; true; true] /\ semi_fills c_dbg I32 53 [[5; 6; 7]; [8; 9; 1]] = Ok [[0; 0; 0]; [0; 0; 0]].
Proof. repeat split; vm_compute; reflexivity. Qed.

(** Reading the expression semi_random(n, ...): whatever the indices, the elements are the successive draws; read from the first to the last they
    are those of semi_random(A, ...). *)
Theorem C49_expression : forall c t tm seed low high n is, args_ok t tm seed low high -> width_ok t low high -> ~ unit_range low high -> 0 <= n ->
  exists p q, semi_expr_init c tm low high seed n = Ok p /\ semi_reads c t low high is p = Ok (map (fun k => low + draw tm (seed_of seed n) k mod (high - low + 1)) (seq 0 (length is)), q).
Proof. exact expr_reads. Qed.
Print Assumptions C49_expression.
Theorem C49_expression_fill : forall c t tm seed low high l, args_ok t tm seed low high -> width_ok t low high -> ~ unit_range low high ->
  exists p r q, semi_expr_init c tm low high seed (zlen l) = Ok p /\ semi_reads c t low high (zseq 0 (length l)) p = Ok (r, q) /\ semi_random_fill c t tm low high seed l = Ok r.
Proof. exact expr_fill. Qed.
Print Assumptions C49_expression_fill.
Theorem C49_expression_reversed : forall c tm seed low high n, checked c = true -> high < low -> semi_expr_init c tm low high seed n = Fail (report c).
Proof. exact expr_reversed. Qed.
Print Assumptions C49_expression_reversed.
(** An element of it has no value of its own. *)
Theorem C49_element_refuted : exists p q a b, semi_expr_init c_dbg 53 10 20 7 5 = Ok p /\ semi_reads c_dbg I64 10 20 [0; 0] p = Ok ([a; b], q) /\ a <> b.
Proof. eexists _, _, _, _. split; [vm_compute; reflexivity|]. split; [vm_compute; reflexivity|]. lia. Qed.
Print Assumptions C49_element_refuted.
Example C49_expression_case : exists p q, semi_expr_init c_dbg 53 10 20 7 5 = Ok p /\ semi_reads c_dbg I64 10 20 [4; 4; 0; 1; 2] p = Ok ([14; 12; 10; 18; 13], q) /\ semi_expr_init c_dbg 53 20 10 7 5 = Fail Throw.
Proof. eexists _, _. repeat split; vm_compute; reflexivity. Qed.

Example C49_case :
  args_ok I32 53 7 (-3) 9 /\ width_ok I32 (-3) 9 /\ ~ unit_range (-3) 9 /\
  semi_rands c_dbg I32 53 (-3) 9 7 = Ok (-3 + draw 53 7 0 mod 13) /\
  semi_rands c_off I32 53 (-3) 9 7 = semi_rands c_dbg I32 53 (-3) 9 7 /\
  semi_rands c_dbg I32 53 9 (-3) 7 = Fail (report c_dbg) /\
  args_ok I32 53 7 (-1) 2147483647 /\ ~ width_ok I32 (-1) 2147483647 /\
  semi_rands c_dbg U32 53 0 4294967295 7 = Fail (report c_dbg) /\ semi_rands c_off U32 53 0 4294967295 7 = UB.
Proof. unfold args_ok, width_ok, unit_range, two32. cbn [tmin tmax]. repeat split; try (vm_compute; reflexivity); try lia; vm_compute; congruence. Qed.
Example C49_case_fill :
  semi_random_fill c_dbg I64 53 10 17 7 [0; 0; 0; 0; 0] = Ok [15; 15; 15; 15; 15] /\
  semi_random_fill c_dbg I64 53 10 25 7 [0; 0; 0; 0; 0] = Ok [23; 15; 15; 15; 15] /\
  semi_random_fill c_dbg I64 53 10 20 7 [0; 0; 0; 0; 0] = Ok [14; 12; 10; 18; 13].
Proof. repeat split; vm_compute; reflexivity. Qed.
Example C49_case_float : let l := dbl 1 0 in let h := dbl 3 1 in let m := dbl 1 1023 in
  is_finite l = true /\ is_finite h = true /\ is_finite (Bminus mode_NE h l) = true /\ Bleb l h = true /\
  is_finite (Bminus mode_NE m (Bopp m)) = false /\ Bleb (Bopp m) m = true.
Proof. repeat split; vm_compute; reflexivity. Qed.

(** ** C50 *)
(** [fuel] bounds the iterations of the loop; [None]: still running. *)
Theorem C50_result : forall c t fuel tm seed low high v, args_ok t tm seed low high -> width_ok t low high ->
  semi_rands_not0 c t fuel tm low high seed = Ok (Some v) -> v <> 0 /\ low <= v <= high.
Proof. exact not0_range. Qed.
Print Assumptions C50_result.
(** It returns exactly when some draw gives a non-zero value. *)
Theorem C50_running : forall c t fuel tm seed low high,
  args_ok t tm seed low high -> width_ok t low high -> ~ unit_range low high -> ~ (low = 0 /\ high = 0) ->
  (exists v, semi_rands_not0 c t fuel tm low high seed = Ok (Some v)) \/
  (semi_rands_not0 c t fuel tm low high seed = Ok None /\ forall j, (j < fuel)%nat -> low + draw tm seed j mod (high - low + 1) = 0).
Proof. exact not0_running. Qed.
Print Assumptions C50_running.
Theorem C50_direct : forall c t fuel tm seed low high, args_ok t tm seed low high -> width_ok t low high -> 0 < low \/ high < 0 ->
  semi_rands_not0 c t (S fuel) tm low high seed = Ok (Some (low + draw tm seed 0 mod (high - low + 1))).
Proof. exact not0_direct. Qed.
Print Assumptions C50_direct.
(** Never returns on these ranges, whatever the seed. *)
Theorem C50_never : forall c t fuel tm seed low high, signed t = true -> 0 <= tm < 256 -> 0 <= seed < two32 ->
  In (low, high) [(-1, 0); (-1, 2); (-5, 2)] -> semi_rands_not0 c t fuel tm low high seed = Ok None.
Proof. exact not0_never. Qed.
Print Assumptions C50_never.
Theorem C50_zero_range : forall c t fuel tm seed, 0 <= tm < 256 -> 0 <= seed < two32 ->
  semi_rands_not0 c t fuel tm 0 0 seed = if checked c then Fail (report c) else Ok None.
Proof. exact not0_zero. Qed.
Print Assumptions C50_zero_range.
Theorem C50_reversed : forall c t fuel tm seed low high, checked c = true -> high < low ->
  semi_rands_not0 c t fuel tm low high seed = Fail (report c).
Proof. exact not0_reversed. Qed.
Print Assumptions C50_reversed.
(** Arrays: non-zero values in range if it returns; with 3 or more elements it never returns for ranges of 2^k <= 128
    values with low + 53 mod 2^k = 0. *)
Theorem C50_arrays : forall c t fuel tm seed low high l r, args_ok t tm seed low high -> width_ok t low high -> ~ unit_range low high ->
  semi_random_not0 c t fuel tm low high seed l = Ok (Some r) -> zlen r = zlen l /\ forall v, In v r -> v <> 0 /\ low <= v <= high.
Proof. exact not0_arrays_range. Qed.
Print Assumptions C50_arrays.
Theorem C50_arrays_never : forall c t fuel tm seed low high l,
  args_ok t tm seed low high -> pow2_128 (high - low + 1) -> ~ unit_range low high -> low + 53 mod (high - low + 1) = 0 -> 3 <= zlen l ->
  semi_random_not0 c t fuel tm low high seed l = Ok None.
Proof. exact not0_arrays. Qed.
Print Assumptions C50_arrays_never.

Example C50_case :
  semi_rands_not0 c_dbg I32 5 53 (-4) 5 7 = Ok (Some (-1)) /\ args_ok I32 53 7 (-4) 5 /\ width_ok I32 (-4) 5 /\ ~ unit_range (-4) 5 /\
  semi_rands_not0 c_dbg I32 1000 53 (-1) 2 7 = Ok None /\
  semi_random_not0 c_dbg I32 5 53 (-4) 5 7 [0; 0; 0; 0] = Ok (Some [-1; 3; 5; 1]) /\
  (args_ok I32 53 7 (-5) 10 /\ pow2_128 (10 - -5 + 1) /\ ~ unit_range (-5) 10 /\ -5 + 53 mod (10 - -5 + 1) = 0 /\ 3 <= zlen [0; 0; 0]) /\
  semi_random_not0 c_dbg I32 100 53 (-5) 10 7 [0; 0; 0] = Ok None.
Proof. unfold args_ok, width_ok, unit_range, two32, pow2_128. cbn [tmin tmax]. repeat split; try (vm_compute; reflexivity); try lia; vm_compute; congruence. Qed.
(** The expression semi_random_not0(n, low, high, seed) has the elements that an array of n elements would get. *)
Theorem C50_expr : forall c t fuel tm low high seed (l : list Z),
  (p <- semi_not0_expr_init c tm low high seed (zlen l) ;; semi_not0_read (sg_random c t low high) fuel (length l) p) = semi_random_not0 c t fuel tm low high seed l.
Proof. exact not0_expr_same. Qed.
Print Assumptions C50_expr.
Example C50_expr_case : (p <- semi_not0_expr_init c_dbg 53 (-3) 9 7 5 ;; semi_not0_read (sg_random c_dbg I32 (-3) 9) 20 5 p) = Ok (Some [-1; 3; 5; 1; -1]).
Proof. vm_compute. reflexivity. Qed.
