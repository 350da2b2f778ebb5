(** Property C75: the layout of printed arrays. *)
From Coq Require Import ZArith Reals Lra Ascii String.
From Flocq Require Import Core BinarySingleNaN.
From Verif Require Import Base.Outcome Base.ZList Model.IntModel Model.Index Model.Array1D Model.Array2D Model.Expr Model.Reduce Model.Scalars Model.ArrayIO Model.FloatIO Model.Layout.
From Verif Require Import Spec.ArraySpec Spec.MatrixSpec Spec.Shape2Spec Spec.IOSpec Spec.FloatSpec Spec.FloatIOSpec Spec.LayoutSpec Spec.Configs.
From Verif Require Import Proofs.LayoutText Proofs.LayoutProofs Proofs.LayoutFloat Proofs.LayoutMore.
Local Open Scope Z_scope.

Definition ltxt (s : string) : text := list_ascii_of_string s.
Notation log10_ok f lg := (log10_contract (fprec f) (femax f) lg).

(** ** The contract of the logarithm can be met, in every format *)
Theorem C75_contract : forall f, exists lg, log10_ok f lg /\ respects_tens (fprec f) (femax f) lg.
Proof. intros f. exists (rounded_log10 f). split; [apply rounded_contract|apply rounded_respects]. Qed.
Print Assumptions C75_contract.

(** ** Integers: columns of one width, wide enough for a blank and a sign, and not wider where values are below 10^13 *)
Theorem C75_integer_columns : forall lg, log10_ok F64 lg -> forall t name cols M,
  M <> [] -> 0 < cols -> rect cols M -> zlen (concat M) <= LONG_MAX -> Forall (in_type t) (concat M) -> signed t = false \/ ~ In (tmin t) (concat M) ->
  exists W s s', print_ints lg t false name cols M = Ok s' /\ titled name s s' /\ table W (map (map (show t)) M) s /\
    (forall x d, In x (concat M) -> has_digits (Z.abs x) d -> d + (if signed t then 2 else 1) <= W) /\
    (exists x d, In x (concat M) /\ has_digits (Z.abs x) d /\ W <= d + (if signed t then 2 else 1) + 1 /\ (Z.abs x < 10 ^ 13 -> W = d + (if signed t then 2 else 1))).
Proof. exact ints_table. Qed.
Print Assumptions C75_integer_columns.
Theorem C75_integer_labels : forall lg, log10_ok F64 lg -> forall t name cols M,
  M <> [] -> zlen M <= 10 ^ 13 -> 0 < cols -> rect cols M -> zlen (concat M) <= LONG_MAX -> Forall (in_type t) (concat M) -> signed t = false \/ ~ In (tmin t) (concat M) ->
  exists W C s s', print_ints lg t true name cols M = Ok s' /\ titled name s s' /\ labelled_table W C (map (map (show t)) M) s.
Proof. exact ints_labelled. Qed.
Print Assumptions C75_integer_labels.
(** Found: a matrix holding the smallest value of a signed type cannot be printed. *)
Theorem C75_integer_smallest : forall lg t detailed name cols M, zlen (concat M) <= LONG_MAX -> signed t = true -> Forall (in_type t) (concat M) -> In (tmin t) (concat M) ->
  print_ints lg t detailed name cols M = UB.
Proof. exact ints_smallest. Qed.
Print Assumptions C75_integer_smallest.

(** ** Booleans *)
Theorem C75_bool_columns : forall lg name cols M, 0 < cols -> rect cols M ->
  exists s s', print_bools lg false name cols M = Ok s' /\ titled name s s' /\ table 6 (map (map show_bool) M) s.
Proof. exact bools_table. Qed.
Print Assumptions C75_bool_columns.
Theorem C75_bool_labels : forall lg, log10_ok F64 lg -> forall name cols M, M <> [] -> zlen M <= 10 ^ 13 -> 0 < cols -> rect cols M ->
  exists C s s', print_bools lg true name cols M = Ok s' /\ titled name s s' /\ labelled_table 6 C (map (map show_bool) M) s.
Proof. exact bools_labelled. Qed.
Print Assumptions C75_bool_labels.

(** ** One dimension, detailed: the values of a column begin at one place *)
Theorem C75_labelled_column : forall lg, log10_ok F64 lg -> forall V (shown : V -> text) name l, l <> [] -> zlen l <= 10 ^ 13 ->
  exists P s s', print_one lg shown false true name l = Ok s' /\ titled name s s' /\ labelled_column P (map shown l) s.
Proof. exact @column_labelled. Qed.
Print Assumptions C75_labelled_column.

(** ** Floating-point numbers, fixed format: one width unless the largest is rounded up to a power of ten *)
Theorem C75_fixed_columns : forall prec emax {Hp : Prec_gt_0 prec} {He : Prec_lt_emax prec emax} lg, log10_contract prec emax lg -> emax + prec < 2 ^ 28 ->
  forall lgd, log10_ok F64 lgd -> forall p name cols M,
  M <> [] -> 0 < cols -> rect cols M -> zlen (concat M) <= LONG_MAX -> Forall (fun x => is_finite x = true) (concat M) -> Z.of_nat p < 2 ^ 30 ->
  (forall x, In x (concat M) -> (forall y, In y (concat M) -> Rabs (B2R y) <= Rabs (B2R x))%R -> no_carry prec emax p x) ->
  (forall x k, In x (concat M) -> 0 <= k -> (ten_to k <= Rabs (B2R x))%R -> generic_format radix2 (FLT_exp (3 - emax - prec) prec) (ten_to k)) \/ respects_tens prec emax lg ->
  exists W, (exists s s', print_floats lgd lg false p false name cols M = Ok s' /\ titled name s s' /\ table W (map (map (show_float prec emax false p)) M) s) /\
    (zlen M <= 10 ^ 13 -> exists C s s', print_floats lgd lg false p true name cols M = Ok s' /\ titled name s s' /\ labelled_table W C (map (map (show_float prec emax false p)) M) s).
Proof. exact fixed_table. Qed.
Print Assumptions C75_fixed_columns.
(** With enough digits nothing is rounded up: in particular with the default precisions. *)
Theorem C75_no_carry : forall prec emax {Hp : Prec_gt_0 prec} p, 2 ^ prec < 4 * 10 ^ Z.of_nat p -> forall x : binary_float prec emax, no_carry prec emax p x.
Proof. exact @no_carry_default. Qed.
Print Assumptions C75_no_carry.
Example C75_no_carry_case : 2 ^ fprec F32 < 4 * 10 ^ Z.of_nat float_precision /\ 2 ^ fprec F64 < 4 * 10 ^ Z.of_nat double_precision /\ 2 ^ fprec F80 < 4 * 10 ^ Z.of_nat long_double_precision.
Proof. repeat split. Qed.
(** Otherwise a column may be out of place: 9.96875 and 1 with one digit after the point. *)
Theorem C75_fixed_carry_refuted : exists p cols (M : list (list (flt F64))), M <> [] /\ 0 < cols /\ rect cols M /\ Forall (fun x => is_finite x = true) (concat M) /\
  forall lgd lg, log10_ok F64 lg -> exists s, print_floats lgd lg false p false [] cols M = Ok s /\ ~ exists W, table W (map (map (show_float (fprec F64) (femax F64) false p)) M) s.
Proof. exists 1%nat, 1, [[d9]; [d1]]. split; [discriminate|]. split; [lia|]. split; [repeat constructor|]. split; [repeat constructor|]. exact fixed_carry. Qed.
Print Assumptions C75_fixed_carry_refuted.
(** Found: printing a matrix with an infinity in it is undefined in the fixed format. *)
Theorem C75_fixed_infinity : forall prec emax lg, log10_contract prec emax lg -> forall lgd p name cols M s,
  0 < cols -> rect cols M -> zlen (concat M) <= LONG_MAX -> In (B754_infinity s) (concat M) -> print_floats lgd lg false p false name cols M = UB.
Proof. exact fixed_infinity. Qed.
Print Assumptions C75_fixed_infinity.
(** Also undefined, in the fixed format: precisions so near the end of int that the width is not an int. *)
Theorem C75_fixed_overflow : forall prec emax {Hp : Prec_gt_0 prec} {He : Prec_lt_emax prec emax} lg, log10_contract prec emax lg -> forall lgd p name cols M,
  emax + prec < 2 ^ 28 -> 0 < cols -> rect cols M -> zlen (concat M) <= LONG_MAX -> Forall (fun x => is_finite x = true) (concat M) ->
  (exists x, In x (concat M) /\ 1 <= Rabs (B2R x))%R -> 2 ^ 31 - 3 <= Z.of_nat p <= 2 ^ 31 - 1 -> print_floats lgd lg false p false name cols M = UB.
Proof. exact fixed_overflow. Qed.
Print Assumptions C75_fixed_overflow.
Example C75_overflow_case : (exists x, In x (concat [[d1]; [d400]]) /\ 1 <= Rabs (B2R x))%R /\ rect 1 [[d1]; [d400]] /\ Forall (fun x => is_finite x = true) (concat [[d1]; [d400]]) /\
  2 ^ 31 - 3 <= Z.of_nat (Z.to_nat (2 ^ 31 - 1)) <= 2 ^ 31 - 1.
Proof.
  split; [|split; [repeat constructor|split; [repeat constructor|rewrite Z2Nat.id; lia]]].
  exists d1. split; [now left|]. replace (B2R d1) with 1%R; [rewrite Rabs_pos_eq; lra|].
  unfold d1, B2R, Defs.F2R. cbn [Defs.Fnum Defs.Fexp cond_Zopp]. change (Raux.bpow Zaux.radix2 (-52)) with (/ IZR 4503599627370496)%R. field.
Qed.

(** ** Scientific format *)
Theorem C75_scientific_columns : forall prec emax lg lgd, log10_ok F64 lgd -> forall p name cols M,
  M <> [] -> 0 < cols -> rect cols M -> zlen (concat M) <= LONG_MAX -> Forall (fun x => is_finite x = true) (concat M) -> Forall (two_digit_exponent prec emax) (concat M) ->
  (exists s s', print_floats lgd lg true p false name cols M = Ok s' /\ titled name s s' /\ table (7 + Z.of_nat p) (map (map (show_float prec emax true p)) M) s) /\
  (zlen M <= 10 ^ 13 -> exists C s s', print_floats lgd lg true p true name cols M = Ok s' /\ titled name s s' /\ labelled_table (7 + Z.of_nat p) C (map (map (show_float prec emax true p)) M) s).
Proof. exact @sci_table. Qed.
Print Assumptions C75_scientific_columns.
Theorem C75_single_exponents : forall prec emax {Hp : Prec_gt_0 prec} (x : binary_float prec emax), emax + prec <= 297 -> is_finite x = true -> two_digit_exponent prec emax x.
Proof. exact @two_digits_single. Qed.
Print Assumptions C75_single_exponents.
Example C75_single_exponents_case : femax F32 + fprec F32 <= 297. Proof. cbn. lia. Qed.
(** In double precision exponents of two and of three digits put columns out of place. *)
Theorem C75_scientific_mixed_refuted : exists p cols (M : list (list (flt F64))), M <> [] /\ 0 < cols /\ rect cols M /\ Forall (fun x => is_finite x = true) (concat M) /\
  forall lgd lg, exists s, print_floats lgd lg true p false [] cols M = Ok s /\ ~ exists W, table W (map (map (show_float (fprec F64) (femax F64) true p)) M) s.
Proof. exists 1%nat, 1, [[d400]; [d1]]. split; [discriminate|]. split; [lia|]. split; [repeat constructor|]. split; [repeat constructor|]. exact sci_mixed. Qed.
Print Assumptions C75_scientific_mixed_refuted.

(** ** Reading back *)
Theorem C75_integer_round_trip : forall lg, log10_ok F64 lg -> forall c t M n A, cfg_ok c -> 4 <= amax c -> M <> [] -> rect n M -> 0 < n -> 2 * zlen M * n <= amax c ->
  Forall (Forall (in_type t)) M -> signed t = false \/ ~ In (tmin t) (concat M) ->
  exists s, print_ints lg t false [] n M = Ok s /\ exists A', read2_text c t s A = MOk A' /\ holds A' (zlen M) n (mget M).
Proof. exact ints_read2. Qed.
Print Assumptions C75_integer_round_trip.
Theorem C75_fixed_round_trip : forall lgd prec emax {Hp : Prec_gt_0 prec} {He : Prec_lt_emax prec emax} lg, log10_contract prec emax lg -> emax + prec < 2 ^ 28 -> forall zero c p M n A,
  cfg_ok c -> 4 <= amax c -> M <> [] -> rect n M -> 0 < n -> 2 * zlen M * n <= amax c -> Z.of_nat p < 2 ^ 30 ->
  Forall (Forall (fun x => is_finite x = true)) M -> Forall (Forall (enough_digits prec emax false p)) M ->
  exists s, print_floats lgd lg false p false [] n M = Ok s /\ exists A', read2_ftext prec emax zero c s A = MOk A' /\ holds A' (zlen M) n (mget M).
Proof. exact fixed_read2. Qed.
Print Assumptions C75_fixed_round_trip.
Theorem C75_scientific_round_trip : forall lgd prec emax {Hp : Prec_gt_0 prec} {He : Prec_lt_emax prec emax} lg zero c p M n A,
  cfg_ok c -> 4 <= amax c -> M <> [] -> rect n M -> 0 < n -> 2 * zlen M * n <= amax c -> 2 ^ prec < 10 ^ Z.of_nat p -> Forall (Forall (fun x => is_finite x = true)) M ->
  exists s, print_floats lgd lg true p false [] n M = Ok s /\ exists A', read2_ftext prec emax zero c s A = MOk A' /\ holds A' (zlen M) n (mget M).
Proof. exact @sci_read2. Qed.
Print Assumptions C75_scientific_round_trip.
Theorem C75_array_round_trip : forall lg c t l A, 8 <= amax c < two62 -> 2 * zlen l <= amax c -> Forall (in_type t) l -> forall row,
  exists s, print_one lg (show t) row false [] l = Ok s /\ exists A', read1_text c t s A = MOk A' /\ rep A' l.
Proof. exact ints_read1. Qed.
Print Assumptions C75_array_round_trip.
Theorem C75_float_array_round_trip : forall lg prec emax {Hp : Prec_gt_0 prec} {He : Prec_lt_emax prec emax} zero c sci p (l : list (binary_float prec emax)) A,
  8 <= amax c < two62 -> 2 * zlen l <= amax c -> Forall (fun x => is_finite x = true) l -> Forall (enough_digits prec emax sci p) l -> forall row,
  exists s, print_one lg (show_float prec emax sci p) row false [] l = Ok s /\ exists A', read1_ftext prec emax zero c s A = MOk A' /\ rep A' l.
Proof. exact @floats_read1. Qed.
Print Assumptions C75_float_array_round_trip.
(** A detailed listing is not read back: the attempt is reported and the target keeps its value. *)
Theorem C75_detailed_unreadable : forall lg c t row l s A, 8 <= amax c < two62 -> loud c = true -> print_one lg (show t) row true [] l = Ok s -> read1_text c t s A = MFail (report c) A.
Proof. exact detailed_unreadable. Qed.
Print Assumptions C75_detailed_unreadable.
Theorem C75_detailed_unreadable_float : forall lg prec emax {Hp : Prec_gt_0 prec} {He : Prec_lt_emax prec emax} zero c sci p row (l : list (binary_float prec emax)) s A,
  8 <= amax c < two62 -> loud c = true -> print_one lg (show_float prec emax sci p) row true [] l = Ok s -> read1_ftext prec emax zero c s A = MFail (report c) A.
Proof. exact @detailed_unreadable_float. Qed.
Print Assumptions C75_detailed_unreadable_float.
(** Nothing to show. *)
Theorem C75_empty : forall lg V (shown : V -> text) name, exists h, titled name [] h /\
  print_one lg shown false false name [] = Ok h /\ print_one lg shown false true name [] = Ok (h ++ ltxt "[]" ++ [nl]) /\
  forall w cols, print_two lg shown w false name cols [] = Ok h /\ print_two lg shown w true name cols [] = Ok (h ++ ltxt "[]" ++ [nl]).
Proof.
  intros lg V shown name. exists (heading name). split; [pose proof (titled_heading name []) as T; now rewrite app_nil_r in T|].
  unfold print_one, print_two. cbn [written bind]. cbn [brackets andb app]. repeat split; now rewrite app_nil_r.
Qed.
Print Assumptions C75_empty.

(** What is printed for a small matrix and a detailed column, whatever the logarithm. *)
Lemma small_digits lg : log10_ok F64 lg -> forall n d, 0 <= n < 10 ^ 13 -> has_digits n d -> count_digit_int lg n = Ok d.
Proof. intros H n d B D. destruct (int_digits lg H n d) as (c & E & _ & _ & C); [split; [lia|]; change (10 ^ 13) with 10000000000000 in B; change (2 ^ 64) with 18446744073709551616; lia|exact D|]. rewrite E, C by lia. reflexivity. Qed.
Example C75_case : forall lg, log10_ok F64 lg ->
  print_ints lg I32 false (ltxt "A") 2 [[5; -12]; [0; 123]] = Ok (ltxt "A:" ++ [nl] ++ ltxt "   +5    -12" ++ [nl] ++ ltxt "   +0   +123" ++ [nl]) /\
  print_ints lg U32 true [] 1 [[5]; [12]] = Ok (ltxt "[0, 0] =   5" ++ [nl] ++ ltxt "[1, 0] =  12" ++ [nl]) /\
  print_one lg (show I32) false true [] [7; -7] = Ok (ltxt "[0] = +7" ++ [nl] ++ ltxt "[1] = -7" ++ [nl]) /\
  print_bools lg false [] 2 [[true; false]] = Ok (ltxt "  true   false" ++ [nl]).
Proof.
  intros lg H. pose proof (small_digits lg H) as S.
  assert (C : count_digit_int lg 123 = Ok 3 /\ count_digit_int lg 12 = Ok 2 /\ count_digit_int lg 0 = Ok 1 /\ count_digit_int lg 1 = Ok 1 /\ count_digit_int lg 2 = Ok 1).
  { repeat split; apply S; unfold has_digits; cbn; lia. }
  destruct C as (C1 & C2 & C3 & C4 & C5). repeat split.
  - unfold print_ints. change (r_max _ _ 0) with (Ok 123). cbn [bind]. unfold print_two, integer_spacing. rewrite C1. vm_compute. reflexivity.
  - unfold print_ints. change (r_max _ _ 0) with (Ok 12). cbn [bind]. unfold print_two, integer_spacing. rewrite C2. change (zlen [[5]; [12]]) with 2. cbn [written]. unfold smart_spaces. cbn [Z.add]. rewrite C5, C3, C4. vm_compute. reflexivity.
  - unfold print_one. change (zlen [7; -7]) with 2. cbn [written]. unfold smart_spaces. cbn [Z.add]. rewrite C5, C3, C4. vm_compute. reflexivity.
Qed.
(** The same two numbers with the default precision, and a matrix for each finding. *)
Example C75_fixed_case : forall lgd lg, log10_ok F64 lgd -> log10_ok F64 lg -> respects_tens (fprec F64) (femax F64) lg -> exists W s,
  print_floats lgd lg false double_precision false [] 1 [[d9]; [d1]] = Ok s /\ table W (map (map (show_float (fprec F64) (femax F64) false double_precision)) [[d9]; [d1]]) s.
Proof.
  intros lgd lg H H' HR. destruct (C75_fixed_columns (fprec F64) (femax F64) lg H' eq_refl lgd H double_precision [] 1 [[d9]; [d1]]) as (W & (s & s' & E & T & Q) & _).
  - discriminate.
  - lia.
  - repeat constructor.
  - unfold LONG_MAX. cbn. lia.
  - repeat constructor.
  - reflexivity.
  - intros x _ _. apply C75_no_carry; [typeclasses eauto|reflexivity].
  - now right.
  - unfold titled in T. subst s'. eauto.
Qed.
Example C75_findings_case : forall lgd lg, log10_ok F64 lg ->
  print_floats lgd lg false 2 false [] 1 [[d1]; [B754_infinity true]] = UB /\ print_ints lgd I32 true [] 2 [[1; -2147483648]] = UB.
Proof.
  intros lgd lg H. split.
  - apply (C75_fixed_infinity (fprec F64) (femax F64) lg H lgd 2 [] 1 _ true); [lia|repeat constructor|unfold LONG_MAX; cbn; lia|right; now left].
  - apply C75_integer_smallest; [unfold LONG_MAX; cbn; lia|reflexivity|repeat constructor; cbn; lia|right; now left].
Qed.
