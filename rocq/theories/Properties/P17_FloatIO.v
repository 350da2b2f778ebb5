(** Property C63: reading and printing floating-point numbers and booleans. *)
From Coq Require Import ZArith Reals Lra Ascii String.
From Flocq Require Import Core BinarySingleNaN.
From Verif Require Import Base.Outcome Base.ZList Model.IntModel Model.Index Model.Array1D Model.Array2D Model.ArrayIO Model.FloatIO.
From Verif Require Import Spec.ArraySpec Spec.MatrixSpec Spec.Shape2Spec Spec.IOSpec Spec.FloatSpec Spec.FloatIOSpec Spec.Configs.
From Verif Require Import Proofs.IOProofs Proofs.IOText Proofs.FloatIOProofs Proofs.FloatIOText.
Local Open Scope Z_scope.

Definition ftxt (s : string) : text := list_ascii_of_string s.
(** -12.5e-3: value -125 * 10^-4. *)
Lemma sample_decimal : decimal_text (ftxt "-12.5e-3") true 125 (-4).
Proof.
  exists (ftxt "-"), (ftxt "12.5"), (ftxt "e-3"), 1, (-3). split; [reflexivity|]. split; [right; right; split; reflexivity|]. split; [|split; [|reflexivity]].
  - apply (man_frac [1; 2] [5]); [discriminate|]. repeat constructor; lia.
  - constructor; [now left|]. right; right. exists (ftxt "3"). split; [reflexivity|]. exists [3]. split; [discriminate|]. split; [repeat constructor; lia|]. split; reflexivity.
Qed.
(** 1e400 *)
Lemma sample_large : decimal_text (ftxt "1e400") false 1 400.
Proof.
  exists [], (ftxt "1"), (ftxt "e400"), 0, 400. split; [reflexivity|]. split; [left; split; reflexivity|]. split; [|split; [|reflexivity]].
  - apply (man_int [1]); [discriminate|]. repeat constructor; lia.
  - constructor; [now left|]. left. exists [4; 0; 0]. split; [discriminate|]. split; [repeat constructor; lia|]. split; reflexivity.
Qed.
Lemma large_double : too_large 53 1024 (IZR 1 * ten_to 400).
Proof.
  unfold too_large, near. rewrite ten_to_bpow, Rmult_1_l. apply round_ge_generic; auto with typeclass_instances.
  - apply generic_format_bpow. vm_compute. discriminate.
  - rewrite <- (IZR_Zpower radix2), <- (IZR_Zpower radix10) by lia. apply IZR_le. vm_compute. discriminate.
Qed.
Lemma small_double D E : 0 <= D < 2 ^ 1000 -> E <= 0 -> ~ too_large 53 1024 (IZR D * ten_to E).
Proof.
  intros HD HE H. unfold too_large, near in H. apply (Rle_not_lt _ _ H). apply Rle_lt_trans with (bpow radix2 1000); [|apply bpow_lt; lia].
  apply round_le_generic; auto with typeclass_instances.
  - apply generic_format_bpow. vm_compute. discriminate.
  - rewrite ten_to_bpow, <- (Rmult_1_r (bpow radix2 1000)). apply Rmult_le_compat; [apply IZR_le; lia|apply bpow_ge_0| |].
    + rewrite <- (IZR_Zpower radix2) by lia. apply IZR_le. change (Zpower radix2 1000) with (2 ^ 1000). lia.
    + change 1%R with (bpow radix10 0). now apply bpow_le.
Qed.

(** ** C63 *)
(** Text of a decimal number within range is read to the nearest number of the format, with its sign; out of range is reported. *)
Theorem C63_read_nearest : forall prec emax {Hp : Prec_gt_0 prec} {He : Prec_lt_emax prec emax} c s neg D E u,
  decimal_text s neg D E -> ~ too_large prec emax (IZR D * ten_to E) -> (match u with [] => True | a :: _ => In a spaces end) ->
  exists x, read_float prec emax c (s ++ u) = Ok x /\ nearest_to prec emax x neg (IZR D * ten_to E).
Proof. exact @read_float_ok. Qed.
Print Assumptions C63_read_nearest.
Example C63_read_nearest_case : decimal_text (ftxt "-12.5e-3") true 125 (-4) /\ ~ too_large 53 1024 (IZR 125 * ten_to (-4)) /\
  match read_float 53 1024 c_dbg (ftxt "-12.5e-3 7") with Ok x => B2SF x | _ => SpecFloat.S754_nan end = SpecFloat.S754_finite true 7205759403792794 (-59).
Proof. split; [exact sample_decimal|]. split; [apply small_double; [split; [lia|reflexivity]|lia]|vm_compute; reflexivity]. Qed.
Theorem C63_read_out_of_range : forall prec emax {Hp : Prec_gt_0 prec} {He : Prec_lt_emax prec emax} c s neg D E u, loud c = true ->
  decimal_text s neg D E -> too_large prec emax (IZR D * ten_to E) -> (match u with [] => True | a :: _ => In a spaces end) ->
  read_float prec emax c (s ++ u) = Fail (report c).
Proof. exact @read_float_large. Qed.
Print Assumptions C63_read_out_of_range.
Example C63_read_out_of_range_case : decimal_text (ftxt "1e400") false 1 400 /\ too_large 53 1024 (IZR 1 * ten_to 400) /\
  read_float 53 1024 c_dbg (ftxt "1e400 7") = Fail Throw.
Proof. split; [exact sample_large|]. split; [exact large_double|vm_compute; reflexivity]. Qed.

(** Arrays: every number nearest to its text, in order; a number out of range or a foreign character is reported and the array
    is unchanged. *)
Theorem C63_array_read : forall prec emax {Hp : Prec_gt_0 prec} {He : Prec_lt_emax prec emax} zero c s xs A,
  8 <= amax c < two62 -> 2 * zlen xs <= amax c -> fwords prec emax s xs -> exists A', read1_ftext prec emax zero c s A = MOk A' /\ rep A' xs.
Proof. exact @read1_ftext_ok. Qed.
Print Assumptions C63_array_read.
Theorem C63_array_out_of_range : forall prec emax {Hp : Prec_gt_0 prec} {He : Prec_lt_emax prec emax} zero c s xs b w neg D E a r A,
  8 <= amax c < two62 -> 2 * zlen xs <= amax c -> loud c = true -> fwords prec emax s xs -> In b spaces ->
  decimal_text w neg D E -> too_large prec emax (IZR D * ten_to E) -> In a spaces ->
  read1_ftext prec emax zero c (s ++ b :: w ++ a :: r) A = MFail (report c) A.
Proof. exact @read1_ftext_large. Qed.
Print Assumptions C63_array_out_of_range.
(** ... but not at the very end of the text: the number is dropped. *)
Theorem C63_array_out_of_range_last_refuted : forall prec emax {Hp : Prec_gt_0 prec} {He : Prec_lt_emax prec emax} zero c s xs b w neg D E A,
  8 <= amax c < two62 -> 2 * zlen xs <= amax c -> fwords prec emax s xs -> In b spaces ->
  decimal_text w neg D E -> too_large prec emax (IZR D * ten_to E) ->
  exists A', read1_ftext prec emax zero c (s ++ b :: w) A = MOk A' /\ rep A' xs.
Proof. exact @read1_ftext_last. Qed.
Print Assumptions C63_array_out_of_range_last_refuted.
Theorem C63_array_foreign : forall prec emax {Hp : Prec_gt_0 prec} {He : Prec_lt_emax prec emax} zero c s xs b a r A,
  8 <= amax c < two62 -> 2 * zlen xs <= amax c -> loud c = true -> fwords prec emax s xs -> In b spaces -> fforeign a ->
  read1_ftext prec emax zero c (s ++ b :: a :: r) A = MFail (report c) A.
Proof. exact @read1_ftext_foreign. Qed.
Print Assumptions C63_array_foreign.
Lemma sample_words : exists x : double, fwords 53 1024 (ftxt " -12.5e-3") [x].
Proof.
  destruct (read_float_ok 53 1024 c_dbg (ftxt "-12.5e-3") true 125 (-4) [] sample_decimal) as (x & _ & Hx); [apply small_double; [split; [lia|reflexivity]|lia]|exact I|].
  exists x. apply (fwords_cons 53 1024 (ftxt " ") (ftxt "-12.5e-3") true 125 (-4) x [] []); auto.
  - repeat constructor.
  - exact sample_decimal.
  - constructor. constructor.
Qed.
Example C63_array_case : (exists x : double, fwords 53 1024 (ftxt " -12.5e-3") [x]) /\ In (" "%char) spaces /\ fforeign "x" /\
  8 <= amax c_dbg < two62 /\ loud c_dbg = true.
Proof. split; [exact sample_words|]. split; [now left|]. split; [intros H; cbn in H; intuition discriminate|]. unfold two62. cbn. repeat split; lia. Qed.

(** Printed digits: |x| rounded to p + 1 significant digits in scientific format, to p digits after the point in fixed format. *)
Theorem C63_scientific_digits : forall prec emax p (x : binary_float prec emax), is_finite x = true ->
  exists D E, decimal_text (show_float prec emax true p x) (Bsign x) D E /\ rounded_at prec emax x D E /\
    (B2R x <> 0%R -> 10 ^ Z.of_nat p <= D < 10 ^ (Z.of_nat p + 1) /\ exists k, (ten_to k <= Rabs (B2R x) < ten_to (k + 1))%R /\
      (Rabs (IZR D * ten_to E - Rabs (B2R x)) <= / 2 * ten_to (k - Z.of_nat p))%R /\ k - Z.of_nat p <= E).
Proof. exact @show_sci_digits. Qed.
Print Assumptions C63_scientific_digits.
Theorem C63_fixed_digits : forall prec emax p (x : binary_float prec emax), is_finite x = true ->
  exists D, decimal_text (show_float prec emax false p x) (Bsign x) D (- Z.of_nat p) /\ rounded_at prec emax x D (- Z.of_nat p).
Proof. exact @show_fix_digits. Qed.
Print Assumptions C63_fixed_digits.
Example C63_digits_case : show_float 53 1024 true 3 (dbl 3 (-3)) = ftxt "+3.750e-01" /\ show_float 53 1024 false 2 (dbl (-3) (-3)) = ftxt "-0.38".
Proof. split; vm_compute; reflexivity. Qed.

(** Reading what was printed gives the same numbers when the digits suffice. *)
Theorem C63_number_round_trip : forall prec emax {Hp : Prec_gt_0 prec} {He : Prec_lt_emax prec emax} c sci p (x : binary_float prec emax),
  is_finite x = true -> enough_digits prec emax sci p x -> read_float prec emax c (show_float prec emax sci p x) = Ok x.
Proof. exact @print_read_float. Qed.
Print Assumptions C63_number_round_trip.
Theorem C63_array_round_trip : forall prec emax {Hp : Prec_gt_0 prec} {He : Prec_lt_emax prec emax} zero c sci p l A,
  8 <= amax c < two62 -> 2 * zlen l <= amax c -> Forall (fun x => is_finite x = true) l -> Forall (enough_digits prec emax sci p) l ->
  (exists A', read1_ftext prec emax zero c (fprint1_col prec emax sci p l) A = MOk A' /\ rep A' l) /\
  (exists A', read1_ftext prec emax zero c (fprint1_row prec emax sci p l) A = MOk A' /\ rep A' l).
Proof. exact @print_read1_float. Qed.
Print Assumptions C63_array_round_trip.
Theorem C63_matrix_round_trip_scientific : forall prec emax {Hp : Prec_gt_0 prec} {He : Prec_lt_emax prec emax} zero c p w M n A,
  cfg_ok c -> 4 <= amax c -> M <> [] -> rect n M -> 0 < n -> 2 * zlen M * n <= amax c ->
  2 ^ prec < 10 ^ Z.of_nat p -> Forall (Forall (fun x => is_finite x = true)) M ->
  exists s, fprint2 prec emax true p w M = Ok s /\ exists A', read2_ftext prec emax zero c s A = MOk A' /\ holds A' (zlen M) n (mget M).
Proof. exact @print_read2_sci. Qed.
Print Assumptions C63_matrix_round_trip_scientific.
Theorem C63_matrix_round_trip_fixed : forall prec emax {Hp : Prec_gt_0 prec} {He : Prec_lt_emax prec emax} zero c p w M n A,
  cfg_ok c -> 4 <= amax c -> M <> [] -> rect n M -> 0 < n -> 2 * zlen M * n <= amax c -> zlen (concat M) <= LONG_MAX ->
  Forall (Forall (fun x => is_finite x = true)) M -> Forall (Forall (enough_digits prec emax false p)) M ->
  exists s, fprint2 prec emax false p w M = Ok s /\ exists A', read2_ftext prec emax zero c s A = MOk A' /\ holds A' (zlen M) n (mget M).
Proof. exact @print_read2_fixed. Qed.
Print Assumptions C63_matrix_round_trip_fixed.
(** Doubles with the default format: all finite numbers. *)
Theorem C63_double_default : forall c (x : double), is_finite x = true -> read_float 53 1024 c (show_float 53 1024 true double_precision x) = Ok x.
Proof. intros c x H. apply print_read_float; auto with typeclass_instances. reflexivity. Qed.
Print Assumptions C63_double_default.
Lemma fixed_sample : enough_digits 53 1024 false 2 (dbl (-5) (-2)).
Proof.
  exists (-125). rewrite <- (SF2R_B2SF 53 1024). replace (B2SF (dbl (-5) (-2))) with (SpecFloat.S754_finite true 5629499534213120 (-52)) by (vm_compute; reflexivity).
  unfold SF2R, F2R, ten_to. change (bpow radix2 (Fexp _)) with (/ IZR 4503599627370496)%R. cbn [Fnum cond_Zopp Z.opp]. change (powerRZ 10 (- Z.of_nat 2)) with (/ (10 * (10 * 1)))%R. cbn. lra.
Qed.
Example C63_round_trip_case : enough_digits 53 1024 true double_precision (dbl 1 (-1074)) /\ enough_digits 53 1024 false 2 (dbl (-5) (-2)) /\
  show_float 53 1024 false 2 (dbl (-5) (-2)) = ftxt "-1.25" /\
  fprint2 53 1024 false 2 6 [[dbl 1 0; dbl (-5) (-2)]] = Ok (ftxt " +1.00   -1.25" ++ ["010"%char]) /\
  show_float 53 1024 true double_precision (dbl 1 (-1074)) = ftxt "+4.9406564584124654e-324".
Proof. split; [reflexivity|]. split; [exact fixed_sample|]. repeat split; vm_compute; reflexivity. Qed.

(** Numbers with few decimal digits: p + 1 significant digits in scientific format.  With the default precisions these are the
    integers up to 2^24 for float and up to 2^64 for long double. *)
Theorem C63_short_round_trip : forall prec emax {Hp : Prec_gt_0 prec} {He : Prec_lt_emax prec emax} c p (x : binary_float prec emax) D E,
  is_finite x = true -> Rabs (B2R x) = (IZR D * ten_to E)%R -> 0 <= D < 10 ^ (Z.of_nat p + 1) -> read_float prec emax c (show_float prec emax true p x) = Ok x.
Proof. exact @print_read_short. Qed.
Print Assumptions C63_short_round_trip.
Theorem C63_float_integers : forall c (x : binary_float 24 128) n, is_finite x = true -> B2R x = IZR n -> Z.abs n <= 2 ^ 24 ->
  read_float 24 128 c (show_float 24 128 true float_precision x) = Ok x.
Proof. intros c x n Hx Hn Hb. apply print_read_short with (Z.abs n) 0; try reflexivity; auto; [rewrite Hn, abs_IZR; unfold ten_to; cbn; lra|]. unfold float_precision. cbn in *. lia. Qed.
Print Assumptions C63_float_integers.
Theorem C63_long_double_integers : forall c (x : binary_float 64 16384) n, is_finite x = true -> B2R x = IZR n -> Z.abs n <= 2 ^ 64 ->
  read_float 64 16384 c (show_float 64 16384 true long_double_precision x) = Ok x.
Proof. intros c x n Hx Hn Hb. apply print_read_short with (Z.abs n) 0; try reflexivity; auto; [rewrite Hn, abs_IZR; unfold ten_to; cbn; lra|]. unfold long_double_precision. cbn in *. lia. Qed.
Print Assumptions C63_long_double_integers.
Lemma ld_int : B2R (binary_normalize 64 16384 eq_refl eq_refl mode_NE 18446744073709551615 0 false) = IZR 18446744073709551615.
Proof.
  rewrite <- (SF2R_B2SF 64 16384). replace (B2SF (binary_normalize 64 16384 eq_refl eq_refl mode_NE 18446744073709551615 0 false)) with (SpecFloat.S754_finite false 18446744073709551615 0) by (vm_compute; reflexivity).
  unfold SF2R, F2R. cbn [Fnum Fexp cond_Zopp]. change (bpow radix2 0) with 1%R. lra.
Qed.
Example C63_integers_case : let x := binary_normalize 64 16384 eq_refl eq_refl mode_NE 18446744073709551615 0 false in
  is_finite x = true /\ B2R x = IZR 18446744073709551615 /\ show_float 64 16384 true long_double_precision x = ftxt "+1.8446744073709551615e+19" /\
  Z.abs 18446744073709551615 <= 2 ^ 64.
Proof. cbn zeta. split; [vm_compute; reflexivity|]. split; [exact ld_int|]. split; [vm_compute; reflexivity|lia]. Qed.

(** Not in general: the default formats of float and long double print one digit too few, and fixed format loses small numbers. *)
Definition read_differs (prec emax : Z) {Hp : Prec_gt_0 prec} {He : Prec_lt_emax prec emax} (sci : bool) (p : nat) (x : binary_float prec emax) : Prop :=
  is_finite x = true /\ forall c, exists y, read_float prec emax c (show_float prec emax sci p x) = Ok y /\ Beqb x y = false.
Lemma differs_by prec emax {Hp : Prec_gt_0 prec} {He : Prec_lt_emax prec emax} sci p (x : binary_float prec emax) :
  is_finite x = true -> match fst (fextract prec emax FSkip (show_float prec emax sci p x)) with v :: _ => Beqb x v | [] => true end = false -> read_differs prec emax sci p x.
Proof. intros F H. split; [exact F|]. intros c. unfold read_float. destruct (fst _) as [|v l]; [discriminate|]. eauto. Qed.
#[local] Instance prec24 : Prec_gt_0 24 := eq_refl.
#[local] Instance emax128 : Prec_lt_emax 24 128 := eq_refl.
#[local] Instance prec64 : Prec_gt_0 64 := eq_refl.
#[local] Instance emax16384 : Prec_lt_emax 64 16384 := eq_refl.
Theorem C63_float_default_refuted : exists x, read_differs 24 128 true float_precision x.
Proof. exists (binary_normalize 24 128 prec24 emax128 mode_NE 16384001 (-14) false). apply differs_by; vm_compute; reflexivity. Qed.
Print Assumptions C63_float_default_refuted.
Theorem C63_long_double_default_refuted : exists x, read_differs 64 16384 true long_double_precision x.
Proof. exists (binary_normalize 64 16384 prec64 emax16384 mode_NE 18014398509481984001 (-54) false). apply differs_by; vm_compute; reflexivity. Qed.
Print Assumptions C63_long_double_default_refuted.
Theorem C63_fixed_refuted : exists x, read_differs 53 1024 false double_precision x.
Proof. exists (dbl 1 (-60)). apply differs_by; vm_compute; reflexivity. Qed.
Print Assumptions C63_fixed_refuted.

(** Infinities and NaN are printed but reading them back is reported; a matrix with an infinity cannot be printed in fixed format. *)
Theorem C63_special_not_read : forall prec emax c sci p (x : binary_float prec emax),
  loud c = true -> is_finite x = false -> read_float prec emax c (show_float prec emax sci p x) = Fail (report c).
Proof. exact @special_read. Qed.
Print Assumptions C63_special_not_read.
Theorem C63_special_array_not_read : forall prec emax {Hp : Prec_gt_0 prec} {He : Prec_lt_emax prec emax} zero c sci p l A,
  8 <= amax c < two62 -> 2 * zlen l <= amax c -> loud c = true -> Forall (enough_digits prec emax sci p) l ->
  existsb (fun x => negb (is_finite x)) l = true -> read1_ftext prec emax zero c (fprint1_col prec emax sci p l) A = MFail (report c) A.
Proof. exact @special_read1. Qed.
Print Assumptions C63_special_array_not_read.
Theorem C63_fixed_infinity_undefined : forall prec emax p w (M : list (list (binary_float prec emax))) x,
  zlen (concat M) <= LONG_MAX -> In x (concat M) -> (exists s, x = B754_infinity s) -> fprint2 prec emax false p w M = UB.
Proof. exact @fprint2_fixed_inf. Qed.
Print Assumptions C63_fixed_infinity_undefined.
Example C63_special_case : show_float 53 1024 true 3 (dinf true) = ftxt "-inf" /\ show_float 53 1024 false 3 dnan = ftxt "+nan" /\ is_finite dnan = false /\
  existsb (fun x => negb (is_finite x)) [dbl 1 0; dinf false] = true /\ In (dinf false) (concat [[dbl 1 0; dinf false]]).
Proof. do 4 (split; [vm_compute; reflexivity|]). right. left. reflexivity. Qed.

(** Booleans are printed as words but read as the digits 0 and 1. *)
Theorem C63_bool_not_read : forall c l A, 8 <= amax c < two62 -> loud c = true -> l <> [] -> read1_btext c (bprint1_col l) A = MFail (report c) A.
Proof. exact bools_not_read. Qed.
Print Assumptions C63_bool_not_read.
Theorem C63_bool_read : forall c s zs A, 8 <= amax c < two62 -> 2 * zlen zs <= amax c -> words I32 s zs -> Forall (fun z => z = 0 \/ z = 1) zs ->
  exists A', read1_btext c s A = MOk A' /\ rep A' (map (Z.eqb 1) zs).
Proof. exact bools_read. Qed.
Print Assumptions C63_bool_read.
Example C63_bool_case : bprint1_col [true; false] = ftxt "true" ++ ["010"%char] ++ ftxt "false" ++ ["010"%char] /\
  words I32 (ftxt "1 0") [1; 0] /\ Forall (fun z => z = 0 \/ z = 1) [1; 0].
Proof.
  split; [reflexivity|]. split; [|constructor; [right; reflexivity|constructor; [left; reflexivity|constructor]]].
  apply (words_cons I32 [] (ftxt "1") 1 (ftxt " 0") [0]); [constructor| | | |now left].
  - left. exists [1]. split; [discriminate|]. split; [repeat constructor; lia|]. split; reflexivity.
  - vm_compute. split; discriminate.
  - apply (words_cons I32 (ftxt " ") (ftxt "0") 0 [] []); [repeat constructor| | | |exact I].
    + left. exists [0]. split; [discriminate|]. split; [repeat constructor; lia|]. split; reflexivity.
    + vm_compute. split; discriminate.
    + constructor. constructor.
Qed.
