(** Property C79: reading and printing numbers of quadruple precision. *)
From Coq Require Import ZArith Reals Lra Ascii String.
From Flocq Require Import Core BinarySingleNaN.
From Verif Require Import Base.Outcome Base.ZList Model.IntModel Model.Index Model.Array1D Model.Array2D Model.Expr Model.Scalars Model.ArrayIO Model.FloatIO Model.Layout Model.Console Model.QuadIO.
From Verif Require Import Spec.ArraySpec Spec.MatrixSpec Spec.Shape2Spec Spec.ExprSpec Spec.IOSpec Spec.ReadSpec Spec.FloatSpec Spec.FloatIOSpec Spec.LayoutSpec Spec.ConsoleSpec Spec.QuadSpec Spec.Configs.
From Verif Require Import Proofs.ExprProofs Proofs.LayoutProofs Proofs.LayoutMore Proofs.ConsoleProofs Proofs.ConsoleThms Proofs.ConsoleFiles Proofs.QuadProofs Proofs.QuadTokens Proofs.QuadPrint.
Local Open Scope Z_scope.
Definition qtxt (s : string) : text := list_ascii_of_string s.
(** m * 2^e. *)
Definition qz (m e : Z) : quad := binary_normalize qp qe eq_refl eq_refl mode_NE m e false.
Notation digits_of fm := (Z.to_nat (f_prec fm F128)).
Notation survives fm x := (fits (f_sci fm) (digits_of fm) x /\ kept (f_sci fm) (digits_of fm) x).
Notation stops r := (match r with [] => True | a :: _ => In a spaces end).
Notation prints_quads fm := (0 <= f_prec fm F128 <= 2 ^ 31 - 8).

(** ** Reading one number *)
Theorem C79_read : forall c g s x r, gap g -> numeral_of s x -> stops r -> read_quad c (g ++ s ++ r) = Ok x.
Proof. exact quad_read. Qed.
Print Assumptions C79_read.
Theorem C79_one_number : forall s x y, numeral_of s x -> numeral_of s y -> x = y.
Proof. exact numeral_unique. Qed.
Print Assumptions C79_one_number.
Theorem C79_malformed : forall c g t r, loud c = true -> gap g -> malformed t -> stops r -> read_quad c (g ++ t ++ r) = Fail (report c).
Proof. exact quad_bad. Qed.
Print Assumptions C79_malformed.
Theorem C79_malformed_silent : forall c g t r, loud c = false -> gap g -> malformed t -> stops r -> exists x, read_quad c (g ++ t ++ r) = Ok x.
Proof. exact quad_silent. Qed.
Print Assumptions C79_malformed_silent.
(** Nothing left to read is read as +0, without a report. *)
Theorem C79_end_refuted : forall c g, gap g -> read_quad c g = Ok (B754_zero false).
Proof. exact quad_end. Qed.
Print Assumptions C79_end_refuted.
(** Characters after a null character are not looked at. *)
Theorem C79_null_refuted : exists t, ~ In sp t /\ forall c, read_quad c t = Ok (B754_zero false) /\ forall x, ~ numeral_of t x.
Proof.
  exists ("000" :: qtxt "1z")%char. split; [intros H; cbn in H; repeat (destruct H as [H|H]; [discriminate H|]); exact H|]. intros c. split; [reflexivity|].
  intros x H. destruct (numeral_chars _ _ H) as [_ HC]. inversion HC as [|a l Ha]. now apply Ha.
Qed.
Print Assumptions C79_null_refuted.
Example C79_read_case : exists x, numeral_of (qtxt "-0x1.8p1") x /\ B2R x = (-3)%R /\ numeral_of (qtxt "+iNf") (B754_infinity false) /\ malformed (qtxt "1.5x") /\
  read_quad c_dbg (qtxt " 1.5x 2") = Fail Throw /\ read_quad c_dbg (sp :: qtxt "nan(1) 2") = Ok B754_nan.
Proof.
  set (t := qtxt "-0x1.8p1"). assert (HT : hex_text t true 24 (-3)).
  { exists ["-"%char], "x"%char, (qtxt "1.8"), (qtxt "p1"), 1, 1. split; [reflexivity|]. split; [cbn; auto|]. split; [unfold sign; auto|].
    split; [apply (hman_frac ["1"%char] ["8"%char] [1] [8]); [discriminate|repeat constructor; cbn; tauto|repeat constructor; cbn; tauto]|].
    split; [apply hexp_some; [cbn; auto|]|reflexivity]. left. exists [1]. repeat split; try discriminate. constructor; [lia|constructor]. }
  set (x := qz (-3) 0). assert (EX : B2R x = (-3)%R).
  { unfold x. replace (qz (-3) 0) with (Bopp (qz 3 0)) by (apply B2SF_inj; vm_compute; reflexivity). rewrite B2R_Bopp. rewrite (literal_value _ (3 * 2 ^ 111) (-111) 3 111) by (vm_compute; congruence). cbn. lra. }
  assert (NX : numeral_of t x).
  { pose proof (hex_quad_rounds true 24 (-3) ltac:(lia)) as Hr. apply (nm_hex t true 24 (-3)); [exact HT|]. replace x with (hex_quad true 24 (-3)) by (apply B2SF_inj; vm_compute; reflexivity). exact Hr. }
  exists x. split; [exact NX|]. split; [exact EX|]. split.
  { apply (nm_special ["+"%char] (qtxt "iNf") false); [unfold sign; auto|]. apply sp_inf with ["i"; "n"; "f"]%char; [now left|]. repeat (constructor; [first [now left|right; cbn [In cases]; repeat (first [left; reflexivity|right])]|]). constructor. }
  split; [|split; [reflexivity|vm_compute; reflexivity]].
  assert (R : read_quad c_dbg (qtxt "1.5x") = Fail Throw) by reflexivity. split; [discriminate|]. split.
  - repeat (constructor; [split; [intros H; cbn in H; repeat (destruct H as [H|H]; [discriminate H|]); exact H|discriminate]|]). constructor.
  - intros y Hy. pose proof (quad_read c_dbg [] _ y [] (Forall_nil _) Hy I) as H. rewrite app_nil_r in H. cbn [app] in H. congruence.
Qed.

(** ** Reading arrays *)
Theorem C79_array_read : forall c s xs A, 8 <= amax c < two62 -> 2 * zlen xs <= amax c -> qwords s xs -> exists A', read1_qtext c s A = MOk A' /\ rep A' xs.
Proof. exact quads_read. Qed.
Print Assumptions C79_array_read.
Theorem C79_array_bad : forall c s A, 8 <= amax c < two62 -> 2 * zlen s <= amax c -> loud c = true -> ~ In "000"%char s -> (forall xs, ~ qwords s xs) ->
  read1_qtext c s A = MFail (report c) A.
Proof. exact quads_bad. Qed.
Print Assumptions C79_array_bad.
Theorem C79_one_reading : forall s xs ys, qwords s xs -> qwords s ys -> xs = ys.
Proof. exact words_unique. Qed.
Print Assumptions C79_one_reading.
(** Lines of n numbers each make a matrix. *)
Theorem C79_matrix_read : forall c Ls M n A, cfg_ok c -> 4 <= amax c -> M <> [] -> rect n M -> 0 < n -> 2 * zlen M * n <= amax c ->
  Forall2 qwords Ls M -> Forall one_line Ls -> exists A', read2_qtext c (unlines Ls) A = MOk A' /\ holds A' (zlen M) n (mget M).
Proof. exact quads2_read. Qed.
Print Assumptions C79_matrix_read.
(** Any text: its lines, to which C52 applies. *)
Theorem C79_matrix_lines : forall c s A, exists Ls L, lines_of s Ls /\ Forall2 (quad_line c) Ls L /\ read2_qtext c s A = read2 (B754_zero false) c L A.
Proof. exact quads2_lines. Qed.
Print Assumptions C79_matrix_lines.
Example C79_matrix_case : (match read2_qtext c_dbg (qtxt "1 0x8" ++ [nl] ++ [nl] ++ qtxt " 3e0 -4" ++ [nl]) arr2_empty with MOk A => Some (map B2SF (firstn 4 (buf (dat A))), drows A, dcols A) | _ => None end) =
    Some (map B2SF [qz 1 0; qz 8 0; qz 3 0; qz (-4) 0], 2, 2) /\ read2_qtext c_dbg (qtxt "1 2" ++ [nl] ++ qtxt "3 x") arr2_empty = MFail Throw arr2_empty.
Proof. split; vm_compute; reflexivity. Qed.

(** ** Printing one number *)
Theorem C79_number : forall fm x, is_finite x = true -> exists s D E, decimal_text s (Bsign x) D E /\ rounded_at qp qe x D E /\
  (if f_sci fm then B2R x <> 0%R -> 10 ^ Z.of_nat (digits_of fm) <= D < 10 ^ (Z.of_nat (digits_of fm) + 1) else E = - Z.of_nat (digits_of fm)) /\
  (fits (f_sci fm) (digits_of fm) x -> zlen s <= 127) /\
  (zlen s <= 127 /\ (exists k, quad_text fm x = s ++ repeat sp k) \/ 127 < zlen s /\ quad_text fm x = firstn 127 s).
Proof. exact number_text. Qed.
Print Assumptions C79_number.
Theorem C79_width : forall fm x, 0 <= f_prec fm F128 ->
  zlen (quad_text fm x) <= 127 /\ (Z.of_nat (digits_of fm) <= 118 -> Z.of_nat (digits_of fm) + (if f_sci fm then 7 else 3) <= zlen (quad_text fm x)).
Proof. exact number_width. Qed.
Print Assumptions C79_width.
Theorem C79_put : forall fm x os, prints_quads fm -> os_width os = 0 -> exists os', put_quad fm x os = MOk os' /\ added os (quad_text fm x) os'.
Proof. exact quad_put. Qed.
Print Assumptions C79_put.
Theorem C79_bad_precision : forall fm x os, f_prec fm F128 < 0 \/ 2 ^ 31 - 4 < f_prec fm F128 < 2 ^ 31 -> put_quad fm x os = MUB.
Proof. exact quad_bad_precision. Qed.
Print Assumptions C79_bad_precision.
Theorem C79_roundtrip : forall c fm x, survives fm x -> read_quad c (quad_text fm x) = Ok x.
Proof. exact number_back. Qed.
Print Assumptions C79_roundtrip.
Theorem C79_roundtrip_35 : forall c fm x, f_sci fm = true -> 35 <= f_prec fm F128 <= 118 -> read_quad c (quad_text fm x) = Ok x.
Proof.
  intros c fm x HS HP. apply number_back. unfold good, fits, kept, enough_digits. rewrite HS. split; [lia|]. intros _. rewrite Z2Nat.id by lia. apply Z.lt_le_trans with (10 ^ 35); [now vm_compute|]. apply Z.pow_le_mono_r; lia.
Qed.
Print Assumptions C79_roundtrip_35.
(** 33 digits, the precision a program starts with, are not enough. *)
Theorem C79_default_refuted : exists x, is_finite x = true /\ forall c, exists y, read_quad c (quad_text format_reset x) = Ok y /\ Beqb x y = false.
Proof.
  exists (qz (1000 * 2 ^ 103 + 1) (-103)). split; [vm_compute; reflexivity|]. intros c.
  assert (H : match read_quad c (quad_text format_reset (qz (1000 * 2 ^ 103 + 1) (-103))) with Ok y => Beqb (qz (1000 * 2 ^ 103 + 1) (-103)) y = false | _ => False end) by (vm_compute; reflexivity).
  destruct (read_quad c _) as [y| |]; try contradiction. exists y. auto.
Qed.
Print Assumptions C79_default_refuted.
(** With 130 digits the exponent is cut off: 10 is read back as 1. *)
Theorem C79_cut_refuted : exists fm, f_sci fm = true /\ 35 <= f_prec fm F128 /\ forall c, exists y, read_quad c (quad_text fm (qz 10 0)) = Ok y /\ Beqb (qz 1 0) y = true.
Proof.
  exists (mkformat true (fun _ => 130)). split; [reflexivity|]. split; [cbn; lia|]. intros c.
  assert (H : match read_quad c (quad_text (mkformat true (fun _ => 130)) (qz 10 0)) with Ok y => Beqb (qz 1 0) y = true | _ => False end) by (vm_compute; reflexivity).
  destruct (read_quad c _) as [y| |]; try contradiction. exists y. auto.
Qed.
Print Assumptions C79_cut_refuted.
(** In fixed format, with the precision a program starts with, 2^430 is printed as a number less than a thousandth of it. *)
Theorem C79_cut_fixed_refuted : forall c, exists y, read_quad c (quad_text (format_scientific false format_reset) (qz 1 430)) = Ok y /\ Bltb y (qz 1 420) = true.
Proof.
  intros c. assert (H : match read_quad c (quad_text (format_scientific false format_reset) (qz 1 430)) with Ok y => Bltb y (qz 1 420) = true | _ => False end) by (vm_compute; reflexivity).
  destruct (read_quad c _) as [y| |]; try contradiction. exists y. auto.
Qed.
Print Assumptions C79_cut_fixed_refuted.
Example C79_print_case : quad_text (mkformat true (fun _ => 4)) (qz (-5) (-2)) = qtxt "-1.2500E+00" /\ quad_text (mkformat false (fun _ => 2)) (qz 5 (-2)) = qtxt "+1.25" ++ [] /\
  quad_text (mkformat true (fun _ => 4)) (B754_infinity true) = qtxt "-INF       " /\ fits false 33 (qz 5 (-2)) /\ kept true 35 (qz 5 (-2)).
Proof.
  split; [vm_compute; reflexivity|]. split; [vm_compute; reflexivity|]. split; [vm_compute; reflexivity|]. split; [|intros _; now vm_compute].
  intros _. exists 1. split; [lia|]. split; [lia|].
  assert (EX : B2R (qz 5 (-2)) = (5 / 4)%R) by (rewrite (literal_value _ (5 * 2 ^ 110) (-112) 5 110) by (vm_compute; congruence); cbn; lra).
  rewrite EX, Rabs_pos_eq by lra. pose proof (ten_to_le (- Z.of_nat 33) 0 ltac:(lia)) as T. rewrite (ten_to_int 0), (ten_to_int 1) in * by lia. change (10 ^ 0) with 1 in T. change (10 ^ 1) with 10. lra.
Qed.

(** ** Arrays and files *)
Theorem C79_array : forall lg A l fm af name os, prints_quads fm -> yields A (map Ok l) -> os_width os = 0 ->
  writes (quads1 lg A fm af name os) os (match l with [] => flags os | _ => if a_detailed af then int_flags os else flags os end) (print_one (lg F64) (quad_text fm) (a_row af) (a_detailed af) name l).
Proof. exact quads1_stream. Qed.
Print Assumptions C79_array.
Theorem C79_array_roundtrip : forall lg c fm row l A, 8 <= amax c < two62 -> 2 * zlen l <= amax c -> Forall (fun x => survives fm x) l ->
  exists s, print_one lg (quad_text fm) row false [] l = Ok s /\ exists A', read1_qtext c s A = MOk A' /\ rep A' l.
Proof. exact quads_back. Qed.
Print Assumptions C79_array_roundtrip.
Theorem C79_file_roundtrip : forall can_write can_read lg c p src l w, can_write p = true -> can_read p = true -> yields src (map Ok l) -> 8 <= amax c < two62 -> 2 * zlen l <= amax c ->
  prints_quads (w_fmt w) -> Forall (fun x => survives (w_fmt w) x) l -> a_detailed (w_afmt w) = false ->
  exists w' s, print_to_file can_write c p (quads1 lg src) [] w = MOk w' /\ in_file w p s w' /\ forall A, exists A', read_file_quads1 can_read c p w' A = MOk A' /\ rep A' l.
Proof. exact file_quads1. Qed.
Print Assumptions C79_file_roundtrip.
Example C79_array_case : forall lg, yields (src_of_list [qz 5 (-2); B754_nan]) (map Ok [qz 5 (-2); B754_nan]) /\ prints_quads (format_reset) /\
  quads1 lg (src_of_list [qz 5 (-2); B754_nan]) (mkformat true (fun _ => 2)) (mkaformat false true) (qtxt "q") fresh = MOk (mkos false false General 6 0 (qtxt "q:" ++ [nl] ++ qtxt "+1.25E+00  +NAN     " ++ [nl])).
Proof. intros lg. split; [apply yields_list; cbn; unfold LONG_MAX; lia|]. split; [cbn; lia|]. vm_compute. reflexivity. Qed.
