(** Property C78: printing to streams, the console and files; formats; reading files. *)
From Coq Require Import ZArith Reals Lra Ascii String.
From Flocq Require Import Core BinarySingleNaN.
From Verif Require Import Base.Outcome Base.ZList Model.IntModel Model.Index Model.Array1D Model.Array2D Model.Expr Model.Reduce Model.Scalars Model.ArrayIO Model.FloatIO Model.Layout Model.Console.
From Verif Require Import Spec.ArraySpec Spec.MatrixSpec Spec.Shape2Spec Spec.ExprSpec Spec.IOSpec Spec.FloatSpec Spec.FloatIOSpec Spec.LayoutSpec Spec.ConsoleSpec Spec.Configs.
From Verif Require Import Proofs.ExprProofs Proofs.ReadProofs Proofs.LayoutMore Proofs.ConsoleProofs Proofs.ConsoleThms Proofs.ConsoleFiles.
Local Open Scope Z_scope.
Definition ctxt (s : string) : text := list_ascii_of_string s.
Notation log10_ok f lg := (log10_contract (fprec f) (femax f) lg).
(** A console, no files, formats as at the start of a program. *)
Definition start : world := mkw fresh (fun _ => None) format_reset aformat_reset.

(** ** os << A: the text is the one of C75, for every object; the flags set by its numbers stay set *)
Theorem C78_ints : forall lg t A l fm af name os, yields A (map Ok l) -> os_width os = 0 ->
  writes (ints1 lg t A fm af name os) os (match l with [] => flags os | _ => int_flags os end) (print_one (lg F64) (show t) (a_row af) (a_detailed af) name l).
Proof. exact ints1_stream. Qed.
Print Assumptions C78_ints.
Theorem C78_bools : forall lg A l fm af name os, yields A (map Ok l) -> os_width os = 0 ->
  writes (bools1 lg A fm af name os) os (match l with [] => flags os | _ => if a_detailed af then int_flags os else flags os end) (print_one (lg F64) show_bool (a_row af) (a_detailed af) name l).
Proof. exact bools1_stream. Qed.
Print Assumptions C78_bools.
Theorem C78_reals : forall lg f A l fm af name os, yields A (map Ok l) -> os_width os = 0 ->
  writes (flts1 lg f A fm af name os) os (match l with [] => flags os | _ => flt_flags fm f end) (print_one (lg F64) (show_flt f fm) (a_row af) (a_detailed af) name l).
Proof. exact flts1_stream. Qed.
Print Assumptions C78_reals.
Theorem C78_int_matrix : forall lg t A M fm af name os, produces2 A M -> zlen (concat M) <= LONG_MAX -> os_width os = 0 ->
  writes (ints2 lg t A fm af name os) os (match M with [] => flags os | _ => int_flags os end) (print_ints (lg F64) t (a_detailed af) name (ncols M) M).
Proof. exact ints2_stream. Qed.
Print Assumptions C78_int_matrix.
Theorem C78_bool_matrix : forall lg A M fm af name os, produces2 A M -> os_width os = 0 ->
  writes (bools2 lg A fm af name os) os (match M with [] => flags os | _ => if a_detailed af then int_flags os else flags os end) (print_bools (lg F64) (a_detailed af) name (ncols M) M).
Proof. exact bools2_stream. Qed.
Print Assumptions C78_bool_matrix.
Theorem C78_real_matrix : forall lg f A M fm af name os, produces2 A M -> zlen (concat M) <= LONG_MAX -> 0 <= f_prec fm f -> os_width os = 0 ->
  writes (flts2 lg f A fm af name os) os (match M with [] => flags os | _ => flt_flags fm f end) (print_floats (lg F64) (lg f) (f_sci fm) (Z.to_nat (f_prec fm f)) (a_detailed af) name (ncols M) M).
Proof. exact flts2_stream. Qed.
Print Assumptions C78_real_matrix.
(** With the array format as it is initially and after array_format.reset(): one element per line, without indexes. *)
Theorem C78_initial : forall lg fm,
  (forall t A l, yields A (map Ok l) -> prints (ints1 lg t A) fm aformat_reset [] (after_each nl (map (show t) l))) /\
  (forall A l, yields A (map Ok l) -> prints (bools1 lg A) fm aformat_reset [] (after_each nl (map show_bool l))) /\
  (forall f A l, yields A (map Ok l) -> prints (flts1 lg f A) fm aformat_reset [] (after_each nl (map (show_flt f fm) l))).
Proof. exact (fun lg fm => conj (fun t A l => initial_ints lg t A l fm) (conj (fun A l => initial_bools lg A l fm) (fun f A l => initial_reals lg f A l fm))). Qed.
Print Assumptions C78_initial.
Example C78_initial_case : after_each nl (map (show I32) [5; -12]) = ctxt "+5" ++ [nl] ++ ctxt "-12" ++ [nl].
Proof. reflexivity. Qed.
Example C78_stream_case : forall lg, yields (src_of_list [5; -12]) (map Ok [5; -12]) /\
  ints1 lg I32 (src_of_list [5; -12]) format_reset aformat_reset (ctxt "A") fresh = MOk (mkos true false General 6 0 (ctxt "A:" ++ [nl] ++ ctxt "+5" ++ [nl] ++ ctxt "-12" ++ [nl])) /\
  bools1 lg (src_of_list [true; false]) format_reset (mkaformat false true) [] fresh = MOk (mkos false false General 6 0 (ctxt "true  false" ++ [nl])).
Proof. intros lg. split; [apply yields_list; cbn; unfold LONG_MAX; lia|]. split; reflexivity. Qed.
Definition sq : src2 bool := mksrc2 2 2 4 (fun i j => Ok (i =? j)) (fun k => oget [true; false; false; true] k).
Example C78_matrix_case : forall lg, produces2 sq [[true; false]; [false; true]] /\ zlen (concat [[true; false]; [false; true]]) <= LONG_MAX /\
  bools2 lg sq format_reset aformat_reset [] fresh = MOk (mkos false false General 6 0 (ctxt "  true   false" ++ [nl] ++ ctxt " false    true" ++ [nl])).
Proof.
  intros lg. split; [|split; [unfold LONG_MAX; cbn; lia|reflexivity]]. split; [split; [repeat constructor|cbn; lia]|]. repeat split.
  - intros i j Hi Hj. cbn in Hi, Hj. assert (C : (i = 0 \/ i = 1) /\ (j = 0 \/ j = 1)) by lia. destruct C as [[-> | ->] [-> | ->]]; eexists; (split; [reflexivity|reflexivity]).
Qed.
(** std::cout << A changes only the console; std::cout << x likewise. *)
Theorem C78_cout : forall P w fl s, os_width (w_out w) = 0 -> writes (P (w_fmt w) (w_afmt w) [] (w_out w)) (w_out w) fl (Ok s) ->
  exists w', cout_array P w = MOk w' /\ os_text (w_out w') = os_text (w_out w) ++ s /\ os_width (w_out w') = 0 /\ flags (w_out w') = fl /\ w_files w' = w_files w /\ w_fmt w' = w_fmt w /\ w_afmt w' = w_afmt w.
Proof. exact cout_writes. Qed.
Print Assumptions C78_cout.
(** Found: it changes how plain numbers are printed afterwards: 5 becomes +5. *)
Theorem C78_flags_refuted : exists w v t x s, os_text (put_int t x (w_out w)) = os_text (w_out w) ++ s /\
  os_text (put_int t x (w_out (cout_value v w))) <> os_text (w_out (cout_value v w)) ++ s.
Proof. exists start, (VI I32 1), I32, 5, (ctxt "5"). split; [reflexivity|]. vm_compute. discriminate. Qed.
Print Assumptions C78_flags_refuted.
(** Built-in integers on a stream: as their Strict versions once the flags are set, and otherwise without the '+'. *)
Theorem C78_builtin_ints : forall t x os, (signed t = false -> 0 <= x) ->
  (os_pos os = true -> put_int t x os = put (show t x) os) /\
  (os_pos os = false -> exists s, put_int t x os = put s os /\ (if signed t && (0 <=? x) then show t x = "+"%char :: s else show t x = s)).
Proof. exact builtin_ints. Qed.
Print Assumptions C78_builtin_ints.
Example C78_builtin_ints_case : os_text (put_int I32 0 fresh) = ctxt "0" /\ os_text (put_int I32 0 (set_int fresh)) = ctxt "+0" /\ os_text (put_int U32 7 (set_int fresh)) = ctxt "7" /\ os_text (put_int I64 (-7) fresh) = ctxt "-7".
Proof. repeat split. Qed.
(** A std::vector of indices prints as the array of them. *)
Theorem C78_indexes : forall lg l os fm af, os_width os = 0 -> a_row af = false -> a_detailed af = false -> zlen l <= LONG_MAX -> ints1 lg I64 (src_of_list l) fm af [] os = MOk (put_indexes l os).
Proof. exact indexes_as_array. Qed.
Print Assumptions C78_indexes.
Example C78_indexes_case : os_text (put_indexes [3; 14] fresh) = ctxt "+3" ++ [nl] ++ ctxt "+14" ++ [nl].
Proof. reflexivity. Qed.

(** ** print: the same text, with nothing else changed on the console *)
Theorem C78_print : forall P name s w, prints P (w_fmt w) (w_afmt w) name s -> os_width (w_out w) = 0 -> exists w', print_array P name w = MOk w' /\ on_console w s w'.
Proof. exact print_text. Qed.
Print Assumptions C78_print.
Theorem C78_printn : forall P name s w, prints P (w_fmt w) (w_afmt w) name s -> os_width (w_out w) = 0 -> exists w', printn_array P name w = MOk w' /\ on_console w (s ++ [nl]) w'.
Proof. exact printn_text. Qed.
Print Assumptions C78_printn.
Theorem C78_print_many : forall fm af Ps ss, Forall2 (fun P s => prints P fm af [] s) Ps ss -> forall w, w_fmt w = fm -> w_afmt w = af -> os_width (w_out w) = 0 ->
  exists w', print_arrays Ps w = MOk w' /\ on_console w (between nl ss) w'.
Proof. exact print_many. Qed.
Print Assumptions C78_print_many.
Theorem C78_printn_many : forall fm af Ps ss, Forall2 (fun P s => prints P fm af [] s) Ps ss -> forall w, w_fmt w = fm -> w_afmt w = af -> os_width (w_out w) = 0 ->
  exists w', printn_arrays Ps w = MOk w' /\ on_console w (after_each nl ss) w'.
Proof. exact printn_many. Qed.
Print Assumptions C78_printn_many.
Theorem C78_values : forall vs w, os_width (w_out w) = 0 -> on_console w (after_each nl (map (value_text (w_fmt w)) vs)) (print_values vs w) /\
  on_console w (after_each nl (map (value_text (w_fmt w)) vs) ++ [nl]) (printn_values vs w).
Proof. intros vs w H. split; [now apply print_values_text|now apply printn_values_text]. Qed.
Print Assumptions C78_values.
Theorem C78_value : forall v name w, os_width (w_out w) = 0 -> on_console w (heading name ++ value_text (w_fmt w) v ++ [nl]) (print_value v name w) /\
  on_console w (heading name ++ value_text (w_fmt w) v ++ [nl; nl]) (printn_value v name w).
Proof. intros v name w H. split; [now apply print_value_text|now apply printn_value_text]. Qed.
Print Assumptions C78_value.
(** Whatever is printed to the console afterwards comes out as it would have before. *)
Theorem C78_print_later : forall w s w' t x u, on_console w s w' -> os_width (w_out w) = 0 -> os_text (put_int t x (w_out w)) = os_text (w_out w) ++ u -> os_text (put_int t x (w_out w')) = os_text (w_out w') ++ u.
Proof. exact later_same. Qed.
Print Assumptions C78_print_later.
Example C78_print_case : forall lg, let P := ints1 lg U32 (src_of_list [1; 2]) in
  prints P format_reset aformat_reset [] (ctxt "1" ++ [nl] ++ ctxt "2" ++ [nl]) /\
  match print_arrays [P; P] start with MOk w => os_text (w_out w) | _ => [] end = ctxt "1" ++ [nl] ++ ctxt "2" ++ [nl; nl] ++ ctxt "1" ++ [nl] ++ ctxt "2" ++ [nl] /\
  os_text (w_out (printn_values [VI I32 7; VB true] start)) = ctxt "+7" ++ [nl] ++ ctxt "true" ++ [nl; nl].
Proof. intros lg P. split; [eexists; repeat split|]. split; reflexivity. Qed.

(** ** Elements that fail *)
(** On a stream the elements before the failing one stay; in a matrix only the name, since the width is computed first. *)
Theorem C78_stream_fails : forall lg t A vs e r fm af name os, yields A (map Ok vs ++ Fail e :: r) -> a_detailed af = false -> os_width os = 0 ->
  exists os', ints1 lg t A fm af name os = MFail e os' /\ os_text os' = os_text os ++ heading name ++ concat (map (fun v => show t v ++ row_sep (a_row af)) vs).
Proof. exact ints1_fails. Qed.
Print Assumptions C78_stream_fails.
Theorem C78_stream_fails_bool : forall lg A vs e r fm af name os, yields A (map Ok vs ++ Fail e :: r) -> a_detailed af = false -> os_width os = 0 ->
  exists os', bools1 lg A fm af name os = MFail e os' /\ os_text os' = os_text os ++ heading name ++ concat (map (fun v => show_bool v ++ row_sep (a_row af)) vs).
Proof. exact bools1_fails. Qed.
Print Assumptions C78_stream_fails_bool.
Theorem C78_stream_fails_real : forall lg f A vs e r fm af name os, yields A (map Ok vs ++ Fail e :: r) -> a_detailed af = false -> os_width os = 0 ->
  exists os', flts1 lg f A fm af name os = MFail e os' /\ os_text os' = os_text os ++ heading name ++ concat (map (fun v => show_flt f fm v ++ row_sep (a_row af)) vs).
Proof. exact flts1_fails. Qed.
Print Assumptions C78_stream_fails_real.
Theorem C78_matrix_fails : forall lg t A vs e r fm af name os, yields (flat2 A) (map Ok vs ++ Fail e :: r) -> Forall (in_type t) vs -> signed t = false \/ ~ In (tmin t) vs -> os_width os = 0 ->
  exists os', ints2 lg t A fm af name os = MFail e os' /\ os_text os' = os_text os ++ heading name.
Proof. exact ints2_fails. Qed.
Print Assumptions C78_matrix_fails.
Theorem C78_matrix_fails_real : forall lg f A vs e r fm af name os, yields (flat2 A) (map Ok vs ++ Fail e :: r) -> os_width os = 0 ->
  exists os', flts2 lg f A fm af name os = MFail e os' /\ os_text os' = os_text os ++ heading name.
Proof. exact flts2_fails. Qed.
Print Assumptions C78_matrix_fails_real.
(** print writes all or nothing; print of several objects all before the failing one, each with its blank line. *)
Theorem C78_print_fails : forall P name w f os, P (w_fmt w) (w_afmt w) name fresh = MFail f os -> print_array P name w = MFail f w.
Proof. exact print_fails. Qed.
Print Assumptions C78_print_fails.
Theorem C78_print_many_fails : forall fm af Ps ss P f os Qs, Forall2 (fun P s => prints P fm af [] s) Ps ss -> P fm af [] fresh = MFail f os -> forall w, w_fmt w = fm -> w_afmt w = af -> os_width (w_out w) = 0 ->
  exists w', print_arrays (Ps ++ P :: Qs) w = MFail f w' /\ on_console w (after_each nl ss) w'.
Proof. exact print_many_fails. Qed.
Print Assumptions C78_print_many_fails.
Definition tenths : src1 Z := x_un (fun z => if z =? 0 then Fail Throw else Ok (10 / z)) (src_of_list [5; 2; 0; 1]).
Lemma tenths_yields : yields tenths (map Ok [2; 5] ++ Fail Throw :: [Ok 10]).
Proof. exact (un_ok _ _ _ (yields_list [5; 2; 0; 1] ltac:(cbn; unfold LONG_MAX; lia))). Qed.
Example C78_fails_case : forall lg, yields tenths (map Ok [2; 5] ++ Fail Throw :: [Ok 10]) /\
  ints1 lg I32 tenths format_reset aformat_reset [] fresh = MFail Throw (mkos true false General 6 0 (ctxt "+2" ++ [nl] ++ ctxt "+5" ++ [nl])) /\
  print_array (ints1 lg I32 tenths) [] start = MFail Throw start.
Proof. intros lg. split; [exact tenths_yields|]. split; reflexivity. Qed.

(** ** Files *)
Theorem C78_file : forall can_write c p P name s w, can_write p = true -> prints P (w_fmt w) (w_afmt w) name s -> exists w', print_to_file can_write c p P name w = MOk w' /\ in_file w p s w'.
Proof. exact file_text. Qed.
Print Assumptions C78_file.
Theorem C78_file_closed : forall can_write c p P name w, can_write p = false -> loud c = true -> print_to_file can_write c p P name w = MFail (report c) w.
Proof. exact file_closed. Qed.
Print Assumptions C78_file_closed.
(** Found: without exceptions and assert it returns although nothing was written. *)
Theorem C78_file_closed_silent : forall can_write c p P name s w, can_write p = false -> loud c = false -> prints P (w_fmt w) (w_afmt w) name s -> print_to_file can_write c p P name w = MOk w.
Proof. exact file_closed_silent. Qed.
Print Assumptions C78_file_closed_silent.
(** Found: where an element fails, the file has lost its former contents (print leaves the console as it was). *)
Theorem C78_file_fails : forall can_write c p P name w e os, can_write p = true -> P (w_fmt w) (w_afmt w) name fresh = MFail e os -> exists w', print_to_file can_write c p P name w = MFail e w' /\ in_file w p (os_text os) w'.
Proof. exact file_fails. Qed.
Print Assumptions C78_file_fails.
Theorem C78_file_kept_refuted : exists can_write c p P w e w', loud c = true /\ print_to_file can_write c p P [] w = MFail e w' /\ w_files w' p <> w_files w p.
Proof.
  exists (fun _ => true), c_dbg, (ctxt "x"), (ints1 (fun _ x => x) I32 tenths), (with_file (ctxt "x") (ctxt "old") start), Throw. eexists. split; [reflexivity|]. split; [vm_compute; reflexivity|]. vm_compute. discriminate.
Qed.
Print Assumptions C78_file_kept_refuted.
Theorem C78_read : forall can_read S c p (rd : text -> S -> mut S) rd0 s w A, can_read p = true -> w_files w p = Some s -> read_from_file can_read c p rd rd0 w A = rd s A.
Proof. exact @read_open. Qed.
Print Assumptions C78_read.
Theorem C78_read_closed : forall can_read S c p (rd : text -> S -> mut S) rd0 w A, can_read p = false \/ w_files w p = None -> loud c = true -> read_from_file can_read c p rd rd0 w A = MFail (report c) A.
Proof. exact @read_closed. Qed.
Print Assumptions C78_read_closed.
(** Found: without exceptions and assert reading a file that does not exist empties the array. *)
Theorem C78_read_closed_silent : forall can_read c t p w, can_read p = false \/ w_files w p = None -> loud c = false ->
  (forall A, 8 <= amax c < two62 -> exists A', read_file_ints1 can_read c t p w A = MOk A' /\ rep A' []) /\ (forall A, read_file_ints2 can_read c t p w A = MOk arr2_empty).
Proof. intros cr c t p w HR HL. split; [intros A Ha; now apply closed_empties1|intros A; now apply closed_empties2]. Qed.
Print Assumptions C78_read_closed_silent.
Example C78_closed_case : loud c_dbg = true /\ loud c_silent = false /\ w_files start (ctxt "x") = None /\ 8 <= amax c_silent < two62 /\
  read_file_ints1 (fun _ => true) c_dbg I32 (ctxt "x") start (mkarr [7] 1) = MFail Throw (mkarr [7] 1).
Proof. unfold two62. repeat split; try reflexivity; cbn; lia. Qed.

(** ** A file written by print_to_file is read back as the same array *)
Theorem C78_round_trip : forall can_write can_read lg c t p src l w, can_write p = true -> can_read p = true -> yields src (map Ok l) -> 8 <= amax c < two62 -> 2 * zlen l <= amax c -> Forall (in_type t) l -> a_detailed (w_afmt w) = false ->
  exists w' s, print_to_file can_write c p (ints1 lg t src) [] w = MOk w' /\ in_file w p s w' /\ forall A, exists A', read_file_ints1 can_read c t p w' A = MOk A' /\ rep A' l.
Proof. exact file_ints1. Qed.
Print Assumptions C78_round_trip.
Theorem C78_round_trip_matrix : forall can_write can_read lg, log10_ok F64 (lg F64) -> forall c t p src M w, can_write p = true -> can_read p = true -> produces2 src M -> cfg_ok c -> 4 <= amax c -> M <> [] -> 2 * zlen M * ncols M <= amax c ->
  Forall (Forall (in_type t)) M -> signed t = false \/ ~ In (tmin t) (concat M) -> a_detailed (w_afmt w) = false ->
  exists w' s, print_to_file can_write c p (ints2 lg t src) [] w = MOk w' /\ in_file w p s w' /\ forall A, exists A', read_file_ints2 can_read c t p w' A = MOk A' /\ holds A' (zlen M) (ncols M) (mget M).
Proof. exact file_ints2. Qed.
Print Assumptions C78_round_trip_matrix.
Theorem C78_round_trip_real : forall can_write can_read lg c f p src l w, can_write p = true -> can_read p = true -> yields src (map Ok l) -> 8 <= amax c < two62 -> 2 * zlen l <= amax c -> 0 <= f_prec (w_fmt w) f ->
  Forall (fun x => is_finite x = true) l -> Forall (enough_digits (fprec f) (femax f) (f_sci (w_fmt w)) (Z.to_nat (f_prec (w_fmt w) f))) l -> a_detailed (w_afmt w) = false ->
  exists w' s, print_to_file can_write c p (flts1 lg f src) [] w = MOk w' /\ in_file w p s w' /\ forall A, exists A', read_file_flts1 can_read c f p w' A = MOk A' /\ rep A' l.
Proof. exact file_flts1. Qed.
Print Assumptions C78_round_trip_real.
Theorem C78_round_trip_real_matrix : forall can_write can_read lg c f p src M w, can_write p = true -> can_read p = true -> produces2 src M -> cfg_ok c -> 4 <= amax c -> M <> [] -> 2 * zlen M * ncols M <= amax c ->
  f_sci (w_fmt w) = true -> 0 <= f_prec (w_fmt w) f -> 2 ^ fprec f < 10 ^ f_prec (w_fmt w) f -> Forall (Forall (fun x => is_finite x = true)) M -> a_detailed (w_afmt w) = false ->
  exists w' s, print_to_file can_write c p (flts2 lg f src) [] w = MOk w' /\ in_file w p s w' /\ forall A, exists A', read_file_flts2 can_read c f p w' A = MOk A' /\ holds A' (zlen M) (ncols M) (mget M).
Proof. exact file_flts2. Qed.
Print Assumptions C78_round_trip_real_matrix.
(** The formats at the start of a program suffice for double, not for float and long double. *)
Theorem C78_default_double : f_sci format_reset = true /\ 0 <= f_prec format_reset F64 /\ 2 ^ fprec F64 < 10 ^ f_prec format_reset F64 /\
  forall x : flt F64, enough_digits (fprec F64) (femax F64) (f_sci format_reset) (Z.to_nat (f_prec format_reset F64)) x.
Proof. repeat split; cbn; lia. Qed.
Print Assumptions C78_default_double.
Theorem C78_default_float_refuted : forall f, f = F32 \/ f = F80 -> exists x : flt f, is_finite x = true /\ forall lg c p w, 8 <= amax c < two62 -> w_fmt w = format_reset -> w_afmt w = aformat_reset ->
  exists w', print_to_file (fun _ => true) c p (flts1 lg f (src_of_list [x])) [] w = MOk w' /\ forall A, exists A' y, read_file_flts1 (fun _ => true) c f p w' A = MOk A' /\ rep A' [y] /\ Beqb x y = false.
Proof.
  intros f [-> | ->].
  - exists (binary_normalize (fprec F32) (femax F32) _ _ mode_NE 16384001 (-14) false). split; [vm_compute; reflexivity|]. apply float_differs; vm_compute; reflexivity.
  - exists (binary_normalize (fprec F80) (femax F80) _ _ mode_NE (1000 * 2 ^ 54 + 1) (-54) false). split; [vm_compute; reflexivity|]. apply float_differs; vm_compute; reflexivity.
Qed.
Print Assumptions C78_default_float_refuted.
(** With a name, whatever it is, the file is rejected. *)
Theorem C78_named_unreadable : forall can_write can_read lg c t p src l name w, can_write p = true -> can_read p = true -> yields src (map Ok l) -> a_detailed (w_afmt w) = false -> name <> [] ->
  8 <= amax c < two62 -> 2 * (zlen name + 1) <= amax c -> loud c = true ->
  exists w', print_to_file can_write c p (ints1 lg t src) name w = MOk w' /\ forall A, read_file_ints1 can_read c t p w' A = MFail (report c) A.
Proof. exact file_named. Qed.
Print Assumptions C78_named_unreadable.
Example C78_round_trip_case : forall lg, match print_to_file (fun _ => true) c_dbg (ctxt "x") (ints1 lg I32 (src_of_list [5; -12])) [] start with
  | MOk w => w_files w (ctxt "x") = Some (ctxt "+5" ++ [nl] ++ ctxt "-12" ++ [nl]) /\ match read_file_ints1 (fun _ => true) c_dbg I32 (ctxt "x") w (mkarr [7] 1) with MOk A => rep A [5; -12] | _ => False end
  | _ => False end.
Proof. intros lg. cbn. split; [reflexivity|]. vm_compute. auto. Qed.

(** ** Formats *)
Theorem C78_precision : forall c which n fm, 0 <= n < 2 ^ 31 -> exists fm', format_precision c which n fm = Ok fm' /\ f_sci fm' = f_sci fm /\ forall f, f_prec fm' f = if which f then n else f_prec fm f.
Proof. exact precision_ok. Qed.
Print Assumptions C78_precision.
Theorem C78_precision_negative : forall c which n fm, n < 0 -> checked c = true -> format_precision c which n fm = Fail (report c).
Proof. exact precision_bad. Qed.
Print Assumptions C78_precision_negative.
(** Found: a precision that is not an int is taken modulo 2^32, also with checks. *)
Theorem C78_precision_refuted : exists n m, 0 <= n <= LONG_MAX /\ 0 <= m <= LONG_MAX /\ forall c fm, exists fm1 fm2, format_precision c (fun _ => true) n fm = Ok fm1 /\ format_precision c (fun _ => true) m fm = Ok fm2 /\ f_prec fm1 F64 = 3 /\ f_prec fm2 F64 < 0.
Proof.
  exists (2 ^ 32 + 3), (2 ^ 31). split; [unfold LONG_MAX; lia|]. split; [unfold LONG_MAX; lia|]. intros c fm. unfold format_precision, nonneg_arg.
  change (-1 <? 2 ^ 32 + 3) with true. change (-1 <? 2 ^ 31) with true. rewrite check_debug_true. do 2 eexists. split; [reflexivity|]. split; [reflexivity|]. split; vm_compute; reflexivity.
Qed.
Print Assumptions C78_precision_refuted.
Example C78_precision_case : match format_precision c_dbg (fun f => match f with F32 => true | _ => false end) 3 format_reset with Ok fm => (f_prec fm F32, f_prec fm F64) = (3, 16) | _ => False end.
Proof. reflexivity. Qed.
