(** Property C74: what is read from an arbitrary text. *)
From Coq Require Import ZArith Reals Lra Ascii String.
From Flocq Require Import Core BinarySingleNaN.
From Verif Require Import Base.Outcome Base.ZList Model.IntModel Model.Index Model.Array1D Model.Array2D Model.ArrayIO Model.FloatIO.
From Verif Require Import Spec.ArraySpec Spec.IOSpec Spec.FloatSpec Spec.FloatIOSpec Spec.ReadSpec Spec.Configs.
From Verif Require Import Proofs.IOProofs Proofs.IOText Proofs.FloatIOProofs Proofs.FloatIOText Proofs.ReadProofs.
Local Open Scope Z_scope.

Definition rtxt (s : string) : text := list_ascii_of_string s.

(** ** Every text is cut into tokens in one way *)
Theorem C74_integers : forall t s, exists vs e, reads integer_text (integer_value t) s vs e /\
  forall vs' e', reads integer_text (integer_value t) s vs' e' -> vs' = vs /\ e' = e.
Proof. intros t. exact (reads_total (extract t Skip) _ _ (extract_exact t)). Qed.
Print Assumptions C74_integers.
Theorem C74_bools : forall s, exists vs e, reads integer_text bool_value s vs e /\ forall vs' e', reads integer_text bool_value s vs' e' -> vs' = vs /\ e' = e.
Proof. exact (reads_total (bextract Skip) _ _ bextract_exact). Qed.
Print Assumptions C74_bools.
Theorem C74_reals : forall prec emax {Hp : Prec_gt_0 prec} {He : Prec_lt_emax prec emax} s, exists vs e, reads real_text (real_value prec emax) s vs e /\
  forall vs' e', reads real_text (real_value prec emax) s vs' e' -> vs' = vs /\ e' = e.
Proof. intros prec emax Hp He. exact (reads_total (fextract prec emax FSkip) _ _ (fextract_exact prec emax)). Qed.
Print Assumptions C74_reals.

(** ** Reading one number *)
Theorem C74_one_real : forall prec emax {Hp : Prec_gt_0 prec} {He : Prec_lt_emax prec emax} c s vs e, reads real_text (real_value prec emax) s vs e ->
  read_float prec emax c s = match vs with v :: _ => Ok v | [] => if loud c then Fail (report c) else UB end.
Proof.
  intros prec emax Hp He c s vs e R. apply (fextract_exact prec emax) in R. unfold read_float. rewrite R. cbn [fst]. destruct vs; [|reflexivity].
  unfold check_always, loud, report. destruct (exc c), (ndbg c); reflexivity.
Qed.
Print Assumptions C74_one_real.

(** ** Arrays: all values if the end of the text is reached, otherwise a report (silent in one configuration) *)
Theorem C74_integer_array : forall c t s vs e A, 8 <= amax c < two62 -> 2 * zlen vs <= amax c -> reads integer_text (integer_value t) s vs e ->
  if e || negb (loud c) then exists A', read1_text c t s A = MOk A' /\ rep A' vs else read1_text c t s A = MFail (report c) A.
Proof. intros c t s vs e A Ha Hv R. apply extract_exact in R. unfold read1_text. rewrite R. now apply read_array. Qed.
Print Assumptions C74_integer_array.
Theorem C74_bool_array : forall c s vs e A, 8 <= amax c < two62 -> 2 * zlen vs <= amax c -> reads integer_text bool_value s vs e ->
  if e || negb (loud c) then exists A', read1_btext c s A = MOk A' /\ rep A' vs else read1_btext c s A = MFail (report c) A.
Proof. intros c s vs e A Ha Hv R. apply bextract_exact in R. unfold read1_btext. rewrite R. now apply read_array. Qed.
Print Assumptions C74_bool_array.
Theorem C74_real_array : forall prec emax {Hp : Prec_gt_0 prec} {He : Prec_lt_emax prec emax} zero c s vs e A,
  8 <= amax c < two62 -> 2 * zlen vs <= amax c -> reads real_text (real_value prec emax) s vs e ->
  if e || negb (loud c) then exists A', read1_ftext prec emax zero c s A = MOk A' /\ rep A' vs else read1_ftext prec emax zero c s A = MFail (report c) A.
Proof. intros prec emax Hp He zero c s vs e A Ha Hv R. apply (fextract_exact prec emax) in R. unfold read1_ftext. rewrite R. now apply read_array. Qed.
Print Assumptions C74_real_array.

(** ** Two dimensions: the lines of the text, to which C52 applies *)
Theorem C74_integer_lines : forall c t s A, exists Ls L, lines_of s Ls /\ Forall2 (line_reads integer_text (integer_value t)) Ls L /\ read2_text c t s A = read2 0 c L A.
Proof. intros c t s A. destruct (lines_read (extract t Skip) _ _ s (extract_exact t)) as (Ls & H1 & H2 & H3). do 2 eexists. split; [exact H1|]. split; [exact H3|]. unfold read2_text. now rewrite H2. Qed.
Print Assumptions C74_integer_lines.
Theorem C74_real_lines : forall prec emax {Hp : Prec_gt_0 prec} {He : Prec_lt_emax prec emax} zero c s A, exists Ls L,
  lines_of s Ls /\ Forall2 (line_reads real_text (real_value prec emax)) Ls L /\ read2_ftext prec emax zero c s A = read2 zero c L A.
Proof.
  intros prec emax Hp He zero c s A. destruct (lines_read (fextract prec emax FSkip) _ _ s (fextract_exact prec emax)) as (Ls & H1 & H2 & H3).
  do 2 eexists. split; [exact H1|]. split; [exact H3|]. unfold read2_ftext. now rewrite H2.
Qed.
Print Assumptions C74_real_lines.

Example C74_case : reads integer_text (integer_value I32) (rtxt " 12 -7+5 x") [12; -7; 5] false /\ reads integer_text (integer_value U32) (rtxt "-1 007") [4294967295; 7] true /\ reads integer_text (integer_value I32) (rtxt "3 99999999999") [3] true /\ reads integer_text bool_value (rtxt "1 -0 2 1") [true; false] false /\ reads real_text (real_value 53 1024) (rtxt "+.e5") [] false /\ reads real_text (real_value 53 1024) (rtxt "0e5x") [B754_zero false] false /\ reads real_text (real_value 53 1024) (rtxt "-.0e-7.0") [B754_zero true; B754_zero false] true /\ reads real_text (real_value 53 1024) (rtxt "1e400 ") [] false /\ lines_of (rtxt "1 2" ++ [nl] ++ rtxt "3") [rtxt "1 2"; rtxt "3"].
Proof.
  split; [apply extract_exact; vm_compute; reflexivity|]. split; [apply extract_exact; vm_compute; reflexivity|]. split; [apply extract_exact; vm_compute; reflexivity|].
  split; [apply bextract_exact; vm_compute; reflexivity|]. do 4 (split; [apply (fextract_exact 53 1024); vm_compute; reflexivity|]). apply (getlines_lines (rtxt "1 2" ++ [nl] ++ rtxt "3") []). intros [].
Qed.
