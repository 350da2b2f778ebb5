(** Property C86: sequence and linspace of floating-point numbers. *)
From Coq Require Import ZArith Reals Lra Lia.
From Flocq Require Import Core BinarySingleNaN.
From Verif Require Import Base.Outcome Base.ZList Model.IntModel Model.Index Model.Array1D Model.Expr Model.StableOps Model.FloatModel.
From Verif Require Import Spec.ExprSpec Spec.FloatSpec Spec.PlainSpec Spec.Configs.
From Verif Require Import Proofs.PlainCases Proofs.GridProofs.
Import ListNotations.
Local Open Scope Z_scope.

(** u is the unit roundoff and tiny half the smallest positive number. *)
Section ANY_FORMAT.
Context (prec emax : Z) {Hp : Prec_gt_0 prec} {He : Prec_lt_emax prec emax} (P2 : 1 < prec).
Notation flt := (binary_float prec emax).
Notation val := (@B2R prec emax).
Notation fin x := (is_finite x = true).
Notation u := (uro prec).
Notation tiny := (tiny prec emax).
Notation whole := (whole prec emax).
Notation sequence c n a h := (x_seq c (add_f prec emax) (mul_f prec emax) (cast_f prec emax) n a h).
Notation linspace c n a b := (x_linspace c (add_f prec emax) (sub_f prec emax) (mul_f prec emax) (div_f prec emax) (cast_f prec emax) n a b).

(** ** Both exist for all arguments with a valid size *)
Theorem C86_defined : forall (c : cfg) n (a b : flt),
  (0 <= n -> exists R, sequence c n a b = Ok R /\ ssize R = n) /\ (1 <= n <= LONG_MAX -> exists R, linspace c n a b = Ok R /\ ssize R = n).
Proof. intros c n a b. exact (conj (seq_defined prec emax c n a b) (lin_defined prec emax c n a b)). Qed.

(** ** sequence(a, n, h) *)
(** It starts at a. *)
Theorem C86_sequence_first : forall (c : cfg) n (a h : flt) R, sequence c n a h = Ok R -> fin a -> fin h -> exists v, sun R 0 = Ok v /\ fin v /\ val v = val a.
Proof. exact (seq_first prec emax). Qed.
(** If an element is finite then so are those before it, and they are in order. *)
Theorem C86_sequence_ordered : forall (c : cfg) n (a h : flt) R, sequence c n a h = Ok R -> forall j w, 0 <= j < n -> sun R j = Ok w -> fin w -> forall i, 0 <= i <= j ->
  exists v, sun R i = Ok v /\ fin v /\ ((0 <= val h)%R -> (val a <= val v <= val w)%R) /\ ((val h <= 0)%R -> (val w <= val v <= val a)%R).
Proof. exact (seq_ordered prec emax). Qed.
(** Distance from a + i h: the error does not accumulate along the sequence. *)
Theorem C86_sequence_error : forall (c : cfg) n (a h : flt) R, sequence c n a h = Ok R -> n <= 2 ^ prec -> forall i v, 0 <= i < n -> sun R i = Ok v -> fin v ->
  (Rabs (val v - (val a + IZR i * val h)) <= u * Rabs (val a + IZR i * val h) + (1 + u) * (u * (IZR i * Rabs (val h)) + tiny))%R.
Proof. exact (seq_error prec emax P2). Qed.
(** Whole numbers up to 2^prec are exact. *)
Theorem C86_sequence_whole : forall (c : cfg) n (a h : flt) R, sequence c n a h = Ok R -> n <= 2 ^ prec -> whole a -> whole h -> (Rabs (val a) + IZR n * Rabs (val h) <= bpow radix2 prec)%R ->
  forall i, 0 <= i < n -> exists v, sun R i = Ok v /\ whole v /\ val v = (val a + IZR i * val h)%R.
Proof. exact (seq_whole prec emax P2). Qed.

(** ** linspace(n, a, b) *)
(** If the last element is finite then all are, the first is a, and the elements go monotonically from a in the direction of b. *)
Theorem C86_linspace_ordered : forall (c : cfg) n (a b : flt) R, 2 <= n -> linspace c n a b = Ok R -> forall w, sun R (n - 1) = Ok w -> fin w ->
  (exists v, sun R 0 = Ok v /\ fin v /\ val v = val a) /\
  forall i j, 0 <= i <= j -> j < n -> exists v v', sun R i = Ok v /\ sun R j = Ok v' /\ fin v /\ fin v' /\
    ((val a <= val b)%R -> (val a <= val v <= val v')%R) /\ ((val b <= val a)%R -> (val v' <= val v <= val a)%R).
Proof. exact (lin_ordered prec emax P2). Qed.
(** Distance from the ideal grid. *)
Theorem C86_linspace_error : forall (c : cfg) n (a b : flt) R, 2 <= n -> n <= 2 ^ prec -> linspace c n a b = Ok R -> forall i v, 0 <= i < n -> sun R i = Ok v -> fin v ->
  let m := IZR (n - 1) in let t := (val a + IZR i * ((val b - val a) / m))%R in
  (Rabs (val v - t) <= u * Rabs t + ((1 + u) ^ 4 - (1 + u)) * (IZR i / m * Rabs (val b - val a)) + (1 + u) * ((1 + u) * IZR i + 1) * tiny)%R.
Proof. exact (lin_error prec emax P2). Qed.
(** In particular of the last element from b. *)
Theorem C86_linspace_last : forall (c : cfg) n (a b : flt) R, 2 <= n -> n <= 2 ^ prec -> linspace c n a b = Ok R -> forall w, sun R (n - 1) = Ok w -> fin w ->
  (Rabs (val w - val b) <= u * Rabs (val b) + ((1 + u) ^ 4 - (1 + u)) * Rabs (val b - val a) + (1 + u) * ((1 + u) * IZR (n - 1) + 1) * tiny)%R.
Proof. exact (lin_last prec emax P2). Qed.
(** Whole end points at a distance k (n - 1), with n - 1 and all numbers up to 2^prec: exact, and the last element is b. *)
Theorem C86_linspace_whole : forall (c : cfg) n (a b : flt) R k, 2 <= n -> n - 1 <= 2 ^ prec -> linspace c n a b = Ok R -> whole a -> whole b ->
  (Rabs (val a) <= bpow radix2 prec)%R -> (Rabs (val b) <= bpow radix2 prec)%R -> (Rabs (val b - val a) <= bpow radix2 prec)%R -> (val b - val a = IZR (k * (n - 1)))%R ->
  forall i, 0 <= i < n -> exists v, sun R i = Ok v /\ whole v /\ val v = (val a + IZR i * IZR k)%R.
Proof. exact (lin_whole prec emax P2). Qed.
(** If b - a overflows or is NaN then no element is finite, and the first one is NaN. *)
Theorem C86_linspace_overflow : forall (c : cfg) n (a b : flt) R, 2 <= n -> linspace c n a b = Ok R -> is_finite (Bminus mode_NE b a) = false ->
  sun R 0 = Ok B754_nan /\ forall i v, 0 <= i < n -> sun R i = Ok v -> is_finite v = false.
Proof. exact (lin_overflow prec emax). Qed.
End ANY_FORMAT.
Print Assumptions C86_defined.
Print Assumptions C86_sequence_first.
Print Assumptions C86_sequence_ordered.
Print Assumptions C86_sequence_error.
Print Assumptions C86_sequence_whole.
Print Assumptions C86_linspace_ordered.
Print Assumptions C86_linspace_error.
Print Assumptions C86_linspace_last.
Print Assumptions C86_linspace_whole.
Print Assumptions C86_linspace_overflow.

(** ** Claims refuted, for double *)
Notation seq64 c n a h := (x_seq c (add_f 53 1024) (mul_f 53 1024) (cast_f 53 1024) n a h).
Notation lin64 c n a b := (x_linspace c (add_f 53 1024) (sub_f 53 1024) (mul_f 53 1024) (div_f 53 1024) (cast_f 53 1024) n a b).
(** The last element of linspace is the end point: linspace(50, 0, 1) stops short of 1 ... *)
Theorem C86_end_reached_refuted : forall c, exists R w, lin64 c 50 (dbl 0 0) (dbl 1 0) = Ok R /\ sun R 49 = Ok w /\ Bltb w (dbl 1 0) = true.
Proof. exact lin_end_below. Qed.
Print Assumptions C86_end_reached_refuted.
(** ... and the elements lie between the end points: linspace(8, 0, 29) goes beyond 29. *)
Theorem C86_inside_refuted : forall c, exists R w, lin64 c 8 (dbl 0 0) (dbl 29 0) = Ok R /\ sun R 7 = Ok w /\ is_finite w = true /\ Bltb (dbl 29 0) w = true.
Proof. exact lin_end_above. Qed.
Print Assumptions C86_inside_refuted.
(** The elements are distinct if the end points are: linspace(3, 1, 1 + 2^-52) begins with 1, 1. *)
Theorem C86_distinct_refuted : forall c, exists R v w, lin64 c 3 (dbl 1 0) (dbl 4503599627370497 (-52)) = Ok R /\ sun R 0 = Ok v /\ sun R 1 = Ok w /\
  Bltb (dbl 1 0) (dbl 4503599627370497 (-52)) = true /\ Beqb v w = true.
Proof. exact lin_repeats. Qed.
Print Assumptions C86_distinct_refuted.
(** Finite end points give a finite grid: from the lowest to the largest double it begins with NaN. *)
Theorem C86_finite_refuted : forall c, exists R v, lin64 c 3 (dbl (- (2 ^ 53 - 1)) 971) (dbl (2 ^ 53 - 1) 971) = Ok R /\ is_finite (dbl (2 ^ 53 - 1) 971) = true /\ sun R 0 = Ok v /\ is_nan v = true.
Proof. exact lin_whole_line. Qed.
Print Assumptions C86_finite_refuted.

(** ** Cases *)
Definition at_ (m : outcome (src1 double)) (i : Z) : option SpecFloat.spec_float := match m with Ok R => match sun R i with Ok v => Some (B2SF v) | _ => None end | _ => None end.
Example C86_case : map (at_ (seq64 c_dbg 4 (dbl 1 (-1)) (dbl (-3) (-2)))) [0; 1; 2; 3] = map (fun z => Some (B2SF (dbl z (-2)))) [2; -1; -4; -7] /\
  map (at_ (lin64 c_off 5 (dbl 1 0) (dbl (-1) 0))) [0; 1; 2; 3; 4] = map (fun z => Some (B2SF (dbl z (-1)))) [2; 1; 0; -1; -2] /\
  at_ (lin64 c_dbg 50 (dbl 0 0) (dbl 1 0)) 49 = Some (B2SF (dbl 9007199254740991 (-53))) /\
  at_ (lin64 c_dbg 8 (dbl 0 0) (dbl 29 0)) 7 = Some (B2SF (dbl 8162774324609025 (-48))) /\
  is_finite (Bminus mode_NE (dbl (2 ^ 53 - 1) 971) (dbl (- (2 ^ 53 - 1)) 971)) = false.
Proof. repeat split; vm_compute; reflexivity. Qed.
Example C86_whole_case : whole 53 1024 (dbl 2 0) /\ whole 53 1024 (dbl (-13) 0) /\ (Rabs (B2R (dbl 2 0)) + IZR 1000 * Rabs (B2R (dbl (-13) 0)) <= bpow radix2 53)%R /\
  (Rabs (B2R (dbl (-13) 0) - B2R (dbl 2 0)) <= bpow radix2 53)%R /\ (B2R (dbl (-13) 0) - B2R (dbl 2 0) = IZR (-3 * (6 - 1)))%R /\ 1000 <= 2 ^ 53.
Proof.
  destruct (dbl_real 2 0) as [A1 A2]; [cbn; lia|lia|lia|]. destruct (dbl_real (-13) 0) as [B1 B2]; [cbn; lia|lia|lia|]. change (bpow radix2 0) with 1%R in A2, B2. rewrite Rmult_1_r in A2, B2.
  split; [split; [exact A1|now exists 2]|]. split; [split; [exact B1|now exists (-13)]|]. rewrite A2, B2. change (bpow radix2 53) with (IZR (2 ^ 53)).
  replace (Rabs 2) with 2%R by (symmetry; apply Rabs_pos_eq; lra). replace (Rabs (-13)) with 13%R by (symmetry; rewrite Rabs_left; lra). replace (Rabs (-13 - 2)) with 15%R by (rewrite Rabs_left; lra).
  split; [cbn; lra|]. split; [cbn; lra|]. split; [cbn; lra|]. lia.
Qed.
