(** Consequences and cases for the accuracy of the plain reductions. *)
From Coq Require Import ZArith Reals Lra Lia.
From Flocq Require Import Core BinarySingleNaN.
From Verif Require Import Base.Outcome Base.ZList Model.IntModel Model.Index Model.Array1D Model.Array2D Model.View2D Model.Expr Model.Reduce Model.StableOps Model.FloatModel.
From Verif Require Import Spec.ExprSpec Spec.ReduceSpec Spec.NormSpec Spec.StableSpec Spec.FloatSpec Spec.PlainSpec.
From Verif Require Import Proofs.ExprProofs Proofs.ExprMore Proofs.ReduceProofs Proofs.StableNorms Proofs.FloatAcc Proofs.PlainAcc.
Import ListNotations.
Local Open Scope R_scope.

Theorem sums_whole prec emax {Hp : Prec_gt_0 prec} {He : Prec_lt_emax prec emax} (P2 : (1 < prec)%Z) (c : cfg) (A : src1 (binary_float prec emax)) l : yields A (map Ok l) -> l <> [] -> Forall (whole prec emax) l ->
  norm1 (reals prec emax l) <= bpow radix2 prec -> forall d,
  (exists v, r_sum (add_f prec emax) A d = Ok v /\ whole prec emax v /\ B2R v = rsum (reals prec emax l)) /\
  (exists v, stable_sum (fnum prec emax) A d = Ok v /\ whole prec emax v /\ B2R v = rsum (reals prec emax l)) /\
  ((zlen l / 64 <= amax c)%Z -> exists v, semi_stable_sum (fnum prec emax) c A d = Ok v /\ whole prec emax v /\ B2R v = rsum (reals prec emax l)).
Proof.
  intros HA HN HW HB d. split; [|split].
  - exact (sum_whole prec emax P2 A l HA HN HW HB d).
  - exact (stable_sum_whole prec emax P2 A l HA HN HW HB d).
  - exact (semi_sum_whole prec emax P2 c A l HA HN HW HB d).
Qed.
Theorem semi_dot_other {V} (N : num V) c (A B : src1 V) l k d : yields A l -> yields B k ->
  (zlen l <> zlen k -> checked c = true -> semi_stable_dot_prod N c A B d = Fail (report c)) /\ (l = [] -> k = [] -> semi_stable_dot_prod N c A B d = Ok d).
Proof.
  intros (E1 & _) (E2 & _). unfold semi_stable_dot_prod. rewrite E1, E2. split.
  - intros HL HC. replace (zlen l =? zlen k)%Z with false by lia. now rewrite check_debug_false.
  - intros -> ->. now rewrite check_debug_true.
Qed.

Lemma dbl_real m e : (Z.abs m <= 2 ^ 53)%Z -> (-1074 <= e)%Z -> (e <= 900)%Z -> is_finite (dbl m e) = true /\ B2R (dbl m e) = IZR m * bpow radix2 e.
Proof.
  intros HM HE HE'. assert (FF : generic_format radix2 (SpecFloat.fexp 53 1024) (F2R (Float radix2 m e))).
  { change (SpecFloat.fexp 53 1024) with (FLT_exp (-1074) 53). destruct (Z.eq_dec (Z.abs m) (2 ^ 53)) as [E|NE].
    - apply generic_format_abs_inv. rewrite <- F2R_Zabs, E. replace (F2R (Float radix2 (2 ^ 53) e)) with (bpow radix2 (53 + e)) by (unfold F2R; cbn [Fnum Fexp]; rewrite bpow_plus; reflexivity). apply generic_format_bpow'; [typeclasses eauto|]. unfold FLT_exp. lia.
    - apply generic_format_FLT. exists (Float radix2 m e); [reflexivity|cbn [Fnum]; change (radix2 ^ 53)%Z with (2 ^ 53)%Z; lia|cbn [Fexp]; lia]. }
  unfold dbl. generalize (binary_normalize_correct 53 1024 prec53 emax1024 mode_NE m e false). cbn [round_mode]. rewrite round_generic by (exact FF || typeclasses eauto). rewrite Rlt_bool_true.
  - intros (B1 & B2 & _). split; [exact B2|]. rewrite B1. reflexivity.
  - rewrite <- F2R_Zabs. unfold F2R. cbn [Fnum Fexp]. apply Rle_lt_trans with (bpow radix2 53 * bpow radix2 e).
    + apply Rmult_le_compat_r; [apply bpow_ge_0|]. change (bpow radix2 53) with (IZR (2 ^ 53)). now apply IZR_le.
    + rewrite <- bpow_plus. apply bpow_lt. lia.
Qed.
Lemma stuck_step : fadd 53 1024 (dbl 1 0) (dbl 1 (-53)) = dbl 1 0.
Proof. apply B2SF_inj. vm_compute. reflexivity. Qed.
Theorem plain_stuck (N : nat) : let l := dbl 1 0 :: repeat (dbl 1 (-53)) N in (zlen l <= LONG_MAX)%Z ->
  r_sum (add_f 53 1024) (src_of_list l) dnan = Ok (dbl 1 0) /\ B2R (dbl 1 0) = 1 /\ rsum (reals 53 1024 l) = 1 + INR N * bpow radix2 (-53).
Proof.
  cbv zeta. intros HL. destruct (dbl_real 1 0) as [_ R1]; [cbn; lia|lia|lia|]. destruct (dbl_real 1 (-53)) as [_ R2]; [cbn; lia|lia|lia|]. split; [|split].
  - unfold r_sum. rewrite (fold_ok _ _ _ dnan (yields_list _ HL)). cbn [map bind]. unfold add_f. rewrite foldo_pure. f_equal. clear. induction N as [|N IH]; [reflexivity|]. cbn [repeat fold_left].
    change (Bplus mode_NE (dbl 1 0) (dbl 1 (-53))) with (fadd 53 1024 (dbl 1 0) (dbl 1 (-53))). rewrite stuck_step. exact IH.
  - rewrite R1. cbn. ring.
  - change (reals 53 1024 (dbl 1 0 :: repeat (dbl 1 (-53)) N)) with (B2R (dbl 1 0) :: reals 53 1024 (repeat (dbl 1 (-53)) N)). rewrite rsum_cons, R1. change (bpow radix2 0) with 1. replace (1 * 1) with 1 by ring. f_equal. clear HL R1.
    induction N as [|N IH]; [change (rsum (reals 53 1024 (repeat (dbl 1 (-53)) 0))) with 0; cbn; ring|]. change (reals 53 1024 (repeat (dbl 1 (-53)) (Datatypes.S N))) with (B2R (dbl 1 (-53)) :: reals 53 1024 (repeat (dbl 1 (-53)) N)).
    rewrite rsum_cons, IH, R2, S_INR. ring.
Qed.
Lemma whole_case : Forall (whole 53 1024) [dbl 3 0; dbl (-4) 0; dbl 1 52] /\ norm1 (reals 53 1024 [dbl 3 0; dbl (-4) 0; dbl 1 52]) <= bpow radix2 53.
Proof.
  destruct (dbl_real 3 0) as [A1 A2]; [cbn; lia|lia|lia|]. destruct (dbl_real (-4) 0) as [B1 B2]; [cbn; lia|lia|lia|]. destruct (dbl_real 1 52) as [C1 C2]; [cbn; lia|lia|lia|]. split.
  - repeat constructor; auto; [exists 3%Z; rewrite A2|exists (-4)%Z; rewrite B2|exists (2 ^ 52)%Z; rewrite C2]; cbn; ring.
  - unfold reals. cbn [map]. rewrite !norm1_cons, A2, B2, C2. change (norm1 []) with 0. change (bpow radix2 0) with 1. change (bpow radix2 52) with (IZR (2 ^ 52)). change (bpow radix2 53) with (IZR (2 ^ 53)). 
    rewrite (Rabs_pos_eq (3 * 1)), (Rabs_left (-4 * 1)), (Rabs_pos_eq (1 * IZR (2 ^ 52))) by (cbn; lra). cbn. lra.
Qed.
Lemma matvec_case : exists A, yields2 A (mkmx 2 (zlen [dbl 3 0; dbl (-4) 0; dbl 1 (-60)]) (fun i j => Ok (dbl (i + j) 0))).
Proof.
  exists (mksrc2 2 3 6 (fun i j => Ok (dbl (i + j) 0)) (fun p => Ok (dbl (p / 3 + p mod 3) 0))). unfold yields2. cbn [mr mc mel s2rows s2cols s2size s2un s2lin]. change (zlen [dbl 3 0; dbl (-4) 0; dbl 1 (-60)]) with 3%Z. unfold LONG_MAX.
  repeat split; try lia. intros i j Hi Hj. do 2 f_equal. rewrite Z.div_add_l, Z.div_small, (Z.add_comm (i * 3)), Z.mod_add, Z.mod_small by lia. lia.
Qed.
