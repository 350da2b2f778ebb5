(** stable_prod in IEEE arithmetic. *)
From Coq Require Import ZArith Reals Lra Lia.
From Flocq Require Import Core BinarySingleNaN.
From Verif Require Import Base.Outcome Base.ZList Model.Index Model.Array1D Model.Expr Model.Reduce Model.StableOps Model.FloatModel.
From Verif Require Import Spec.ExprSpec Spec.ReduceSpec Spec.NormSpec Spec.FloatSpec.
From Verif Require Import Proofs.ReduceProofs Proofs.StableLoops Proofs.FloatProofs Proofs.FloatSum.
Local Open Scope R_scope.

Section FPROD.
Context (prec emax : Z) {Hp : Prec_gt_0 prec} {He : Prec_lt_emax prec emax}.
Hypothesis P2 : (1 < prec)%Z.
Notation flt := (binary_float prec emax).
Notation F := (fnum prec emax).
Notation fadd := (fadd prec emax).
Notation fmul := (fmul prec emax).
Notation fzero := (fzero prec emax).
Notation fprod := (fprod prec emax).

Lemma fprod_args l : forall p, is_finite (fprod p l) = true -> is_finite p = true.
Proof.
  induction l as [|x l IH]; intros p H; [exact H|]. apply IH in H. apply (mult_args prec emax p x) in H. tauto.
Qed.
Lemma prod_res_errors l : forall p, is_finite (fprod p l) = true -> steps_no_underflow prec emax p l -> step_errors prec emax p l (prod_res F p l).
Proof.
  induction l as [|x l IH]; intros p H HU; [exact I|]. destruct HU as [HU1 HU2]. cbn [prod_res step_errors].
  pose proof (fprod_args l (fmul p x) H) as H1. pose proof (mult_args prec emax p x H1) as [HPf HXf].
  destruct (two_prods_ok prec emax P2 p x HPf HXf H1 HU1) as (r & s & E & E1 & E2 & E3 & E4). rewrite E. cbn [snd].
  assert (r = fmul p x) as -> by (apply (f_equal fst) in E; now symmetry).
  split; [exact E2|]. split; [exact E4|]. apply IH; assumption.
Qed.
Lemma carried_total l : forall p es, step_errors prec emax p l es -> B2R p * rprod (reals prec emax l) = B2R (fprod p l) + carried prec emax es l.
Proof.
  induction l as [|x l IH]; intros p [|e es] H; cbn [step_errors] in H; try contradiction.
  - unfold rprod, total. cbn. ring.
  - destruct H as (H1 & H2 & H3). specialize (IH _ _ H3). change (fprod p (x :: l)) with (fprod (fmul p x) l). cbn [carried].
    unfold reals, rprod, total in *. cbn [map fold_right]. rewrite <- Rmult_assoc, <- H2. lra.
Qed.
Lemma off_corrections ra : forall sc t, fst (fold_left (off_step F) ra (sc, t)) = fold_left (sum_step F) (corrections prec emax t ra) sc.
Proof.
  induction ra as [|[r a] ra IH]; intros sc t; [reflexivity|]. cbn [fold_left corrections]. unfold off_step at 2. cbn [fst snd]. apply IH.
Qed.
Lemma yields_list {V} (l : list V) : (zlen l <= LONG_MAX)%Z -> yields (src_of_list l) (map Ok l).
Proof.
  intros H. unfold yields, src_of_list. cbn [ssize sun]. rewrite zlen_map. split; [reflexivity|]. split; [exact H|]. intros i Hi. unfold elt, oget. rewrite znth_map. destruct (znth l i); reflexivity.
Qed.
Lemma length_corrections ra : forall t, length (corrections prec emax t ra) = length ra.
Proof. induction ra as [|[r a] ra IH]; intros t; [reflexivity|]. cbn. now rewrite IH. Qed.
Theorem stable_prod_float c A x l d : (zlen l <= amax c)%Z -> yields A (map Ok (x :: l)) -> is_finite (fprod x l) = true -> steps_no_underflow prec emax x l ->
  exists es off, stable_prod F c A d = Ok (fadd (fprod x l) off) /\ step_errors prec emax x l es /\
    stable_sum F (src_of_list (corrections prec emax Bone (rev (combine es l)))) fzero = Ok off /\
    rprod (reals prec emax (x :: l)) = B2R (fprod x l) + carried prec emax es l.
Proof.
  intros HM HA HF HU. pose proof (prod_res_errors l x HF HU) as HE. exists (prod_res F x l), (prod_offset F x l). split; [exact (stable_prod_loop F c A x l d HM HA)|]. split; [exact HE|]. split.
  - destruct l as [|y l]; [reflexivity|]. unfold prod_offset. set (k := y :: l) in *. rewrite off_corrections.
    apply stable_sum_loop.
    + apply yields_list. unfold zlen. rewrite length_corrections, rev_length, combine_length. pose proof HA as (_ & HL & _). rewrite zlen_map, zlen_cons in HL. unfold zlen in HL. lia.
    + intros E. apply (f_equal (@length _)) in E. rewrite length_corrections, rev_length, combine_length in E. pose proof (zlen_prod_res F x k) as E2. unfold zlen in E2. subst k. cbn [length] in *. lia.
  - rewrite <- (carried_total l x _ HE). reflexivity.
Qed.
(** A finite result means that every partial product was finite. *)
Theorem stable_prod_finite c A x l d v : (zlen l <= amax c)%Z -> yields A (map Ok (x :: l)) -> stable_prod F c A d = Ok v -> is_finite v = true -> is_finite (fprod x l) = true.
Proof.
  intros HM HA HV HF. rewrite (stable_prod_loop F c A x l d HM HA) in HV. injection HV as <-. apply plus_args in HF. apply HF.
Qed.
(** The product of a single negative zero comes out positive. *)
Theorem stable_prod_negative_zero c A d : (0 <= amax c)%Z -> yields A [Ok (B754_zero true)] -> stable_prod F c A d = Ok (B754_zero false).
Proof. intros HM HA. now rewrite (stable_prod_loop F c A (B754_zero true) [] d). Qed.
End FPROD.

(** A test for the absence of underflow, used in the examples. *)
Section TEST.
Context (prec emax : Z) {Hp : Prec_gt_0 prec} {He : Prec_lt_emax prec emax}.
Notation flt := (binary_float prec emax).
Definition nub (x y : flt) : bool :=
  match B2SF x, B2SF y with
  | SpecFloat.S754_finite _ _ e, SpecFloat.S754_finite _ _ e' => (2 - emax + prec <=? e + e')%Z
  | SpecFloat.S754_zero _, _ => true
  | _, SpecFloat.S754_zero _ => true
  | _, _ => false
  end.
Lemma nub_ok x y : nub x y = true -> no_underflow prec emax x y.
Proof.
  unfold nub, no_underflow. destruct x as [s|s| |s m e h], y as [s'|s'| |s' m' e' h']; cbn [B2SF B2R]; intros H; try discriminate; try (left; ring).
  right. rewrite Rabs_mult, <- !F2R_Zabs.
  apply Rle_trans with (bpow radix2 (e + e')); [apply bpow_le; lia|]. rewrite bpow_plus. 
  assert (G : forall b q f, bpow radix2 f <= F2R (Float radix2 (Z.abs (SpecFloat.cond_Zopp b (Z.pos q))) f)).
  { intros b q f. replace (Z.abs (SpecFloat.cond_Zopp b (Z.pos q))) with (Z.pos q) by now destruct b. unfold F2R. cbn [Fnum Fexp]. rewrite <- (Rmult_1_l (bpow radix2 f)) at 1. apply Rmult_le_compat_r; [apply bpow_ge_0|]. apply IZR_le. lia. }
  apply Rmult_le_compat; try apply bpow_ge_0; apply G.
Qed.
Fixpoint nubs (l k : list flt) : bool := match l, k with x :: l', y :: k' => nub x y && nubs l' k' | _, _ => true end.
Lemma nubs_ok l : forall k, nubs l k = true -> no_underflows prec emax l k.
Proof. induction l as [|x l IH]; intros [|y k] H; try exact I. cbn [nubs] in H. apply andb_prop in H. destruct H as [H1 H2]. split; [now apply nub_ok|now apply IH]. Qed.
Fixpoint snubs (p : flt) (l : list flt) : bool := match l with [] => true | x :: l' => nub p x && snubs (FloatSpec.fmul prec emax p x) l' end.
Lemma snubs_ok l : forall p, snubs p l = true -> steps_no_underflow prec emax p l.
Proof. induction l as [|x l IH]; intros p H; [exact I|]. cbn [snubs] in H. apply andb_prop in H. destruct H as [H1 H2]. split; [now apply nub_ok|now apply IH]. Qed.
End TEST.
